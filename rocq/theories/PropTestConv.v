(** C165. The test case "Conversions" holds of every number of every format. *)
From Coq Require Import ZArith QArith Qabs List.
From Verif Require Import Res Traits Cfg Spec Unpacked Posit Soft Configs Examples DumpProof TestConv TestConvProof.
Import ListNotations.
Open Scope Z_scope.

(** Full statement: for every float whose value the posit format holds, infinities included, the float, its unpacked
    form, its posit and the unpacked form of that agree. Here for normal floats: [v] is the posit with the same value;
    [conv_test] gives the four conditions that the test requires. *)
Theorem C165_number_partial c eb fb den f q v :
  valid_cfg c -> exp_ok c -> fmt_ok eb fb -> et_holds c eb -> frac_fits c -> 0 <= f < 2 ^ (eb + fb + 1) ->
  ieee_val eb fb f = FinVal q -> (pow2 (2 - 2 ^ (eb - 1)) <= Qabs q)%Q -> real c v -> (q == value c v)%Q -> room c q ->
  p_of_float c (any_floattrait eb fb den) f = Ok v /\ conv_test c eb fb den f = Ok (true, true, true, true).
Proof. exact (conv_holds c eb fb den f q v). Qed.
Print Assumptions C165_number_partial.
(** The zeros of either sign. *)
Theorem C165_zero c eb fb den f q :
  valid_cfg c -> fmt_ok eb fb -> et_holds c eb -> 0 <= f < 2 ^ (eb + fb + 1) -> ieee_val eb fb f = FinVal q -> (q == 0)%Q ->
  p_of_float c (any_floattrait eb fb den) f = Ok 0 /\ conv_test c eb fb den f = Ok (true, true, true, true).
Proof. exact (conv_zero c eb fb den f q). Qed.
Print Assumptions C165_zero.
(** An infinity of sign [s] passes in formats with two infinities. In formats with one infinity that comes back as the
    negative one, in formats with NaN only it becomes NaN. *)
Theorem C165_infinity_refuted c eb fb den f s :
  valid_cfg c -> fmt_ok eb fb -> et_holds c eb -> 0 <= f < 2 ^ (eb + fb + 1) -> ieee_val eb fb f = InfVal s ->
  conv_test c eb fb den f =
    Ok (match csp c with WithNanInf => (true, true, true, true) | WithInf => (true, true, s, s) | WithNan => (true, false, false, false) end).
Proof. exact (conv_inf c eb fb den f s). Qed.
Print Assumptions C165_infinity_refuted.
(** The format of tests/testposit.cpp 14 with the numbers of tests/testsposit.hpp 37; INFINITY fails. *)
Example C165_ex : valid_cfg p28_5 /\ exp_ok p28_5 /\ fmt_ok 11 52 /\ et_holds p28_5 11 /\ frac_fits p28_5 /\ roomy p28_5 /\
  Forall (fun f => conv_test p28_5 11 52 true f = Ok (true, true, true, true))
    [0x3ff0000000000000; 0x4000000000000000; 0x4010000000000000; 0x4024000000000000; 0xbff0000000000000; 0xc000000000000000;
     0xc010000000000000; 0xc024000000000000; 0x3fe0000000000000; 0x3fd0000000000000] /\
  conv_test p28_5 11 52 true 0x7ff0000000000000 = Ok (true, false, false, false) /\
  ieee_val 11 52 0x7ff0000000000000 = InfVal false /\
  p_of_float p28_5 (any_floattrait 11 52 true) 0xc024000000000000 = Ok (-70516736) /\ real p28_5 (-70516736) /\
  (value p28_5 (-70516736) == -10)%Q /\ room p28_5 (-10).
Proof.
  split; [exact valid_p28_5|]. split; [ex|]. split; [exact fmt_d|]. split; [ex|]. split; [ex|]. split; [ex|].
  split; [repeat (apply Forall_cons; [vm_compute; reflexivity|]); apply Forall_nil|].
  split; [vm_compute; reflexivity|]. split; [vm_compute; reflexivity|]. split; [vm_compute; reflexivity|].
  split; [ex|]. split; [vm_compute; reflexivity|]. exact room_p28_5.
Qed.
