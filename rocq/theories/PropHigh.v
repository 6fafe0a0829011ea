(** Sums of products of integers in unpacked numbers. *)
From Coq Require Import ZArith QArith Qabs Lia Bool List.
From Verif Require Import Res Bits Traits Unpacked Cfg Spec SpecHigh HighPrec Examples HighPrecProof.
Import ListNotations.
Open Scope Z_scope.

(** C162. Two arrays of floats of any format with integer values, of any length: as long as the products and the partial sums stay below 2^(F-3), the loop finds the
    sum of the products, and what is returned is the float of largest magnitude not above it. *)
Theorem C162_dot eb fb F E l li :
  fmt_ok eb fb -> is_width F -> is_width E -> 16 <= E -> fb + 2 <= F ->
  Forall2 (fun p ij => 0 <= fst p < 2 ^ (eb + fb + 1) /\ 0 <= snd p < 2 ^ (eb + fb + 1) /\
    (exists q, ieee_val eb fb (fst p) = FinVal q /\ (q == inject_Z (fst ij))%Q) /\ (exists q, ieee_val eb fb (snd p) = FinVal q /\ (q == inject_Z (snd ij))%Q)) l li ->
  dot_within (2 ^ (F - 3)) 0 li ->
  exists r, hp_loop F E (any_floattrait eb fb true) u_zero l = Ok r /\
    (dot_int li = 0 -> r = u_zero) /\
    (dot_int li <> 0 -> exists n e f, r = U Regular n e f /\ 0 <= f < 2 ^ F /\ (uvalue F n e f == inject_Z (dot_int li))%Q) /\
    exists b, hp_test F E (any_floattrait eb fb true) l = Ok b /\ float_trunc eb fb (inject_Z (dot_int li)) b.
Proof. intros FO WF WE E16 FF. exact (hp_all eb fb F E FO WF WE E16 FF l li). Qed.
Print Assumptions C162_dot.
(** The arrays of the test program: the sum of the doubles is 0, that of the unpacked numbers 2. *)
Example C162_ex :
  let l := [(0x41b312d000000000, 0x418312d000000000); (0x3ff0000000000000, 0x3ff0000000000000); (0xbff0000000000000, 0xbff0000000000000); (0x419312d000000000, 0xc1a312d000000000)] in
  let li := [(320000000, 40000000); (1, 1); (-1, -1); (80000000, -160000000)] in
  fmt_ok 11 52 /\ is_width 64 /\ is_width 32 /\
  Forall2 (fun p ij => 0 <= fst p < 2 ^ (11 + 52 + 1) /\ 0 <= snd p < 2 ^ (11 + 52 + 1) /\
    (exists q, ieee_val 11 52 (fst p) = FinVal q /\ (q == inject_Z (fst ij))%Q) /\ (exists q, ieee_val 11 52 (snd p) = FinVal q /\ (q == inject_Z (snd ij))%Q)) l li /\
  dot_within (2 ^ (64 - 3)) 0 li /\ dot_int li = 2 /\ hp_test 64 32 (any_floattrait 11 52 true) l = Ok 0x4000000000000000.
Proof.
  cbv zeta. split; [constructor; unfold is_width; lia|]. unfold is_width. do 2 (split; [lia|]).
  split; [repeat (apply Forall2_cons; [cbn [fst snd]; split; [vm_compute; split; [discriminate|reflexivity]|]; split; [vm_compute; split; [discriminate|reflexivity]|];
    split; eexists; (split; [vm_compute; reflexivity|vm_compute; reflexivity])|]); apply Forall2_nil|].
  split; [vm_compute; repeat split|]. split; [reflexivity|vm_compute; reflexivity].
Qed.
(** Past the bound it is lost: 2^63 + 1 - 2^63 is 0. *)
Theorem C162_limit : exists q1 q2 q3, ieee_val 11 52 0x43e0000000000000 = FinVal q1 /\ (q1 == inject_Z (2 ^ 63))%Q /\ ieee_val 11 52 0x3ff0000000000000 = FinVal q2 /\ (q2 == 1)%Q /\
  ieee_val 11 52 0xbff0000000000000 = FinVal q3 /\ (q3 == -1)%Q /\
  hp_test 64 32 (any_floattrait 11 52 true) [(0x43e0000000000000, 0x3ff0000000000000); (0x3ff0000000000000, 0x3ff0000000000000); (0x43e0000000000000, 0xbff0000000000000)] = Ok 0 /\
  dot_int [(2 ^ 63, 1); (1, 1); (2 ^ 63, -1)] = 1.
Proof. exact hp_limit. Qed.
Print Assumptions C162_limit.
