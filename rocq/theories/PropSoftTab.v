(** C147: the table of 2^x of softfloat16. [rnd eb fb] is the rounding to the format of eb exponent and fb fraction bits,
    [ex] the function exp2 on floats of the machine that runs the program. *)
From Coq Require Import ZArith QArith List String.
From Verif Require Import Res Traits Spec SpecFloat SpecGen SpecGenText FloatOps PositF PositFProof2 GenProof4 FloatProof Soft GenText GenTextProof3.
Import ListNotations.
Open Scope Z_scope.

(** The table is a faithful exponential on half floats: no half float lies strictly between the entry and 2^x, also for
    subnormal results; 2^x of NaN, +infinity and -infinity are NaN, +infinity and 0. *)
Theorem C147_faithful rnd ex : (forall eb fb, fmt_ok eb fb -> rounding eb fb (rnd eb fb)) -> exp2_float 8 23 ex ->
  exists t, (forall v, 0 <= v < 2 ^ 16 -> sf16_exp2 rnd ex v = Ok (t v)) /\ exp2_float 5 10 t.
Proof. exact (sf16_table rnd ex). Qed.
Print Assumptions C147_faithful.
(** It is exact when x is an integer and 2^x a half float. *)
Theorem C147_powers rnd ex v x n : (forall eb fb, fmt_ok eb fb -> rounding eb fb (rnd eb fb)) -> exp2_float 8 23 ex ->
  0 <= v < 2 ^ 16 -> ieee_val 5 10 v = FinVal x -> (x == inject_Z n)%Q -> -24 <= n <= 15 ->
  exists r y, sf16_exp2 rnd ex v = Ok r /\ 0 <= r < 2 ^ 16 /\ ieee_val 5 10 r = FinVal y /\ (y == pow2 n)%Q.
Proof. exact (fun R E => sf16_power rnd R ex E v x n). Qed.
Print Assumptions C147_powers.
(** The file the program writes defines that array. *)
Theorem C147_file rnd ex : (forall eb fb, fmt_ok eb fb -> rounding eb fb (rnd eb fb)) -> exp2_float 8 23 ex ->
  exists text zs, softfloat_gen rnd ex = Ok text /\ read_array_file text = Some ("uint16_t", "float16_opexp2", zs)%string /\
  Z.of_nat (Datatypes.length zs) = 65536 /\ Forall (c_fits "uint16_t") zs /\
  forall v, 0 <= v < 2 ^ 16 -> sf16_exp2 rnd ex v = Ok (nth (Z.to_nat v) zs 0).
Proof. exact (fun R E => softfloat_reads rnd R ex E). Qed.
Print Assumptions C147_file.
(** 0x4500 is 5.0 and 0xcc80 is -18.0, whose powers are normal and subnormal. *)
Example C147_ex : (forall eb fb, fmt_ok eb fb -> rounding eb fb (rne eb fb)) /\ exp2_float 8 23 ex_floor /\
  (exists x, ieee_val 5 10 0x4500 = FinVal x /\ (x == inject_Z 5)%Q) /\ (exists x, ieee_val 5 10 0xcc80 = FinVal x /\ (x == inject_Z (-18))%Q) /\
  (exists y, ieee_val 5 10 64 = FinVal y /\ (y == pow2 (-18))%Q).
Proof. split; [exact rne_rounding|]. split; [exact ex_floor_faithful|]. repeat split; eexists; split; vm_compute; reflexivity. Qed.
