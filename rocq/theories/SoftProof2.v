(** numeric_limits<softfloat32>. *)
From Coq Require Import ZArith QArith Qabs Lia Lqa List Bool Setoid.
From Verif Require Import Soft Res CInt Bits Traits Spec SpecFloat SpecAny FloatOps QPow Core SpecLemmas Arith EncodeProof Conv1 FloatProof FloatProof2 PositFProof Misc4 SoftProof.
Open Scope Z_scope.

Lemma float_above eb fb g q : fmt_ok eb fb -> 0 <= g -> is_float eb fb q -> (mval eb fb g < q)%Q -> (mval eb fb (g + 1) <= q)%Q.
Proof.
  intros FO G (b & x & B & I & X) L. destruct (ieee_code_inv eb fb FO b x B I) as (s & h & H & _ & E).
  destruct s; cbn [sgq] in E.
  - exfalso. pose proof (mval_le eb fb FO 0 g) as P. rewrite (mval_0 eb fb FO) in P. pose proof (mval_le eb fb FO 0 h) as P'.
    rewrite (mval_0 eb fb FO) in P'. assert (0 <= mval eb fb g)%Q by (apply P; lia). assert (0 <= mval eb fb h)%Q by (apply P'; lia). lra.
  - assert (g < h).
    { destruct (Z_lt_le_dec g h) as [K|K]; [assumption|exfalso]. pose proof (mval_le eb fb FO h g ltac:(lia) K). lra. }
    pose proof (mval_le eb fb FO (g + 1) h ltac:(lia) ltac:(lia)). lra.
Qed.
Lemma sl_constants :
  let finite b q := 0 <= b < 2 ^ 32 /\ ieee_val 8 23 b = FinVal q in
  (exists q, finite sl_max q /\ (forall b' q', finite b' q' -> (q' <= q)%Q)) /\
  (exists q, finite sl_lowest q /\ (forall b' q', finite b' q' -> (q <= q')%Q)) /\
  (exists q, finite sl_min q /\ (q == least_normal 8)%Q /\
     (forall b' q', finite b' q' -> (b' / 2 ^ 23) mod 2 ^ 8 <> 0 -> (q <= Qabs q')%Q)) /\
  ieee_val 8 23 sl_infinity = InfVal false /\ ieee_val 8 23 sl_quiet_NaN = NaNVal.
Proof.
  destruct (trait_constants 8 23 true fmt_f) as (_ & _ & C3 & C4 & C5 & [_ C6] & _ & [_ C8]).
  split; [exact C3|]. split; [exact C4|]. split; [exact C5|]. split; [exact C6|exact C8].
Qed.
Lemma sl_epsilon_ok : exists q, ieee_val 8 23 sl_epsilon = FinVal q /\ is_float 8 23 (1 + q) /\ (0 < q)%Q /\
  forall z, is_float 8 23 z -> (1 < z)%Q -> (1 + q <= z)%Q.
Proof.
  eexists. split; [vm_compute; reflexivity|].
  assert (M1 : (mval 8 23 0x3f800000 == 1)%Q) by (vm_compute; reflexivity).
  match goal with |- context [is_float 8 23 (1 + ?x)] => assert (M2 : (mval 8 23 (0x3f800000 + 1) == 1 + x)%Q) by (vm_compute; reflexivity) end.
  split; [|split].
  - exists 0x3f800001. eexists. split; [lia|]. split; [vm_compute; reflexivity|]. vm_compute. reflexivity.
  - vm_compute. reflexivity.
  - intros z Z L. rewrite <- M2. apply float_above; [exact fmt_f|lia|exact Z|]. rewrite M1. exact L.
Qed.
Lemma sl_denorm_ok : exists q, ieee_val 8 23 sl_denorm_min = FinVal q /\ (0 < q)%Q /\ forall z, is_float 8 23 z -> (0 < z)%Q -> (q <= z)%Q.
Proof.
  eexists. split; [vm_compute; reflexivity|].
  match goal with |- (0 < ?x)%Q /\ _ => assert (M2 : (mval 8 23 (0 + 1) == x)%Q) by (vm_compute; reflexivity) end.
  split; [vm_compute; reflexivity|]. intros z Z L. rewrite <- M2. apply float_above; [exact fmt_f|lia|exact Z|]. rewrite (mval_0 8 23 fmt_f). exact L.
Qed.
Lemma sl_digits_ok : (forall i, Z.abs i <= 2 ^ sl_digits -> is_float 8 23 (inject_Z i)) /\ ~ is_float 8 23 (inject_Z (2 ^ sl_digits + 1)).
Proof.
  split; [exact (int_float S32)|]. intros F.
  assert (M1 : (mval 8 23 0x4b800000 == inject_Z (2 ^ sl_digits))%Q) by (vm_compute; reflexivity).
  assert (M2 : (mval 8 23 (0x4b800000 + 1) == inject_Z (2 ^ sl_digits + 2))%Q) by (vm_compute; reflexivity).
  pose proof (float_above 8 23 0x4b800000 _ fmt_f ltac:(lia) F) as H. rewrite M1, M2 in H. rewrite <- Zle_Qle, <- Zlt_Qlt in H. lia.
Qed.
Lemma sl_exponent10_ok : exists lo hi, ieee_val 8 23 sl_min = FinVal lo /\ ieee_val 8 23 sl_max = FinVal hi /\
  (10 ^ (sl_min_exponent10 - 1) < lo <= 10 ^ sl_min_exponent10)%Q /\ (10 ^ sl_max_exponent10 <= hi < 10 ^ (sl_max_exponent10 + 1))%Q.
Proof. eexists. eexists. split; [vm_compute; reflexivity|]. split; [vm_compute; reflexivity|]. vm_compute. repeat split; discriminate. Qed.
Lemma sl_exponent_bad : is_float 8 23 (pow2 sl_max_exponent) /\ (pow2 (sl_min_exponent - 1) < least_normal 8)%Q.
Proof.
  split; [|vm_compute; reflexivity]. exists 0x7f000000. eexists. split; [lia|]. split; [vm_compute; reflexivity|]. vm_compute. reflexivity.
Qed.
Lemma sl_digits10_ok : 10 ^ sl_digits10 <= 2 ^ (sl_digits - 1) < 10 ^ (sl_digits10 + 1).
Proof. vm_compute. split; [discriminate|reflexivity]. Qed.

(** The statements of C110, with the width of the type. *)
Lemma w_eq s : 2 ^ sf_w s = 2 ^ (sf_eb s + sf_fb s + 1).
Proof. destruct s; reflexivity. Qed.
Lemma neg_w s v : 0 <= v < 2 ^ sf_w s -> 0 <= sf_neg s v < 2 ^ sf_w s /\
  same_ext (ieee_val (sf_eb s) (sf_fb s) (sf_neg s v)) (x_opp (ieee_val (sf_eb s) (sf_fb s) v)) /\ sf_neg s (sf_neg s v) = v.
Proof. rewrite w_eq. exact (sf_neg_ok s v). Qed.
Lemma same_of_eq x y : x = y -> same_ext x y.
Proof. intros ->. destruct y; cbn; reflexivity. Qed.
Lemma zero_pat s b : 0 <= b < 2 ^ sf_w s -> b <> 2 ^ (sf_w s - 1) -> forall q, ieee_val (sf_eb s) (sf_fb s) b = FinVal q -> (q == 0)%Q -> b = 0.
Proof.
  intros B N q I Z. rewrite w_eq in B. destruct (ieee_code_inv _ _ (sf_fmt s) b q B I) as (sg & g & G & E & Q).
  destruct (Z.eq_dec g 0) as [->|N0].
  - destruct sg; [|lia]. exfalso. apply N. rewrite E. destruct s; reflexivity.
  - exfalso. pose proof (mval_pos (sf_eb s) (sf_fb s) (sf_fmt s) g ltac:(lia)) as P. rewrite Q in Z. destruct sg; cbn [sgq] in Z; lra.
Qed.
Lemma arith_w rnd (RN : forall eb fb, fmt_ok eb fb -> rounding eb fb (rnd eb fb)) s a b : 0 <= a < 2 ^ sf_w s -> 0 <= b < 2 ^ sf_w s ->
  let eb := sf_eb s in let fb := sf_fb s in let V := ieee_val eb fb in let r x := x_round eb fb (rnd eb fb) x in
  same_ext (V (sf_add rnd s a b)) (r (x_add (V a) (V b))) /\
  same_ext (V (sf_sub rnd s a b)) (r (x_add (V a) (x_opp (V b)))) /\
  same_ext (V (sf_mul rnd s a b)) (r (x_mul (V a) (V b))) /\
  same_ext (V (sf_square rnd s a)) (r (x_mul (V a) (V a))) /\
  (b <> 2 ^ (sf_w s - 1) -> same_ext (V (sf_div rnd s a b)) (r (x_div (V a) (V b)))) /\
  (b <> 2 ^ (sf_w s - 1) -> same_ext (V (sf_inv rnd s b)) (r (x_div (FinVal 1) (V b)))).
Proof.
  intros A B. pose proof (zero_pat s b B) as ZP. rewrite w_eq in A, B. cbv zeta.
  split; [apply same_of_eq, (sf_add_ok rnd RN); assumption|].
  split; [apply (sf_sub_ok rnd RN); assumption|].
  split; [apply same_of_eq, (sf_mul_ok rnd RN); assumption|].
  split; [apply same_of_eq, (sf_mul_ok rnd RN); assumption|].
  split; intros N; [apply same_of_eq, (sf_div_ok rnd RN)|apply (sf_inv_ok rnd RN)]; try assumption; apply ZP; assumption.
Qed.
Lemma half_w rnd (RN : forall eb fb, fmt_ok eb fb -> rounding eb fb (rnd eb fb)) s a : 0 <= a < 2 ^ sf_w s ->
  let eb := sf_eb s in let fb := sf_fb s in let V := ieee_val eb fb in
  same_ext (V (sf_half rnd s a)) (x_round eb fb (rnd eb fb) (x_mul (FinVal (1 # 2)) (V a))) /\
  (forall q, V a = FinVal q -> (2 * least_normal eb <= Qabs q)%Q -> same_ext (V (sf_half rnd s a)) (FinVal (q / 2))).
Proof. intros A. rewrite w_eq in A. split; [apply (sf_half_ok rnd RN); assumption|]. intros q. apply (sf_half_exact rnd RN); assumption. Qed.
Lemma convert_w rnd (RN : forall eb fb, fmt_ok eb fb -> rounding eb fb (rnd eb fb)) s v b i : 0 <= v < 2 ^ sf_w s -> 0 <= b < 2 ^ 32 ->
  let eb := sf_eb s in let fb := sf_fb s in let V := ieee_val eb fb in let r x := x_round eb fb (rnd eb fb) x in
  (Z.abs i <= 2 ^ (fb + 1) -> same_ext (V (sf_of_int rnd s i)) (FinVal (inject_Z i))) /\
  same_ext (V (sf_zero rnd s)) (FinVal 0) /\ same_ext (V (sf_one rnd s)) (FinVal 1) /\ same_ext (V (sf_two rnd s)) (FinVal 2) /\
  same_ext (V (sf_of_float rnd s b)) (r (ieee_val 8 23 b)) /\
  (forall d, same_ext (V (sf_of_double rnd s d)) (r (ieee_val 11 52 d))) /\
  same_ext (ieee_val 8 23 (sf_to_float rnd s v)) (V v) /\ same_ext (ieee_val 11 52 (sf_to_double rnd s v)) (V v) /\
  same_ext (V (sf_of_float rnd s (sf_to_float rnd s v))) (V v) /\ same_ext (V (sf_of_double rnd s (sf_to_double rnd s v))) (V v).
Proof.
  intros A B. rewrite w_eq in A. cbv zeta. split; [intros I; apply (sf_int_ok rnd RN); exact I|].
  split; [apply (zero_ok rnd RN)|]. split; [apply (one_ok rnd RN)|]. split; [apply (two_ok rnd RN)|].
  split; [apply (sf_float_ok rnd RN); exact B|]. split; [intros d; apply same_of_eq, (sf_double_ok rnd RN)|].
  split; [apply (sf_to_ok rnd RN); exact A|]. split; [apply (sf_to_ok rnd RN); exact A|].
  exact (sf_round_trip rnd RN s v A).
Qed.
Lemma other_w rnd (RN : forall eb fb, fmt_ok eb fb -> rounding eb fb (rnd eb fb)) v w : 0 <= v < 2 ^ 16 ->
  same_ext (ieee_val 8 23 (sf_of_other rnd S32 v)) (ieee_val 5 10 v) /\
  same_ext (ieee_val 5 10 (sf_of_other rnd S16 (sf_of_other rnd S32 v))) (ieee_val 5 10 v) /\
  same_ext (ieee_val 5 10 (sf_of_other rnd S16 w)) (x_round 5 10 (rnd 5 10) (ieee_val 8 23 w)).
Proof.
  intros A. split; [apply (conv_exact rnd RN 5 10 8 23 v (sf_fmt S16) fmt_f); lia|].
  split; [apply (conv_back rnd RN S16 8 23 v fmt_f); cbn [sf_eb sf_fb]; lia|].
  apply same_of_eq. exact (proj2 (conv_ok rnd RN 8 23 5 10 w (sf_fmt S16))).
Qed.
