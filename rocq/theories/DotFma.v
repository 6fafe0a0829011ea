(** Error of fma and of sums of two products when FT does not hold the exact product. *)
From Coq Require Import ZArith QArith Qabs Lia Lqa List.
From Verif Require Import Res Traits Cfg Spec SpecDot Unpacked Posit Posit2 QPow Core SpecLemmas DecodeProof Final1 Final2 Final4 Fma Fma2 Dot Fma.
Import ListNotations.
Open Scope Z_scope.

Lemma pm_add_dot c a b d g : pm_add c (a, b) (d, g) = p_dot c [(a, b); (d, g)].
Proof.
  rewrite pm_add_uprod. unfold uprod. cbn [p_dot dot_acc fst snd].
  repeat match goal with |- context [bind (unpack ?c ?x)] => destruct (unpack c x); cbn [bind]; [|reflexivity]
    | |- context [bind (u_mul ?f ?e ?x ?y)] => destruct (u_mul f e x y); cbn [bind]; [|reflexivity] | |- context [bind (u_add ?f ?e ?x ?y)] => destruct (u_add f e x y); cbn [bind]; [|reflexivity] end.
  reflexivity.
Qed.
Lemma two_products_error c a b d g : valid_cfg c -> exp_ok c -> frac_fits c -> (cH c = 8 -> cN c + ces c < 8 -> cF c <= 32) ->
  real c a -> real c b -> real c d -> real c g ->
  pm_add c (a, b) (d, g) = UB ShiftCount \/
  exists r x, pm_add c (a, b) (d, g) = Ok r /\ rounds_tz c x r /\
    (Qabs (x - (value c a * value c b + value c d * value c g)) <= ((1 + pow2 (4 - cF c)) ^ 2 - 1) * (Qabs (value c a * value c b) + Qabs (value c d * value c g)))%Q.
Proof.
  intros V X FF H8 A B D G. rewrite pm_add_dot.
  destruct (dot_error c V FF H8 [(a, b); (d, g)] X) as [E|(r & x & E1 & E2 & E3)].
  - constructor; [split; assumption|]. constructor; [split; assumption|constructor].
  - cbn [length]. lia.
  - left. exact E.
  - right. exists r, x. split; [exact E1|]. split; [exact E2|]. unfold dot_exact, dot_magnitude in E3. cbn [fold_right fst snd length Z.of_nat Pos.of_succ_nat Pos.succ] in E3.
    assert (Q1 : (value c a * value c b + (value c d * value c g + 0) == value c a * value c b + value c d * value c g)%Q) by ring.
    assert (Q2 : (Qabs (value c a * value c b) + (Qabs (value c d * value c g) + 0) == Qabs (value c a * value c b) + Qabs (value c d * value c g))%Q) by ring.
    rewrite Q1, Q2 in E3. exact E3.
Qed.
Lemma fma_error c a b d : valid_cfg c -> exp_ok c -> mul_fits c -> (cH c = 8 -> cN c + ces c < 8 -> cF c <= 32) -> real c a -> real c b -> real c d ->
  p_fma c a b d = UB ShiftCount \/
  exists r x, p_fma c a b d = Ok r /\ rounds_tz c x r /\
    (Qabs (x - (value c a * value c b + value c d)) <= ((1 + pow2 (4 - cF c)) ^ 2 - 1) * (Qabs (value c a * value c b) + Qabs (value c d)))%Q.
Proof.
  intros V X MF H8 A B D. vcb V. assert (FF : frac_fits c) by (unfold mul_fits, frac_fits in *; lia).
  destruct (constants c V) as (_ & VO & _ & _ & _ & RO & _).
  assert (K : forall g, real c g -> pm_add c (a, b) (d, g) = p_fma c a b d -> (value c d * value c g == value c d)%Q -> 
    p_fma c a b d = UB ShiftCount \/
    exists r x, p_fma c a b d = Ok r /\ rounds_tz c x r /\
    (Qabs (x - (value c a * value c b + value c d)) <= ((1 + pow2 (4 - cF c)) ^ 2 - 1) * (Qabs (value c a * value c b) + Qabs (value c d)))%Q).
  { intros g G EQ EV. destruct (two_products_error c a b d g V X FF H8 A B D G) as [E|(r & x & E1 & E2 & E3)]; [left; congruence|right].
    exists r, x. split; [congruence|]. split; [exact E2|]. rewrite EV in E3. exact E3. }
  destruct (Z.eq_dec d 0) as [->|ND].
  - apply (K (p_one c) RO).
    + rewrite (proj1 (fma_degenerate c a b 0 V X MF A B D)).
      rewrite pm_add_dot.
      rewrite (dot_zero_term c 0 (p_one c) [] (a, b) V FF D RO (or_introl eq_refl)). apply dot_one.
    + rewrite VO. ring.
  - apply (K (p_one c) RO).
    + rewrite pm_add_dot. exact (dot_two c a b d V MF A B D ND).
    + rewrite VO. ring.
Qed.
