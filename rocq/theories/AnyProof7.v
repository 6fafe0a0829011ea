(** Emulated floats: algebraic laws, predicates and counterexamples. *)
From Coq Require Import ZArith QArith Qabs Lia Lqa List Bool Setoid.
From Verif Require Import Res CInt Bits Traits Unpacked Cfg Posit Spec SpecFloat SpecAny FloatOps PositF AnyFloat QPow Core
  Conv1 Conv2 Conv3 Conv4 Conv5 TabProof4 TabProof5 FloatProof FloatProof2 PositFProof PositFProof2 PositFProof3
  AnyProof AnyProof2 AnyProof3 AnyProof4 AnyProof5 AnyProof6.
From Verif Require Misc3 Misc4 PositFProof4 Examples.
Open Scope Z_scope.

Lemma float_for_unique eb fb e r r' : fmt_ok eb fb -> float_for eb fb e r -> float_for eb fb e r' -> e <> NaNVal -> r = r'.
Proof.
  intros FO (R & H) (R' & H') NN. destruct e as [w|s|]; [|exact (ieee_inf_inj eb fb r r' s FO R R' H H')|congruence].
  destruct H as [H1 H2]. destruct H' as [H1' H2']. destruct (Qlt_le_dec (Qabs w) (least_normal eb)) as [L|L]; [rewrite H2, H2' by exact L; reflexivity|].
  destruct (H1 L) as (_ & q & I & A1 & A2 & A3). destruct (H1' L) as (_ & q' & I' & A1' & A2' & A3').
  pose proof (A3 r' q' R' I' A1') as B1. pose proof (A3' r q R I A1) as B2. pose proof (pow2_pos (2 - 2 ^ (eb - 1))) as PP. unfold least_normal in L.
  destruct (ln_float eb fb FO) as (b0 & q0 & B0 & I0 & Q0). unfold least_normal in Q0. assert (QA : (Qabs q0 == q0)%Q) by (apply Qabs_pos; lra).
  pose proof (A3 b0 q0 B0 I0 ltac:(lra)) as LQ. rewrite QA, Q0 in LQ.
  apply (ieee_inj eb fb r r' q q' FO R R' I I'); [|intros Z; rewrite Z in LQ; change (Qabs 0) with 0%Q in LQ; lra].
  destruct (abs_case q) as [[Q1 Q2]|[Q1 Q2]], (abs_case q') as [[Q1' Q2']|[Q1' Q2']], (abs_case w) as [[W1 W2]|[W1 W2]]; rewrite ?Q2, ?Q2', ?W2 in *; nra.
Qed.
Lemma xor_comm_mul a b : same_ext (x_mul a b) (x_mul b a).
Proof.
  destruct a as [p|s|], b as [q|t|]; cbn [x_mul same_ext]; try reflexivity; try ring.
  - destruct (zero_q p); reflexivity.
  - destruct (zero_q q); reflexivity.
  - rewrite xorb_comm. reflexivity.
Qed.
Lemma comm_add a b : same_ext (x_add a b) (x_add b a).
Proof.
  destruct a as [p|s|], b as [q|t|]; cbn [x_add same_ext]; try reflexivity; try ring. destruct s, t; reflexivity.
Qed.

Section laws.
Context (eb fb : Z) (k : fft) (rnd : fft -> Q -> Z).
Notation ebk := (f_eb k).
Notation fbk := (f_fb k).
Hypothesis EM : emulated eb fb ebk fbk.
Hypothesis RN : forall j, rounding (f_eb j) (f_fb j) (rnd j).
Notation X := (seen eb fb ebk).
Notation inr v := (0 <= v < 2 ^ (eb + fb + 1)).
Lemma round_nn e : e <> NaNVal -> x_round ebk fbk (rnd k) e <> NaNVal.
Proof using RN. intros N. destruct e; cbn [x_round]; try discriminate; try congruence. apply (round_not_nan ebk fbk (rnd k) (RN k)). Qed.
Lemma af_mul_comm a b : inr a -> inr b -> x_mul (X a) (X b) <> NaNVal -> af_mul eb fb k rnd a b = af_mul eb fb k rnd b a.
Proof using EM RN.
  intros A B N. destruct (af_mul_spec eb fb k rnd EM RN a b A B) as (r & O & H). destruct (af_mul_spec eb fb k rnd EM RN b a B A) as (r' & O' & H').
  rewrite O, O'. f_equal. apply (float_for_unique eb fb _ r r' (proj1 EM) H); [|apply round_nn; exact N].
  refine (float_for_same _ _ _ _ _ _ H'). apply (round_same _ _ _ (RN k)). apply xor_comm_mul.
Qed.
Lemma af_add_comm a b : inr a -> inr b -> x_add (X a) (X b) <> NaNVal -> af_add eb fb k rnd a b = af_add eb fb k rnd b a.
Proof using EM RN.
  intros A B N. destruct (af_add_spec eb fb k rnd EM RN a b A B) as (H1 & H2 & H3). destruct (af_add_spec eb fb k rnd EM RN b a B A) as (H1' & H2' & H3').
  destruct (Z.eq_dec a 0) as [ZA|ZA]; [rewrite (H1 ZA), (H2' ZA); reflexivity|]. destruct (Z.eq_dec b 0) as [ZB|ZB]; [rewrite (H2 ZB), (H1' ZB); reflexivity|].
  destruct (H3 ZA ZB) as (r & O & H). destruct (H3' ZB ZA) as (r' & O' & H').
  rewrite O, O'. f_equal. apply (float_for_unique eb fb _ r r' (proj1 EM) H); [|apply round_nn; exact N].
  refine (float_for_same _ _ _ _ _ _ H'). apply (round_same _ _ _ (RN k)). apply comm_add.
Qed.
(** One is the unit of multiplication for normal numbers. *)
Lemma af_mul_one v q : inr v -> ieee_val eb fb v = FinVal q -> (least_normal eb <= Qabs q)%Q -> af_mul eb fb k rnd (af_one eb fb) v = Ok v.
Proof using EM RN.
  intros B I L. destruct (Misc4.trait_constants eb fb true (proj1 EM)) as ((q1 & (B1 & I1) & Q1) & _).
  destruct (af_mul_spec eb fb k rnd EM RN (af_one eb fb) v B1 B) as (r & O & R & H). rewrite O. f_equal.
  assert (LL : (least_normal ebk <= least_normal eb)%Q).
  { unfold least_normal. apply pow2_le. destruct EM as ([_ [E1 E2] _] & E & _). assert (2 ^ (eb - 1) <= 2 ^ (ebk - 1)) by (apply pow2_mono; lia). lia. }
  assert (LO : (least_normal eb <= 1)%Q).
  { rewrite <- pow2_0. apply pow2_le. destruct EM as ([_ [E1 E2] _] & _). assert (2 ^ 1 <= 2 ^ (eb - 1)) by (apply pow2_mono; lia). change (2 ^ 1) with 2 in *. lia. }
  assert (S1 : seen eb fb ebk (af_one eb fb) = FinVal q1).
  { unfold seen, af_one, af_tr. rewrite I1. assert (T : (least_normal ebk <= Qabs q1)%Q) by (rewrite Q1; change (Qabs 1) with 1%Q; lra).
    apply Qle_bool_iff in T. rewrite T. reflexivity. }
  assert (S2 : seen eb fb ebk v = FinVal q).
  { unfold seen. rewrite I. assert (T : (least_normal ebk <= Qabs q)%Q) by lra. apply Qle_bool_iff in T. rewrite T. reflexivity. }
  assert (FQ : is_float eb fb q) by (exists v, q; split; [exact B|split; [exact I|reflexivity]]).
  assert (SM : same_ext (x_round ebk fbk (rnd k) (x_mul (X (af_one eb fb)) (X v))) (FinVal q)).
  { rewrite S1, S2. cbn [x_mul]. apply same_trans with (x_round ebk fbk (rnd k) (FinVal q)); [apply (round_same _ _ _ (RN k)); cbn [same_ext]; rewrite Q1; ring|].
    apply (round_exact _ _ _ (RN k)). destruct EM as (FO & E & F & _). exact (is_float_widen eb fb ebk fbk q FO (k_fmt k) E F FQ). }
  assert (H' : float_for eb fb (FinVal q) r) by (apply (float_for_same _ _ _ _ _ SM); split; assumption).
  destruct H' as [_ [H' _]]. destruct (float_trunc_exact eb fb q r (H' L) FQ) as (y & Iy & Y).
  apply (ieee_inj eb fb r v y q (proj1 EM) R B Iy I Y). intros Z. rewrite Y in Z. rewrite Z in L. change (Qabs 0) with 0%Q in L.
  pose proof (pow2_pos (2 - 2 ^ (eb - 1))). unfold least_normal in L. lra.
Qed.
End laws.

Lemma af_isnegative_spec eb fb v : fmt_ok eb fb -> 0 <= v < 2 ^ (eb + fb + 1) ->
  (x_neg (ieee_val eb fb v) -> af_isnegative eb fb v = true) /\ (x_neg (x_opp (ieee_val eb fb v)) -> af_isnegative eb fb v = false) /\
  (af_isnegative eb fb (af_neg eb fb v) = negb (af_isnegative eb fb v)).
Proof.
  intros FO B. destruct (split_sign eb fb FO v B) as (m & s & Bm & E). destruct (sbit eb fb FO) as (SG & P & D).
  assert (N : forall t : bool, af_isnegative eb fb (m + (if t then 2 ^ (eb + fb) else 0)) = t).
  { intros t. unfold af_isnegative. rewrite SG. pose proof FO as FO1. destruct FO1 as [W [E1 E2] Hf].
    assert (L : Z.land (m + (if t then 2 ^ (eb + fb) else 0)) (2 ^ (eb + fb)) = if t then 2 ^ (eb + fb) else 0).
    { apply Z.bits_inj'. intros n Hn. rewrite Z.land_spec, Z.pow2_bits_eqb by lia. destruct (Z.eqb_spec (eb + fb) n) as [<-|NE].
      - rewrite andb_true_r. destruct t.
        + rewrite Z.pow2_bits_true by lia. apply Z.testbit_true; [lia|]. replace (m + 2 ^ (eb + fb)) with (m + 1 * 2 ^ (eb + fb)) by ring.
          rewrite Z.div_add, Z.div_small by lia. reflexivity.
        + rewrite Z.add_0_r, Z.bits_0. destruct (Z.eq_dec m 0) as [->|]; [apply Z.bits_0|]. apply Z.bits_above_log2; [lia|]. apply Z.log2_lt_pow2; lia.
      - rewrite andb_false_r. destruct t; [symmetry; apply Z.pow2_bits_false; lia|symmetry; apply Z.bits_0]. }
    rewrite L. destruct t; [destruct (Z.eqb_spec (2 ^ (eb + fb)) 0); [lia|reflexivity]|reflexivity]. }
  assert (NG : af_neg eb fb v = m + (if negb s then 2 ^ (eb + fb) else 0)) by (rewrite E; unfold af_neg; rewrite SG, flip by assumption; destruct s; reflexivity).
  rewrite NG, N. rewrite E. rewrite N. destruct (ieee_signed eb fb FO m s Bm) as [A S].
  split; [|split; [|reflexivity]].
  - intros X. destruct s; [reflexivity|]. exfalso. rewrite Z.add_0_r in *. destruct (ieee_val eb fb m) as [q|t|]; cbn [x_neg] in X; [lra|congruence|contradiction].
  - intros X. destruct s; [|reflexivity]. exfalso. destruct (ieee_val eb fb m) as [q|t|], (ieee_val eb fb (m + 2 ^ (eb + fb))) as [q'|t'|]; cbn [x_opp same_ext x_neg] in *; try discriminate; try contradiction.
    + rewrite A in X. lra.
    + injection A as ->. rewrite S in X. discriminate.
Qed.

(** * Counterexamples *)
Lemma af_of_snan : exists b, 0 <= b < 2 ^ 32 /\ ieee_val 8 23 b = NaNVal /\ exists r, af_of 5 10 FFloat b = Ok r /\ ieee_val 5 10 r = InfVal false.
Proof. exists 0x7f800001. split; [lia|]. split; [reflexivity|]. eexists. split; vm_compute; reflexivity. Qed.
Lemma af_of_shift : exists b, 0 <= b < 2 ^ 64 /\ (exists q, ieee_val 11 52 b = FinVal q) /\ af_of 8 23 FDouble b = UB ShiftCount.
Proof. exists (2 ^ 20). split; [lia|]. split; [eexists; vm_compute; reflexivity|vm_compute; reflexivity]. Qed.
Lemma af_to_flush : exists v q, 0 <= v < 2 ^ 16 /\ ieee_val 8 7 v = FinVal q /\ is_float 8 23 q /\ (0 < q)%Q /\ af_to 8 7 FFloat v = Ok 0.
Proof. exists 1, (pow2 (-133)). split; [lia|]. split; [vm_compute; reflexivity|]. split; [|split; vm_compute; reflexivity].
  apply (is_float_pow2 8 23 fmt_single). vm_compute; intuition congruence. Qed.
Lemma af_add_up : exists a b p q, 0 <= a < 2 ^ 16 /\ 0 <= b < 2 ^ 16 /\ ieee_val 5 10 a = FinVal p /\ ieee_val 5 10 b = FinVal q /\
  af_add 5 10 FFloat PositFProof4.rnek a b = Ok a /\ (p + q < p)%Q /\ (0 < p + q)%Q.
Proof. exists 0x7bff, 0x8400. do 2 eexists. split; [lia|]. split; [lia|]. split; [vm_compute; reflexivity|]. split; [vm_compute; reflexivity|]. repeat split; vm_compute; reflexivity. Qed.
Lemma af_half_up : exists v r p q, 0 <= v < 2 ^ 64 /\ ieee_val 11 52 v = FinVal p /\ af_half 11 52 FDouble PositFProof4.rnek v = Ok r /\ ieee_val 11 52 r = FinVal q /\
  ((1 # 2) * p < q)%Q.
Proof. exists 0x001fffffffffffff. do 3 eexists. split; [lia|]. split; [vm_compute; reflexivity|]. split; [vm_compute; reflexivity|]. split; vm_compute; reflexivity. Qed.
Lemma af_eq_tiny : exists a b p q, 0 <= a < 2 ^ 16 /\ 0 <= b < 2 ^ 16 /\ ieee_val 8 7 a = FinVal p /\ ieee_val 8 7 b = FinVal q /\ ~ (p == q)%Q /\
  af_eq 8 7 FFloat a b = Ok true.
Proof. exists 1, 0. do 2 eexists. split; [lia|]. split; [lia|]. split; [vm_compute; reflexivity|]. split; [vm_compute; reflexivity|]. split; [vm_compute; discriminate|vm_compute; reflexivity]. Qed.
Lemma af_zero_sign : exists v q, 0 <= v < 2 ^ 16 /\ ieee_val 5 10 v = FinVal q /\ (q == 0)%Q /\ v = af_neg 5 10 0 /\ af_iszero v = false.
Proof. exists 32768. eexists. split; [lia|]. split; [vm_compute; reflexivity|]. repeat split; vm_compute; reflexivity. Qed.
Lemma af_to_int_one eb fb : fmt_ok eb fb -> af_to_int eb fb (af_one eb fb) = UB ShiftCount.
Proof.
  intros FO. destruct (Misc4.trait_constants eb fb true FO) as ((q & (B & I) & Q) & _). pose proof (af_to_int_spec eb fb _ FO B) as H. cbv zeta in H.
  rewrite I in H. destruct H as (_ & H & _). apply H; rewrite Q; change (Qabs 1) with 1%Q; lra.
Qed.
Lemma af_to_value eb fb k v : emulated eb fb (f_eb k) (f_fb k) -> 0 <= v < 2 ^ (eb + fb + 1) ->
  exists x, af_to eb fb k v = Ok x /\ 0 <= x < 2 ^ (f_eb k + f_fb k + 1) /\ same_ext (ieee_val (f_eb k) (f_fb k) x) (seen eb fb (f_eb k) v).
Proof. intros EM B. destruct (af_to_spec eb fb k EM v B) as (x & O & R & S & _). exists x. split; [exact O|]. split; assumption. Qed.
Lemma af_to_room eb fb k v : emulated eb fb (f_eb k) (f_fb k) -> roomy_fmt eb fb (f_eb k) (f_fb k) -> 0 <= v < 2 ^ (eb + fb + 1) ->
  exists x, af_to eb fb k v = Ok x /\ 0 <= x < 2 ^ (f_eb k + f_fb k + 1) /\ same_ext (ieee_val (f_eb k) (f_fb k) x) (ieee_val eb fb v).
Proof.
  intros EM RM B. destruct (af_to_value eb fb k v EM B) as (x & O & R & S). exists x. split; [exact O|]. split; [exact R|].
  exact (same_trans _ _ _ S (seen_all eb fb k EM RM v B)).
Qed.

(** Checks the hypotheses of the property theorems on concrete formats. *)
Ltac exf := unfold emulated, roomy_fmt; Examples.conj;
  first [ apply Build_fmt_ok; unfold is_width; cbn; lia | lia | Examples.ex ].
