(** Operators, comparisons and integer conversions of anyfloat_emu. *)
From Coq Require Import ZArith QArith Qabs Lia Lqa List Bool Setoid.
From Verif Require Import Res CInt Bits Traits Unpacked Cfg Posit Spec SpecFloat SpecAny FloatOps PositF AnyFloat QPow Core SpecLemmas Arith DecodeProof EncodeProof
  UOps UAdd Ops OpsAdd OpsUnary OpsUnary2 Specials Room Laws Configs Final1 Final2 Final3 Conv1 Conv2 Conv3 Conv4 Conv5 TabProof4 TabProof5 FloatProof FloatProof2 PositFProof PositFProof2 PositFProof3
  AnyProof AnyProof2 AnyProof3.
Open Scope Z_scope.

Lemma lit_one_val k : 0 <= lit_one k < 2 ^ (f_eb k + f_fb k + 1) /\ same_ext (ieee_val (f_eb k) (f_fb k) (lit_one k)) (FinVal 1).
Proof. destruct k; vm_compute; intuition congruence. Qed.
Lemma lit_two_val k : 0 <= lit_two k < 2 ^ (f_eb k + f_fb k + 1) /\ same_ext (ieee_val (f_eb k) (f_fb k) (lit_two k)) (FinVal 2).
Proof. destruct k; vm_compute; intuition congruence. Qed.
Lemma lit_half_val : 0 <= lit_half < 2 ^ (11 + 52 + 1) /\ same_ext (ieee_val 11 52 lit_half) (FinVal (1 # 2)).
Proof. vm_compute; intuition congruence. Qed.

Section af.
Context (eb fb : Z) (k : fft) (rnd : fft -> Q -> Z).
Notation ebk := (f_eb k).
Notation fbk := (f_fb k).
Hypothesis EM : emulated eb fb ebk fbk.
Hypothesis RN : forall j, rounding (f_eb j) (f_fb j) (rnd j).
Notation X := (seen eb fb ebk).
Notation inr v := (0 <= v < 2 ^ (eb + fb + 1)).

Lemma af_mul_spec a b : inr a -> inr b ->
  exists r, af_mul eb fb k rnd a b = Ok r /\ float_for eb fb (x_round ebk fbk (rnd k) (x_mul (X a) (X b))) r.
Proof using EM RN.
  intros A B. destruct (af_to_spec eb fb k EM a A) as (x & Ox & Bx & Sx & _). destruct (af_to_spec eb fb k EM b B) as (y & Oy & By & Sy & _).
  unfold af_mul. rewrite Ox, Oy. cbn [bind].
  destruct (af_of_gives eb fb k EM _ _ (f_mul_gives ebk fbk (rnd k) (k_fmt k) (RN k) x y Bx By)) as (r & O & H). exists r. split; [exact O|].
  refine (float_for_same _ _ _ _ _ _ H). apply (round_same _ _ _ (RN k)). apply same_mul; assumption.
Qed.
Lemma af_div_spec a b : inr a -> inr b ->
  exists r, af_div eb fb k rnd a b = Ok r /\ float_for eb fb (x_round ebk fbk (rnd k) (x_div (X a) (X b))) r.
Proof using EM RN.
  intros A B. destruct (af_to_spec eb fb k EM a A) as (x & Ox & Bx & Sx & _). destruct (af_to_spec eb fb k EM b B) as (y & Oy & By & Sy & Zy & _).
  unfold af_div. rewrite Ox, Oy. cbn [bind].
  destruct (af_of_gives eb fb k EM _ _ (f_div_gives ebk fbk (rnd k) (k_fmt k) (RN k) x y Bx By Zy)) as (r & O & H). exists r. split; [exact O|].
  refine (float_for_same _ _ _ _ _ _ H). apply (round_same _ _ _ (RN k)). apply same_div; assumption.
Qed.
Lemma af_add_spec a b : inr a -> inr b ->
  (a = 0 -> af_add eb fb k rnd a b = Ok b) /\ (b = 0 -> af_add eb fb k rnd a b = Ok a) /\
  (a <> 0 -> b <> 0 -> exists r, af_add eb fb k rnd a b = Ok r /\ float_for eb fb (x_round ebk fbk (rnd k) (x_add (X a) (X b))) r).
Proof using EM RN.
  intros A B. unfold af_add, af_iszero. split; [intros ->; reflexivity|]. split; [intros ->; destruct (Z.eqb_spec a 0) as [->|]; reflexivity|].
  intros NA NB. destruct (Z.eqb_spec a 0); [contradiction|]. destruct (Z.eqb_spec b 0); [contradiction|].
  destruct (af_to_spec eb fb k EM a A) as (x & Ox & Bx & Sx & _). destruct (af_to_spec eb fb k EM b B) as (y & Oy & By & Sy & _).
  rewrite Ox, Oy. cbn [bind].
  destruct (af_of_gives eb fb k EM _ _ (f_add_gives ebk fbk (rnd k) (k_fmt k) (RN k) x y Bx By)) as (r & O & H). exists r. split; [exact O|].
  refine (float_for_same _ _ _ _ _ _ H). apply (round_same _ _ _ (RN k)). apply same_add2; assumption.
Qed.
Lemma seen_neg b : inr b -> same_ext (X (af_neg eb fb b)) (x_opp (X b)).
Proof using EM.
  intros B. destruct (neg_val eb fb (proj1 EM) b B) as (_ & S & _). unfold seen.
  destruct (ieee_val eb fb b) as [q|s|], (ieee_val eb fb (af_neg eb fb b)) as [p|t|]; cbn [x_opp same_ext] in *; try discriminate; try exact S.
  assert (E : Qle_bool (least_normal ebk) (Qabs p) = Qle_bool (least_normal ebk) (Qabs q)).
  { assert (Q : (Qabs p == Qabs q)%Q) by (rewrite S; apply Qabs_opp).
    destruct (Qle_bool (least_normal ebk) (Qabs p)) eqn:L1, (Qle_bool (least_normal ebk) (Qabs q)) eqn:L2; try reflexivity; exfalso.
    - apply Qle_bool_iff in L1. rewrite Q in L1. apply Qle_bool_iff in L1. congruence.
    - apply Qle_bool_iff in L2. rewrite <- Q in L2. apply Qle_bool_iff in L2. congruence. }
  rewrite E. destruct (Qle_bool (least_normal ebk) (Qabs q)); cbn [x_opp same_ext]; [exact S|reflexivity].
Qed.
Lemma af_sub_spec a b : inr a -> inr b ->
  (a = 0 -> af_sub eb fb k rnd a b = Ok (af_neg eb fb b)) /\ (af_neg eb fb b = 0 -> af_sub eb fb k rnd a b = Ok a) /\
  (a <> 0 -> af_neg eb fb b <> 0 -> exists r, af_sub eb fb k rnd a b = Ok r /\ float_for eb fb (x_round ebk fbk (rnd k) (x_add (X a) (x_opp (X b)))) r).
Proof using EM RN.
  intros A B. destruct (neg_val eb fb (proj1 EM) b B) as (BN & _). unfold af_sub.
  destruct (af_add_spec a (af_neg eb fb b) A BN) as (H1 & H2 & H3). split; [exact H1|]. split; [exact H2|]. intros NA NB.
  destruct (H3 NA NB) as (r & O & H). exists r. split; [exact O|]. refine (float_for_same _ _ _ _ _ _ H). apply (round_same _ _ _ (RN k)).
  apply same_add2; [apply same_refl|apply seen_neg; exact B].
Qed.
Lemma af_inv_spec v : inr v ->
  exists r, af_inv eb fb k rnd v = Ok r /\ float_for eb fb (x_round ebk fbk (rnd k) (x_div (FinVal 1) (X v))) r.
Proof using EM RN.
  intros B. destruct (af_to_spec eb fb k EM v B) as (y & Oy & By & Sy & Zy & _). destruct (lit_one_val k) as [B1 S1].
  unfold af_inv. rewrite Oy. cbn [bind].
  destruct (af_of_gives eb fb k EM _ _ (f_div_gives ebk fbk (rnd k) (k_fmt k) (RN k) _ y B1 By Zy)) as (r & O & H). exists r. split; [exact O|].
  refine (float_for_same _ _ _ _ _ _ H). apply (round_same _ _ _ (RN k)). apply same_div; assumption.
Qed.
Lemma af_twice_spec v : inr v ->
  exists r, af_twice eb fb k rnd v = Ok r /\ float_for eb fb (x_round ebk fbk (rnd k) (x_mul (FinVal 2) (X v))) r.
Proof using EM RN.
  intros B. destruct (af_to_spec eb fb k EM v B) as (y & Oy & By & Sy & _). destruct (lit_two_val k) as [B1 S1].
  unfold af_twice. rewrite Oy. cbn [bind].
  destruct (af_of_gives eb fb k EM _ _ (f_mul_gives ebk fbk (rnd k) (k_fmt k) (RN k) _ y B1 By)) as (r & O & H). exists r. split; [exact O|].
  refine (float_for_same _ _ _ _ _ _ H). apply (round_same _ _ _ (RN k)). apply same_mul; assumption.
Qed.
(** Product and sum are rounded one after the other. *)
Lemma af_fma_spec a b c : inr a -> inr b -> inr c ->
  exists r, af_fma eb fb k rnd a b c = Ok r /\
    float_for eb fb (x_round ebk fbk (rnd k) (x_add (x_round ebk fbk (rnd k) (x_mul (X a) (X b))) (X c))) r.
Proof using EM RN.
  intros A B C. destruct (af_to_spec eb fb k EM a A) as (x & Ox & Bx & Sx & _). destruct (af_to_spec eb fb k EM b B) as (y & Oy & By & Sy & _).
  destruct (af_to_spec eb fb k EM c C) as (z & Oz & Bz & Sz & _). unfold af_fma. rewrite Ox, Oy, Oz. cbn [bind].
  destruct (f_mul_gives ebk fbk (rnd k) (k_fmt k) (RN k) x y Bx By) as (Bp & Ip & _).
  destruct (af_of_gives eb fb k EM _ _ (f_add_gives ebk fbk (rnd k) (k_fmt k) (RN k) _ z Bp Bz)) as (r & O & H). exists r. split; [exact O|].
  refine (float_for_same _ _ _ _ _ _ H). apply (round_same _ _ _ (RN k)). rewrite Ip. apply same_add2; [|exact Sz].
  apply (round_same _ _ _ (RN k)). apply same_mul; assumption.
Qed.

(** Comparisons *)
Lemma f_compare_same a b : f_compare ebk fbk a b = None \/ f_compare ebk fbk a b <> None.
Proof. destruct (f_compare ebk fbk a b); [right; discriminate|left; reflexivity]. Qed.
Lemma af_compare_spec a b : inr a -> inr b -> exists o, af_compare eb fb k a b = Ok o /\
  (o = Some Lt <-> x_lt (X a) (X b)) /\ (o = Some Eq <-> x_eq (X a) (X b)) /\ (o = Some Gt <-> x_lt (X b) (X a)) /\
  (o = None <-> X a = NaNVal \/ X b = NaNVal).
Proof using EM.
  intros A B. destruct (af_to_spec eb fb k EM a A) as (x & Ox & Bx & Sx & _). destruct (af_to_spec eb fb k EM b B) as (y & Oy & By & Sy & _).
  unfold af_compare. rewrite Ox, Oy. cbn [bind]. eexists. split; [reflexivity|]. unfold f_compare.
  destruct (ieee_val ebk fbk x) as [p|s|], (X a) as [p'|s'|]; cbn [same_ext] in Sx; try discriminate; try (injection Sx as ->);
  destruct (ieee_val ebk fbk y) as [q|t|], (X b) as [q'|t'|]; cbn [same_ext] in Sy; try discriminate; try (injection Sy as ->);
    try (destruct s'); try (destruct t'); cbn [x_lt x_eq Bool.eqb]; try (intuition congruence).
  destruct (Qcompare_spec p q) as [E|E|E]; (repeat split; intros HH; try discriminate; try reflexivity; try (exfalso; lra); try lra; destruct HH; discriminate).
Qed.
Definition holds (b : bool) (P : Prop) : Prop := b = true <-> P.
Lemma af_orders a b : inr a -> inr b -> exists lt le gt ge eq ne,
  af_lt eb fb k a b = Ok lt /\ af_le eb fb k a b = Ok le /\ af_gt eb fb k a b = Ok gt /\ af_ge eb fb k a b = Ok ge /\
  af_eq eb fb k a b = Ok eq /\ af_ne eb fb k a b = Ok ne /\
  (lt = true <-> x_lt (X a) (X b)) /\ (le = true <-> x_lt (X a) (X b) \/ x_eq (X a) (X b)) /\
  (gt = true <-> x_lt (X b) (X a)) /\ (ge = true <-> x_lt (X b) (X a) \/ x_eq (X a) (X b)) /\
  (eq = true <-> x_eq (X a) (X b)) /\ (ne = true <-> ~ x_eq (X a) (X b)).
Proof using EM.
  intros A B. destruct (af_compare_spec a b A B) as (o & O & L & E & G & N).
  unfold af_lt, af_le, af_gt, af_ge, af_ne, af_eq, af_test. rewrite O. cbn [bind]. do 6 eexists. repeat (split; [reflexivity|]).
  destruct o as [[| |]|]; cbn [negb]; rewrite <- ?L, <- ?E, <- ?G; intuition congruence.
Qed.
Lemma af_minmax a b : inr a -> inr b -> X a <> NaNVal -> X b <> NaNVal ->
  exists lo hi, af_stdmin eb fb k a b = Ok lo /\ af_stdmax eb fb k a b = Ok hi /\
    (lo = a \/ lo = b) /\ (hi = a \/ hi = b) /\
    ~ x_lt (X a) (X lo) /\ ~ x_lt (X b) (X lo) /\ ~ x_lt (X hi) (X a) /\ ~ x_lt (X hi) (X b).
Proof using EM.
  intros A B NA NB. destruct (af_orders a b A B) as (lt & le & gt & ge & eq & ne & _ & O1 & _ & O2 & _ & _ & _ & H1 & _ & H2 & _).
  unfold af_stdmin, af_stdmax. rewrite O1, O2. cbn [bind]. do 2 eexists. split; [reflexivity|]. split; [reflexivity|].
  destruct le, ge; (split; [auto|]); (split; [auto|]); clear O1 O2;
  (destruct (X a) as [p|[|]|], (X b) as [q|[|]|]; cbn [x_lt x_eq] in *; try congruence; try (intuition (try lra; try congruence); fail));
  repeat split; intros HH; try lra; intuition (try lra; try congruence).
Qed.
End af.
