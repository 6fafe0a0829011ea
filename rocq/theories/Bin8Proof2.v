(** Sign, order, constants and conversions of binary8tab. *)
From Coq Require Import ZArith Znumtheory QArith Qabs Qround Lia Lqa List Bool Setoid.
From Verif Require Import Res CInt Bits Traits Unpacked Cfg Posit Spec SpecFloat SpecTab SpecAny SpecGen SpecBin8 FloatOps PositF AnyFloat Tab Gen Bin8 QPow Core SpecLemmas Arith DecodeProof EncodeProof
  UOps UAdd Ops OpsAdd OpsUnary OpsUnary2 Specials Room Laws Configs Final1 Final2 Final3 Conv1 Conv2 Conv3 Conv4 Conv5 TabProof TabProof4 TabProof5 FloatProof FloatProof2 PositFProof PositFProof2 PositFProof3
  PositFProof4 AnyProof AnyProof2 AnyProof3 AnyProof4 AnyProof5 AnyProof6 AnyProof7 TabProof3 GenProof GenProof2 GenProof4 GenProof5 Bin8Proof.
Import ListNotations.
Open Scope Z_scope.

(** The numbers in units of 2^-16; infinity is 2^40 units. *)
Definition kb (m : Z) : Z := if m =? 124 then 2 ^ 40 else if m / 4 =? 0 then m mod 4 else (4 + m mod 4) * 2 ^ (m / 4 - 1).
Definition b8nan (v : Z) : bool := 124 <? v mod 128.
Definition rank (v : Z) : Z := if v <? 0 then - kb (v + 128) else kb v.
Definition valr (z : Z) : ieee := if z =? 2 ^ 40 then InfVal false else if z =? - 2 ^ 40 then InfVal true else FinVal (z # 65536).
Definition same_extb (a b : ieee) : bool :=
  match a, b with FinVal x, FinVal y => Qeq_bool x y | InfVal s, InfVal t => Bool.eqb s t | NaNVal, NaNVal => true | _, _ => false end.
Lemma same_extb_ok a b : same_extb a b = true <-> same_ext a b.
Proof.
  destruct a as [x|s|], b as [y|t|]; cbn; try (split; [discriminate|discriminate]); try (split; reflexivity); [apply Qeq_bool_iff|].
  rewrite Bool.eqb_true_iff. split; [intros ->; reflexivity|injection 1; auto].
Qed.
Lemma b8_all (P : Z -> bool) : forallb P (zseq (-128) 256) = true -> forall v, is_b8 v -> P v = true.
Proof. intros H v B. apply (zall P (-128) 256 H). unfold is_b8 in B. cbn. lia. Qed.

Lemma chk_rank : forallb (fun v => same_extb (b8_val v) (if b8nan v then NaNVal else valr (rank v))) (zseq (-128) 256) = true.
Proof. vm_compute. reflexivity. Qed.
Lemma b8_rank v : is_b8 v -> b8_val v <> NaNVal -> same_ext (b8_val v) (valr (rank v)) /\ b8nan v = false.
Proof.
  intros B N. pose proof (b8_all _ chk_rank v B) as H. cbv beta in H. apply same_extb_ok in H. destruct (b8nan v); [|split; [exact H|reflexivity]].
  exfalso. apply N. destruct (b8_val v); cbn in H; congruence.
Qed.
Lemma chk_step : forallb (fun m => kb m <? kb (m + 1)) (zseq 0 124) = true. Proof. vm_compute. reflexivity. Qed.
Lemma kb_lt a b : 0 <= a -> a < b -> b <= 124 -> kb a < kb b.
Proof.
  intros A L B. revert B. pattern b. apply (Zlt_lower_bound_ind _ (a + 1)); [|lia]. intros c IH C U.
  pose proof (zall _ 0 124 chk_step (c - 1) ltac:(lia)) as H. cbv beta in H. apply Z.ltb_lt in H. replace (c - 1 + 1) with c in H by lia.
  destruct (Z.eq_dec a (c - 1)) as [->|]; [exact H|]. pose proof (IH (c - 1) ltac:(lia) ltac:(lia)). lia.
Qed.
Lemma kb_0 : kb 0 = 0. Proof. reflexivity. Qed.
Lemma kb_top : kb 124 = 2 ^ 40. Proof. reflexivity. Qed.
Lemma kb_range m : 0 <= m <= 124 -> 0 <= kb m <= 2 ^ 40.
Proof.
  intros B. rewrite <- kb_top. rewrite <- kb_0 at 1. split.
  - destruct (Z.eq_dec 0 m) as [<-|]; [lia|]. apply Z.lt_le_incl, kb_lt; lia.
  - destruct (Z.eq_dec m 124) as [->|]; [lia|]. apply Z.lt_le_incl, kb_lt; lia.
Qed.
Lemma mag v : is_b8 v -> b8nan v = false -> 0 <= v <= 124 \/ -128 <= v <= -4.
Proof.
  unfold is_b8, b8nan. intros B N. apply Z.ltb_ge in N. destruct (Z_lt_ge_dec v 0).
  - right. rewrite <- (Z_mod_plus_full v 1), Z.mod_small in N by lia. lia.
  - left. rewrite Z.mod_small in N by lia. lia.
Qed.
Lemma rank_range v : is_b8 v -> b8nan v = false -> - 2 ^ 40 <= rank v <= 2 ^ 40.
Proof.
  intros B N. unfold rank. destruct (mag v B N); destruct (Z.ltb_spec v 0); try lia.
  - pose proof (kb_range v ltac:(lia)). lia.
  - pose proof (kb_range (v + 128) ltac:(lia)). lia.
Qed.
Lemma rank_mono a b : is_b8 a -> is_b8 b -> b8nan a = false -> b8nan b = false -> 0 <= a \/ 0 <= b -> a < b -> rank a < rank b \/ (a = -128 /\ b = 0).
Proof.
  intros A B NA NB S L. unfold rank. destruct (mag a A NA), (mag b B NB); destruct (Z.ltb_spec a 0); destruct (Z.ltb_spec b 0); try lia.
  - left. apply kb_lt; lia.
  - pose proof (kb_range (a + 128) ltac:(lia)) as [K1 _]. pose proof (kb_range b ltac:(lia)) as [K2 _].
    destruct (Z.eq_dec a (-128)) as [->|NE].
    + destruct (Z.eq_dec b 0) as [->|NB0]; [right; lia|]. left. pose proof (kb_lt 0 b). rewrite kb_0 in *. change (-128 + 128) with 0. rewrite kb_0. lia.
    + left. pose proof (kb_lt 0 (a + 128)). rewrite kb_0 in *. lia.
Qed.
Lemma rank_neg a b : is_b8 a -> is_b8 b -> b8nan a = false -> b8nan b = false -> a < 0 -> b < 0 -> a < b -> rank b < rank a.
Proof.
  intros A B NA NB SA SB L. unfold rank. destruct (mag a A NA), (mag b B NB); destruct (Z.ltb_spec a 0); destruct (Z.ltb_spec b 0); try lia.
  pose proof (kb_lt (a + 128) (b + 128)). lia.
Qed.
Lemma x_lt_same a b a' b' : same_ext a a' -> same_ext b b' -> x_lt a b <-> x_lt a' b'.
Proof.
  destruct a as [x|s|], a' as [x'|s'|]; cbn [same_ext]; try discriminate; intros EA; destruct b as [y|t|], b' as [y'|t'|]; cbn [same_ext]; try discriminate; intros EB;
    try (injection EA as ->); try (injection EB as ->); cbn [x_lt]; try tauto. rewrite EA, EB. reflexivity.
Qed.
Lemma x_eq_same a b a' b' : same_ext a a' -> same_ext b b' -> x_eq a b <-> x_eq a' b'.
Proof.
  destruct a as [x|s|], a' as [x'|s'|]; cbn [same_ext]; try discriminate; intros EA; destruct b as [y|t|], b' as [y'|t'|]; cbn [same_ext]; try discriminate; intros EB;
    try (injection EA as ->); try (injection EB as ->); cbn [x_eq]; try tauto. rewrite EA, EB. reflexivity.
Qed.
Lemma valr_lt y z : - 2 ^ 40 <= y <= 2 ^ 40 -> - 2 ^ 40 <= z <= 2 ^ 40 -> x_lt (valr y) (valr z) <-> y < z.
Proof.
  intros Y Z. unfold valr. destruct (Z.eqb_spec y (2 ^ 40)), (Z.eqb_spec z (2 ^ 40)), (Z.eqb_spec y (- 2 ^ 40)), (Z.eqb_spec z (- 2 ^ 40)); cbn [x_lt]; try lia.
  unfold Qlt. cbn [Qnum Qden]. lia.
Qed.
Lemma valr_eq y z : - 2 ^ 40 <= y <= 2 ^ 40 -> - 2 ^ 40 <= z <= 2 ^ 40 -> x_eq (valr y) (valr z) <-> y = z.
Proof.
  intros Y Z. unfold valr. destruct (Z.eqb_spec y (2 ^ 40)), (Z.eqb_spec z (2 ^ 40)), (Z.eqb_spec y (- 2 ^ 40)), (Z.eqb_spec z (- 2 ^ 40)); cbn [x_eq]; try lia;
    try (split; [discriminate|lia]); try (split; [lia|reflexivity]).
  unfold Qeq. cbn [Qnum Qden]. lia.
Qed.
Lemma b8_val_lt a b : is_b8 a -> is_b8 b -> b8_val a <> NaNVal -> b8_val b <> NaNVal ->
  (x_lt (b8_val a) (b8_val b) <-> rank a < rank b) /\ (x_eq (b8_val a) (b8_val b) <-> rank a = rank b).
Proof.
  intros A B NA NB. destruct (b8_rank a A NA) as [SA KA]. destruct (b8_rank b B NB) as [SB KB].
  rewrite (x_lt_same _ _ _ _ SA SB), (x_eq_same _ _ _ _ SA SB). split; [apply valr_lt|apply valr_eq]; apply rank_range; assumption.
Qed.

Lemma b8_order a b : is_b8 a -> is_b8 b -> b8_val a <> NaNVal -> b8_val b <> NaNVal ->
  let A := b8_val a in let B := b8_val b in
  (0 <= a \/ 0 <= b -> ~ x_eq A B \/ a = b ->
     (b8_lt a b = true <-> x_lt A B) /\ (b8_le a b = true <-> x_lt A B \/ x_eq A B) /\
     (b8_gt a b = true <-> x_lt B A) /\ (b8_ge a b = true <-> x_lt B A \/ x_eq A B) /\
     (b8_eq a b = true <-> x_eq A B) /\ (b8_ne a b = true <-> ~ x_eq A B)) /\
  (a < 0 -> b < 0 ->
     (b8_lt a b = true <-> x_lt B A) /\ (b8_le a b = true <-> x_lt B A \/ x_eq A B) /\
     (b8_gt a b = true <-> x_lt A B) /\ (b8_ge a b = true <-> x_lt A B \/ x_eq A B) /\
     (b8_eq a b = true <-> x_eq A B) /\ (b8_ne a b = true <-> ~ x_eq A B)).
Proof.
  intros A B NA NB. cbv zeta. destruct (b8_val_lt a b A B NA NB) as [L1 E1]. destruct (b8_val_lt b a B A NB NA) as [L2 _].
  rewrite L1, L2, E1. destruct (b8_rank a A NA) as [_ KA]. destruct (b8_rank b B NB) as [_ KB].
  unfold b8_lt, b8_le, b8_gt, b8_ge, b8_eq, b8_ne. rewrite negb_true_iff, Z.ltb_lt, Z.leb_le, Z.gtb_lt, Z.geb_le, Z.eqb_eq, Z.eqb_neq.
  split.
  - intros S NE. pose proof (rank_mono a b A B KA KB S) as M1. pose proof (rank_mono b a B A KB KA ltac:(tauto)) as M2.
    assert (Z0 : rank (-128) = 0 /\ rank 0 = 0) by (split; reflexivity).
    assert (EQ : a = b -> rank a = rank b) by (intros ->; reflexivity).
    destruct (Z.lt_trichotomy a b) as [L|[L|L]].
    + destruct (M1 L) as [M|[-> ->]]; [lia|lia].
    + lia.
    + destruct (M2 L) as [M|[-> ->]]; [lia|lia].
  - intros SA SB. pose proof (rank_neg a b A B KA KB SA SB) as M1. pose proof (rank_neg b a B A KB KA SB SA) as M2.
    assert (EQ : a = b -> rank a = rank b) by (intros ->; reflexivity). lia.
Qed.
Lemma b8_minmax a b : is_b8 a -> is_b8 b -> b8_val a <> NaNVal -> b8_val b <> NaNVal ->
  let lo := b8_stdmin a b in let hi := b8_stdmax a b in
  (lo = a \/ lo = b) /\ (hi = a \/ hi = b) /\
  (0 <= a \/ 0 <= b -> ~ x_lt (b8_val a) (b8_val lo) /\ ~ x_lt (b8_val b) (b8_val lo) /\ ~ x_lt (b8_val hi) (b8_val a) /\ ~ x_lt (b8_val hi) (b8_val b)) /\
  (a < 0 -> b < 0 -> ~ x_lt (b8_val lo) (b8_val a) /\ ~ x_lt (b8_val lo) (b8_val b) /\ ~ x_lt (b8_val a) (b8_val hi) /\ ~ x_lt (b8_val b) (b8_val hi)).
Proof.
  intros A B NA NB. cbv zeta. unfold b8_stdmin, b8_stdmax, b8_le, b8_ge.
  destruct (b8_val_lt a b A B NA NB) as [L1 _]. destruct (b8_val_lt b a B A NB NA) as [L2 _].
  destruct (b8_val_lt a a A A NA NA) as [L3 _]. destruct (b8_val_lt b b B B NB NB) as [L4 _].
  destruct (b8_rank a A NA) as [_ KA]. destruct (b8_rank b B NB) as [_ KB].
  pose proof (rank_mono a b A B KA KB) as M1. pose proof (rank_mono b a B A KB KA) as M2.
  pose proof (rank_neg a b A B KA KB) as M3. pose proof (rank_neg b a B A KB KA) as M4.
  assert (Z0 : rank (-128) = 0 /\ rank 0 = 0) by (split; reflexivity).
  assert (EQ : a = b -> rank a = rank b) by (intros ->; reflexivity).
  assert (P1 : 0 <= a \/ 0 <= b -> a <= b -> rank a <= rank b).
  { intros S L. destruct (Z.eq_dec a b) as [E|E]; [specialize (EQ E); lia|]. destruct (M1 S ltac:(lia)) as [M|[-> ->]]; lia. }
  assert (P2 : 0 <= a \/ 0 <= b -> b <= a -> rank b <= rank a).
  { intros S L. destruct (Z.eq_dec a b) as [E|E]; [specialize (EQ E); lia|]. destruct (M2 ltac:(tauto) ltac:(lia)) as [M|[-> ->]]; lia. }
  rewrite Z.geb_leb. clear M1 M2. destruct (Z.leb_spec a b); destruct (Z.leb_spec b a); rewrite ?L1, ?L2, ?L3, ?L4; lia.
Qed.

(** Negation is right for the patterns 0, 64, 128 and 192 only, that is for 0, 2, -0 and -2. *)
Lemma chk_neg : forallb (fun v => Bool.eqb (same_extb (b8_val (b8_neg v)) (x_opp (b8_val v))) (v mod 64 =? 0)) (zseq (-128) 256) = true.
Proof. vm_compute. reflexivity. Qed.
Lemma b8_neg_ok v : is_b8 v -> same_ext (b8_val (b8_neg v)) (x_opp (b8_val v)) <-> v mod 64 = 0.
Proof.
  intros B. pose proof (b8_all _ chk_neg v B) as H. cbv beta in H. apply Bool.eqb_prop in H. rewrite <- same_extb_ok, H. apply Z.eqb_eq.
Qed.
Lemma b8_neg_range v : is_b8 (b8_neg v).
Proof. unfold b8_neg, is_b8, cast. cbn [isg iw sint]. unfold wraps. change (2 ^ (8 - 1)) with 128. change (2 ^ 8) with 256. pose proof (Z.mod_pos_bound (- v + 128) 256). lia. Qed.
Lemma b8_sub_ok rnd : rounding 8 23 rnd -> forall a b, is_b8 a -> is_b8 b ->
  exists r, b8_sub rnd a b = Ok r /\ is_b8 r /\ float_for 5 2 (x_round 8 23 rnd (x_add (b8_val a) (b8_val (b8_neg b)))) (r mod 256) /\
  (b mod 64 = 0 -> float_for 5 2 (x_round 8 23 rnd (x_add (b8_val a) (x_opp (b8_val b)))) (r mod 256)).
Proof.
  intros RN a b A B. destruct (b8_add_ok rnd RN a (b8_neg b) A (b8_neg_range b)) as (r & O & R & F). exists r. split; [exact O|]. split; [exact R|]. split; [exact F|].
  intros M. refine (float_for_same _ _ _ _ _ _ F). apply (round_same 8 23 rnd RN). apply same_add2; [apply same_refl|]. apply b8_neg_ok; assumption.
Qed.
Lemma chk_abs : forallb (fun v => same_extb (b8_val (b8_abs v)) (x_abs (b8_val v)) && (0 <=? b8_abs v) && (b8_abs v <? 128)) (zseq (-128) 256) = true.
Proof. vm_compute. reflexivity. Qed.
Lemma b8_abs_ok v : is_b8 v -> 0 <= b8_abs v < 128 /\ same_ext (b8_val (b8_abs v)) (x_abs (b8_val v)).
Proof.
  intros B. pose proof (b8_all _ chk_abs v B) as H. cbv beta in H. apply andb_true_iff in H. destruct H as [H H3]. apply andb_true_iff in H. destruct H as [H1 H2].
  apply same_extb_ok in H1. split; [lia|exact H1].
Qed.
Lemma b8_is_negative_ok v : is_b8 v -> (x_neg (b8_val v) -> b8_is_negative v = true) /\ (x_neg (x_opp (b8_val v)) -> b8_is_negative v = false).
Proof.
  intros B. unfold b8_is_negative. destruct (b8_val v) as [q|b|] eqn:E.
  1,2: assert (N : b8_val v <> NaNVal) by congruence; destruct (b8_rank v B N) as [S K]; rewrite E in S.
  3: cbn; tauto.
  - assert (P : valr (rank v) <> InfVal true /\ valr (rank v) <> InfVal false) by (destruct (valr (rank v)); cbn in S; split; congruence).
    assert (Q : (q == rank v # 65536)%Q).
    { unfold valr in *. destruct (rank v =? 2 ^ 40); [destruct P; congruence|]. destruct (rank v =? - 2 ^ 40); [destruct P; congruence|exact S]. }
    cbn [x_neg x_opp]. rewrite Q. unfold Qlt, Qopp. cbn [Qnum Qden]. destruct (mag v B K) as [M|M]; unfold rank; destruct (Z.ltb_spec v 0); try lia.
    + pose proof (kb_range v M). lia.
    + pose proof (kb_range (v + 128) ltac:(lia)). lia.
  - assert (R : if b then rank v = - 2 ^ 40 else rank v = 2 ^ 40).
    { unfold valr in S. destruct (Z.eqb_spec (rank v) (2 ^ 40)); [cbn in S; injection S as ->; assumption|]. destruct (Z.eqb_spec (rank v) (- 2 ^ 40)); [cbn in S; injection S as ->; assumption|discriminate]. }
    unfold rank in R. destruct (mag v B K) as [M|M]; destruct (Z.ltb_spec v 0); try lia.
    + pose proof (kb_range v M). destruct b; [lia|]. cbn. split; [discriminate|reflexivity].
    + pose proof (kb_range (v + 128) ltac:(lia)). destruct b; [|lia]. cbn. split; [reflexivity|discriminate].
Qed.

Lemma b8_constants : is_b8 b8_max /\ is_b8 b8_min /\ is_b8 b8_one /\ is_b8 b8_afterone /\ is_b8 b8_zero /\
  same_ext (b8_val b8_one) (FinVal 1) /\ same_ext (b8_val b8_zero) (FinVal 0) /\ same_ext (b8_val b8_min) (FinVal (least_normal 5)) /\
  (exists m, b8_val b8_max = FinVal m /\ forall v q, is_b8 v -> b8_val v = FinVal q -> (q <= m)%Q) /\
  (exists e, b8_val b8_afterone = FinVal e /\ (1 < e)%Q /\ forall v q, is_b8 v -> b8_val v = FinVal q -> (q <= 1)%Q \/ (e <= q)%Q).
Proof.
  assert (KEY : forall v q, is_b8 v -> b8_val v = FinVal q -> (q == rank v # 65536)%Q /\ - 2 ^ 40 < rank v < 2 ^ 40 /\ b8nan v = false).
  { intros v q B E. assert (N : b8_val v <> NaNVal) by congruence. destruct (b8_rank v B N) as [S K]. rewrite E in S. pose proof (rank_range v B K).
    unfold valr in S. destruct (Z.eqb_spec (rank v) (2 ^ 40)); [discriminate|]. destruct (Z.eqb_spec (rank v) (- 2 ^ 40)); [discriminate|]. split; [exact S|]. split; [lia|exact K]. }
  assert (MO : forall v q w p, is_b8 v -> b8_val v = FinVal q -> is_b8 w -> b8_val w = FinVal p -> 0 <= w -> v <= w -> (q <= p)%Q).
  { intros v q w p B E B' E' P L. destruct (KEY v q B E) as (-> & R1 & K1). destruct (KEY w p B' E') as (-> & R2 & K2). unfold Qle. cbn [Qnum Qden].
    destruct (Z.eq_dec v w) as [->|NE]; [lia|]. destruct (rank_mono v w B B' K1 K2 ltac:(lia) ltac:(lia)) as [M|[-> ->]]; [lia|]. change (rank (-128)) with 0. change (rank 0) with 0. lia. }
  assert (BB : is_b8 b8_max /\ is_b8 b8_min /\ is_b8 b8_one /\ is_b8 b8_afterone /\ is_b8 b8_zero) by (vm_compute; intuition discriminate).
  destruct BB as (B1 & B2 & B3 & B4 & B5). repeat (split; [assumption|]).
  split; [vm_compute; reflexivity|]. split; [vm_compute; reflexivity|]. split; [vm_compute; reflexivity|]. split.
  - eexists. split; [vm_compute; reflexivity|]. intros v q B E. apply (MO v q b8_max _ B E B1); [vm_compute; reflexivity|vm_compute; discriminate|].
    destruct (KEY v q B E) as (_ & R & K). destruct (mag v B K) as [M|M]; [|change b8_max with 123; lia]. destruct (Z.eq_dec v 124) as [->|]; [exfalso; change (rank 124) with (2 ^ 40) in R; lia|].
    change b8_max with 123. lia.
  - eexists. split; [vm_compute; reflexivity|]. split; [reflexivity|]. intros v q B E. destruct (Z_le_gt_dec v 60) as [L|L].
    + left. change 1%Q with (1 # 1)%Q. eapply Qle_trans; [apply (MO v q b8_one _ B E B3); [vm_compute; reflexivity|vm_compute; discriminate|change b8_one with 60; lia]|]. vm_compute. discriminate.
    + right. apply (MO b8_afterone _ v q B4); [vm_compute; reflexivity|exact B|exact E|lia|change b8_afterone with 61; lia].
Qed.
Lemma b8_epsilon_wrong : exists r, b8_epsilon (rne 8 23) = Ok r /\ same_ext (b8_val r) (FinVal (-(5 # 2))).
Proof.
  unfold b8_epsilon, b8_sub, b8_add, b8_opadd. rewrite b8_at2 by (vm_compute; intuition discriminate). eexists. split; [vm_compute; reflexivity|]. vm_compute. reflexivity.
Qed.
Lemma b8_to_int_ok v : is_b8 v -> match b8_val v with FinVal q => exists z, b8_to_int v = Ok z /\ truncated q z | _ => b8_to_int v = UB FloatToInt end.
Proof.
  intros B. destruct (b8_to_float_ok v B) as (x & O & R & S). unfold b8_to_int. rewrite O. cbn [bind]. destruct (b8_val v) as [q|s|] eqn:E.
  - destruct (ieee_val 8 23 x) as [p|t|] eqn:I; cbn [same_ext] in S; try discriminate. destruct (float_int x p R I) as (i & T & H & _). exists i.
    assert (Q : (Qabs p <= 65536)%Q).
    { assert (N : b8_val v <> NaNVal) by congruence. destruct (b8_rank v B N) as [S2 K]. rewrite E in S2. rewrite S.
      assert (NI : ~ (rank v = 2 ^ 40 \/ rank v = - 2 ^ 40)) by (intros [H2|H2]; unfold valr in S2; rewrite H2 in S2; discriminate).
      unfold valr in S2. destruct (Z.eqb_spec (rank v) (2 ^ 40)); [lia|]. destruct (Z.eqb_spec (rank v) (- 2 ^ 40)); [lia|]. cbn [same_ext] in S2. rewrite S2.
      unfold Qabs, Qle. cbn [Qnum Qden]. unfold rank in *. destruct (mag v B K) as [M|M]; destruct (Z.ltb_spec v 0); try lia.
      - assert (v <= 123) by (destruct (Z.eq_dec v 124) as [->|]; [rewrite kb_top in *; lia|lia]). pose proof (kb_range v ltac:(lia)). destruct (Z.eq_dec v 123) as [->|]; [vm_compute; discriminate|].
        pose proof (kb_lt v 123 ltac:(lia) ltac:(lia) ltac:(lia)). change (kb 123) with 3758096384 in *. lia.
      - set (m := v + 128) in *. assert (m <= 123) by (destruct (Z.eq_dec m 124) as [E1|]; [rewrite E1, kb_top in *; lia|lia]). pose proof (kb_range m ltac:(lia)).
        destruct (Z.eq_dec m 123) as [E1|]; [rewrite E1; vm_compute; discriminate|].
        pose proof (kb_lt m 123 ltac:(lia) ltac:(lia) ltac:(lia)). change (kb 123) with 3758096384 in *. lia. }
    split; [apply H|].
    + destruct T as (T1 & _). assert (LE : (inject_Z (Z.abs i) <= 65536)%Q) by lra. unfold Qle in LE. cbn in LE. lia.
    + destruct T as (T1 & T2 & T3). unfold truncated. rewrite <- S. auto.
  - destruct (ieee_val 8 23 x) as [p|t|] eqn:I; cbn [same_ext] in S; try discriminate.
    destruct (ieee_cases 8 23 fmt23 x R) as (_ & _ & C). rewrite I in C. destruct C as (C & _). unfold fexp_of in C. unfold float_to_int. change (2 ^ 8 - 1) with 255 in C. rewrite C. reflexivity.
  - destruct (ieee_val 8 23 x) as [p|t|] eqn:I; cbn [same_ext] in S; try discriminate.
    destruct (ieee_cases 8 23 fmt23 x R) as (_ & _ & C). rewrite I in C. destruct C as (C & _). unfold fexp_of in C. unfold float_to_int. change (2 ^ 8 - 1) with 255 in C. rewrite C. reflexivity.
Qed.
Lemma b8_to_double_ok rndd : rounding 11 52 rndd -> forall v, is_b8 v -> exists x, b8_to_double rndd v = Ok x /\ same_ext (ieee_val 11 52 x) (b8_val v).
Proof.
  intros RN v B. destruct (b8_to_float_ok v B) as (x & O & R & S). unfold b8_to_double. rewrite O. cbn [bind]. eexists. split; [reflexivity|]. unfold f_widen.
  destruct (ieee_val 8 23 x) as [p|t|] eqn:I.
  - destruct (rn_exact _ _ _ RN p) as (y & Y & E).
    { apply (is_float_widen 8 23 11 52 p fmt23 fmt_double); [lia|lia|]. exists x, p. split; [exact R|]. split; [exact I|reflexivity]. }
    rewrite Y. eapply same_trans; [|exact S]. exact E.
  - eapply same_trans; [|exact S]. destruct t; vm_compute; reflexivity.
  - eapply same_trans; [|exact S]. vm_compute; reflexivity.
Qed.

Lemma x_le_w eb fb w q r : float_for eb fb (FinVal q) r -> is_float eb fb w -> (least_normal eb <= w)%Q -> (w <= q)%Q -> exists t, ieee_val eb fb r = FinVal t /\ (w <= t)%Q.
Proof.
  intros (R & F1 & _) (b & x & B & I & E) LN L. pose proof (pow2_pos (2 - 2 ^ (eb - 1))) as PP. unfold least_normal in *.
  assert (Q0 : (Qabs q == q)%Q) by (apply Qabs_pos; lra). destruct (F1 ltac:(lra)) as (_ & t & IT & A1 & A2 & A3). exists t. split; [exact IT|].
  assert (X0 : (Qabs x == w)%Q) by (rewrite E; apply Qabs_pos; lra). pose proof (A3 b x B I ltac:(lra)) as H.
  destruct (abs_case t) as [[_ T]|[T0 T]]; [lra|]. exfalso. nra.
Qed.
Lemma b8_exp2_ok ex : exp2_float 8 23 ex -> forall v x, is_b8 v -> b8_val v = FinVal x ->
  exists r, b8_exp2 ex v = Ok r /\ is_b8 r /\
  (forall w, is_float 5 2 w -> (least_normal 5 <= w)%Q -> le_exp2 w x -> ext_le (FinVal w) (b8_val r)) /\
  (forall w, is_float 5 2 w -> (0 < w)%Q -> ge_exp2 w x -> ext_le (b8_val r) (FinVal w)).
Proof.
  intros EX v x B E. destruct (b8_to_float_ok v B) as (b & O & R & S). rewrite E in S.
  destruct (ieee_val 8 23 b) as [p|t|] eqn:I; cbn [same_ext] in S; try discriminate.
  rewrite b8_float_at in O by exact B. unfold b8_exp2, b8_opexp2. rewrite b8_at1 by exact B. unfold b8_e_exp2, b8_float, b8_x. rewrite b8_cast, O. cbn [bind].
  assert (F1 : is_float 8 23 1) by (apply (is_float_comp 8 23 (pow2 0)); [reflexivity|apply (is_float_pow2 8 23 fmt23); cbn; lia]).
  assert (NN : ieee_val 8 23 (ex b) <> NaNVal).
  { intros N. destruct (le_ge_exp2 1 p) as [H|H].
    - pose proof (e2_below _ _ _ EX b p 1%Q R I F1 ltac:(reflexivity) H) as H2. rewrite N in H2. exact H2.
    - pose proof (e2_above _ _ _ EX b p 1%Q R I F1 ltac:(reflexivity) H) as H2. rewrite N in H2. exact H2. }
  destruct (af_of_gen 5 2 FFloat (ex b) (proj1 em8)) as (r & OR & F); try (cbn [f_eb f_fb]; lia).
  { exact (e2_range _ _ _ EX b R). } { intros N. contradiction. }
  rewrite OR. cbn [b8_store bind]. destruct (b8_stored _ _ F) as [RB FF]. exists (cast (sint 8) r). split; [reflexivity|]. split; [exact RB|].
  unfold b8_val at 1 2. set (c := cast (sint 8) r mod 256) in *. clearbody c. clear F OR RB r.
  assert (WD : forall w, is_float 5 2 w -> is_float 8 23 w) by (intros w W; apply (is_float_widen 5 2 8 23 w (proj1 em8) fmt23); [lia|lia|exact W]).
  assert (LN0 : (0 < least_normal 5)%Q) by (apply pow2_pos).
  cbn [f_eb f_fb] in *. split.
  - intros w W L H. apply (le_exp2_comp w w p x (Qeq_refl _) S) in H.
    pose proof (e2_below _ _ _ EX b p w R I (WD w W) ltac:(lra) H) as H2. destruct (ieee_val 8 23 (ex b)) as [q|s|]; [|destruct s; [destruct H2|]|destruct H2].
    + destruct (x_le_w 5 2 w q c FF W L H2) as (t & -> & T). exact T.
    + destruct FF as (_ & ->). exact Logic.I.
  - intros w W L H. apply (ge_exp2_comp w w x p (Qeq_refl _) (Qeq_sym _ _ S)) in H.
    pose proof (e2_above _ _ _ EX b p w R I (WD w W) L H) as H2. destruct (ieee_val 8 23 (ex b)) as [q|s|] eqn:Q; [|destruct s; [|destruct H2]|destruct H2].
    + destruct FF as (RC & G1 & G2). destruct (Qlt_le_dec (Qabs q) (least_normal 5)) as [A|A].
      * rewrite (G2 A). change (ieee_val 5 2 0) with (FinVal (1 * (inject_Z 0 * pow2 (1 - (2 ^ (5 - 1) - 1) - 2)))). cbn [ext_le]. apply Qlt_le_weak. eapply Qle_lt_trans; [|exact L]. vm_compute. discriminate.
      * destruct (G1 A) as (_ & t & -> & A1 & A2 & _). cbn [ext_le] in *. destruct (Qlt_le_dec t 0) as [N|P]; [lra|]. rewrite (Qabs_pos t P) in A1.
        destruct (Qlt_le_dec q 0) as [QN|QP]; [|rewrite (Qabs_pos q QP) in A1; lra]. destruct (Qeq_dec t 0) as [T0|T0]; [lra|]. exfalso. assert (0 < t)%Q by (destruct (Qlt_le_dec 0 t); [assumption|exfalso; apply T0; lra]). nra.
    + destruct FF as (_ & ->). exact Logic.I.
Qed.
Lemma b8_exp2_special ex : exp2_float 8 23 ex -> forall v, is_b8 v -> (forall x, b8_val v <> FinVal x) ->
  exists r, b8_exp2 ex v = Ok r /\ is_b8 r /\
  (b8_val v = InfVal false -> b8_val r = InfVal false) /\ (b8_val v = InfVal true -> same_ext (b8_val r) (FinVal 0)) /\ (b8_val v = NaNVal -> b8_val r = NaNVal).
Proof.
  intros EX v B NF. destruct (b8_to_float_ok v B) as (b & O & R & S).
  rewrite b8_float_at in O by exact B. unfold b8_exp2, b8_opexp2. rewrite b8_at1 by exact B. unfold b8_e_exp2, b8_float, b8_x. rewrite b8_cast, O. cbn [bind].
  assert (QN : ieee_val 8 23 (ex b) = NaNVal -> quiet 8 23 (ex b)).
  { intros N. destruct (b8_val v) as [x|t|]; [destruct (NF x eq_refl)| |]; destruct (ieee_val 8 23 b) as [p|s|] eqn:I; cbn [same_ext] in S; try contradiction; try discriminate.
    - destruct s; [pose proof (e2_ninf _ _ _ EX b R I) as H|pose proof (e2_pinf _ _ _ EX b R I) as H]; rewrite N in H; discriminate H.
    - exact (proj2 (e2_nan _ _ _ EX b R I)). }
  destruct (af_of_gen 5 2 FFloat (ex b) (proj1 em8)) as (r & OR & F); try (cbn [f_eb f_fb]; lia).
  { exact (e2_range _ _ _ EX b R). } { exact QN. }
  rewrite OR. cbn [b8_store bind]. destruct (b8_stored _ _ F) as [RB FF]. exists (cast (sint 8) r). split; [reflexivity|]. split; [exact RB|].
  unfold b8_val at 2 4 6. set (c := cast (sint 8) r mod 256) in *. clearbody c. clear F OR RB r QN O. cbn [f_eb f_fb] in *.
  destruct (b8_val v) as [x|t|]; [destruct (NF x eq_refl)| |]; destruct (ieee_val 8 23 b) as [p|s|] eqn:I; cbn [same_ext] in S; try contradiction; try discriminate.
  - assert (s = t) as -> by congruence. destruct t; (split; [|split]); intros H; try discriminate H.
    + pose proof (e2_ninf _ _ _ EX b R I) as H2. destruct (ieee_val 8 23 (ex b)) as [q| |]; cbn [same_ext] in H2; try discriminate; try contradiction.
      destruct FF as (_ & _ & G). rewrite G; [vm_compute; reflexivity|]. rewrite H2. apply pow2_pos.
    + pose proof (e2_pinf _ _ _ EX b R I) as H2. rewrite H2 in FF. exact (proj2 FF).
  - split; [discriminate|]. split; [discriminate|]. intros _. rewrite (proj1 (e2_nan _ _ _ EX b R I)) in FF. exact (proj2 FF).
Qed.
Lemma b8_add_up : exists a b p q, is_b8 a /\ is_b8 b /\ b8_val a = FinVal p /\ b8_val b = FinVal q /\ b8_add (rne 8 23) a b = Ok a /\ (p + q < p)%Q /\ (0 < p + q)%Q.
Proof.
  assert (O : b8_add (rne 8 23) 123 (-127) = Ok 123).
  { unfold b8_add, b8_opadd. rewrite b8_at2 by (unfold is_b8; lia). vm_compute. reflexivity. }
  exists 123, (-127). eexists. eexists. split; [unfold is_b8; lia|]. split; [unfold is_b8; lia|]. split; [vm_compute; reflexivity|]. split; [vm_compute; reflexivity|]. split; [exact O|]. split; reflexivity.
Qed.
Lemma b8_sub_wrong : exists a r, is_b8 a /\ same_ext (b8_val a) (FinVal 1) /\ b8_sub (rne 8 23) a a = Ok r /\ same_ext (b8_val r) (FinVal (-3)).
Proof.
  exists b8_one. eexists. split; [vm_compute; intuition discriminate|]. split; [vm_compute; reflexivity|].
  split; [unfold b8_sub, b8_add, b8_opadd; rewrite b8_at2 by (vm_compute; intuition discriminate); vm_compute; reflexivity|]. vm_compute. reflexivity.
Qed.
Lemma b8_order_wrong : exists a b, is_b8 a /\ is_b8 b /\ same_ext (b8_val a) (FinVal (-1)) /\ same_ext (b8_val b) (FinVal (-2)) /\ b8_lt a b = true.
Proof. exists (-68), (-64). vm_compute. intuition discriminate. Qed.
Lemma b8_zero_wrong : exists a, is_b8 a /\ same_ext (b8_val a) (FinVal 0) /\ b8_eq a b8_zero = false /\ b8_lt a b8_zero = true.
Proof. exists (-128). vm_compute. intuition discriminate. Qed.
Lemma b8_nan_wrong : exists a, is_b8 a /\ b8_val a = NaNVal /\ b8_eq a a = true /\ forall b, is_b8 b -> 0 <= b -> b8_val b <> NaNVal -> b8_lt b a = true.
Proof.
  exists 126. split; [unfold is_b8; lia|]. split; [vm_compute; reflexivity|]. split; [reflexivity|]. intros b B P N. destruct (b8_rank b B N) as [_ K]. destruct (mag b B K); [|lia]. unfold b8_lt. lia.
Qed.
