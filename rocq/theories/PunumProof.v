(** Projective unums: the points in order, the cells between them, and the search. *)
From Coq Require Import ZArith QArith Qabs Bool List Lia Lqa.
From Verif Require Import Spec SpecFloat SpecPunum Punum.
Import ListNotations.
Open Scope Z_scope.

Lemma qlt_true a b : qlt a b = true <-> (a < b)%Q.
Proof. unfold qlt. rewrite negb_true_iff, <- not_true_iff_false, Qle_bool_iff. split; [apply Qnot_le_lt|apply Qlt_not_le]. Qed.
Lemma qlt_false a b : qlt a b = false <-> (b <= a)%Q.
Proof. rewrite <- not_true_iff_false, qlt_true. split; [apply Qnot_lt_le|apply Qle_not_lt]. Qed.
Lemma qeq_true a b : qeq a b = true <-> (a == b)%Q. Proof. apply Qeq_bool_iff. Qed.
Lemma qeq_false a b : qeq a b = false <-> ~ (a == b)%Q. Proof. rewrite <- qeq_true. symmetry; apply not_true_iff_false. Qed.
Lemma inv_lt a b : (0 < a)%Q -> (a < b)%Q -> (/ b < / a)%Q.
Proof. intros A B. assert (B0 : (0 < b)%Q) by lra. exact (proj1 (Qinv_lt_contravar a b A B0) B). Qed.
Lemma inv_pos a : (0 < a)%Q -> (0 < / a)%Q. Proof. apply Qinv_lt_0_compat. Qed.
Lemma even_half t : Z.even t = true -> t = 2 * (t / 2).
Proof. intros H. apply Z.even_spec in H. destruct H as [m ->]. rewrite (Z.mul_comm 2 m), Z.div_mul by lia. lia. Qed.
Lemma odd_half t : Z.even t = false -> t = 2 * (t / 2) + 1.
Proof.
  intros H. assert (O : Z.odd t = true) by (rewrite <- Z.negb_even, H; reflexivity). apply Z.odd_spec in O. destruct O as [m ->].
  replace (2 * m + 1) with (1 + m * 2) by lia. rewrite Z.div_add by lia. change (1 / 2) with 0. lia.
Qed.
Lemma ascending_above l e : ascending l e -> forall i, (i < length e)%nat -> (l < nth i e 0)%Q.
Proof.
  revert l. induction e as [|x e IH]; intros l A i Hi; cbn [length] in Hi; [lia|]. destruct A as [A1 A2].
  destruct i as [|i]; cbn [nth]; [exact A1|]. specialize (IH x A2 i ltac:(lia)). lra.
Qed.
Lemma ascending_nth l e : ascending l e -> forall i j, (i < j < length e)%nat -> (nth i e 0 < nth j e 0)%Q.
Proof.
  revert l. induction e as [|x e IH]; intros l A i j Hij; cbn [length] in Hij; [lia|]. destruct A as [A1 A2].
  destruct j as [|j]; [lia|]. destruct i as [|i]; cbn [nth].
  - apply (ascending_above x e A2). lia.
  - apply (IH x A2). lia.
Qed.

Section cells.
Variable E : list Q.
Hypothesis W : well_formed E.
Local Notation nn := (Z.of_nat (length E)).

Lemma n_pos : 1 <= nn.
Proof using W. destruct W as ((x & t & -> & _) & _). cbn [length]. lia. Qed.
Lemma n_pow : exists k, 0 <= k /\ nn = 2 ^ k.
Proof using W. destruct W as (_ & _ & k & ->). exists (Z.of_nat k). split; [lia|]. rewrite Nat2Z.inj_pow. reflexivity. Qed.
Lemma n2_eq : pn_n2 E = 8 * nn.
Proof using. unfold pn_n2. rewrite Z.shiftl_mul_pow2 by lia. change (2 ^ 3) with 8. lia. Qed.
Lemma half_eq : Z.shiftr (pn_n2 E) 1 = 4 * nn.
Proof using. rewrite n2_eq, Z.shiftr_div_pow2 by lia. change (2 ^ 1) with 2. replace (8 * nn) with (4 * nn * 2) by lia. apply Z.div_mul. lia. Qed.
Lemma quarter_eq : Z.shiftr (pn_n2 E) 2 = 2 * nn.
Proof using. rewrite n2_eq, Z.shiftr_div_pow2 by lia. change (2 ^ 2) with 4. replace (8 * nn) with (2 * nn * 4) by lia. apply Z.div_mul. lia. Qed.
Lemma mask_mod x : Z.land x (pn_mask E) = x mod (8 * nn).
Proof using W.
  unfold pn_mask. rewrite n2_eq. destruct n_pow as (k & K & ->). replace (8 * 2 ^ k) with (2 ^ (3 + k)) by (rewrite Z.pow_add_r by lia; reflexivity).
  rewrite <- Z.land_ones by lia. f_equal. rewrite Z.ones_equiv. lia.
Qed.
Lemma wrap x y k : 0 <= y < 8 * nn -> x = y + k * (8 * nn) -> x mod (8 * nn) = y.
Proof using. intros B ->. rewrite Z.mod_add by lia. apply Z.mod_small. exact B. Qed.
Lemma raw_small x : 0 <= x < 8 * nn -> pn_raw E x = x.
Proof using W. intros B. unfold pn_raw. rewrite mask_mod. now apply Z.mod_small. Qed.
Lemma one_eq : pn_one E = 2 * nn.
Proof using W. pose proof n_pos. unfold pn_one. rewrite quarter_eq. apply raw_small. lia. Qed.
Lemma inf_eq : pn_inf E = 4 * nn.
Proof using W. pose proof n_pos. unfold pn_inf. rewrite half_eq. apply raw_small. lia. Qed.
Lemma next_eq x : 0 <= x < 8 * nn -> pn_next E x = if x =? 8 * nn - 1 then 0 else x + 1.
Proof using W.
  intros B. unfold pn_next. rewrite mask_mod. destruct (Z.eqb_spec x (8 * nn - 1)) as [->|N].
  - apply (wrap _ 0 1); lia.
  - apply Z.mod_small. lia.
Qed.
Lemma prev_eq x : 0 <= x < 8 * nn -> pn_prev E x = if x =? 0 then 8 * nn - 1 else x - 1.
Proof using W.
  intros B. unfold pn_prev. rewrite mask_mod. destruct (Z.eqb_spec x 0) as [->|N].
  - apply (wrap _ _ (-1)); lia.
  - apply Z.mod_small. lia.
Qed.
Lemma neg_eq v : 0 <= v < 8 * nn -> pn_neg E v = if v =? 0 then 0 else 8 * nn - v.
Proof using W.
  intros B. unfold pn_neg, pn_raw. rewrite mask_mod. destruct (Z.eqb_spec v 0) as [->|N].
  - apply Z.mod_small. lia.
  - apply (wrap _ _ (-1)); lia.
Qed.
Lemma inv_eq v : 0 <= v < 8 * nn -> pn_inv E v = if v <=? 4 * nn then 4 * nn - v else 12 * nn - v.
Proof using W.
  intros B. unfold pn_inv, pn_raw. rewrite mask_mod, half_eq. destruct (Z.leb_spec v (4 * nn)) as [H|H].
  - apply (wrap _ _ (-1)); lia.
  - apply (wrap _ _ (-2)); lia.
Qed.
Lemma fromexacts_eq i : (i < length E)%nat -> pn_fromexacts E i = 2 * nn + 2 * Z.of_nat i.
Proof using W.
  intros H. unfold pn_fromexacts. rewrite quarter_eq, Z.shiftl_mul_pow2 by lia. change (2 ^ 1) with 2. rewrite raw_small; lia.
Qed.
Lemma exact_eq v : pn_isexact v = Z.even v.
Proof using.
  unfold pn_isexact. replace 1 with (Z.ones 1) by reflexivity. rewrite Z.land_ones by lia. change (2 ^ 1) with 2. rewrite Zmod_even. destruct (Z.even v); reflexivity.
Qed.

(** The numbers of the alphabet. *)
Lemma at_first : (pn_at E 0 == 1)%Q.
Proof using W. destruct W as ((x & t & -> & H) & _). exact H. Qed.
Lemma at_lt i j : (i < j < length E)%nat -> (pn_at E i < pn_at E j)%Q.
Proof using W. destruct W as (_ & A & _). apply (ascending_nth 0 E A). Qed.
Lemma at_ge i : (i < length E)%nat -> (1 <= pn_at E i)%Q.
Proof using W.
  intros H. pose proof at_first. destruct i as [|i]; [lra|]. pose proof (at_lt 0 (S i) ltac:(lia)). lra.
Qed.

(** The finite points, counted from 0 in both directions. *)
Definition pos (k : Z) : Q := if k =? 0 then 0%Q else if k <? nn then (/ pn_at E (Z.to_nat (nn - k)))%Q else pn_at E (Z.to_nat (k - nn)).
Definition pv (k : Z) : Q := if k <? 0 then (- pos (- k))%Q else pos k.
Lemma pos_frac i : (1 <= i < length E)%nat -> pos (nn - Z.of_nat i) = (/ pn_at E i)%Q.
Proof using.
  intros H. unfold pos. destruct (Z.eqb_spec (nn - Z.of_nat i) 0); [lia|]. destruct (Z.ltb_spec (nn - Z.of_nat i) nn); [|lia].
  now replace (Z.to_nat (nn - (nn - Z.of_nat i))) with i by lia.
Qed.
Lemma pos_int i : (i < length E)%nat -> pos (nn + Z.of_nat i) = pn_at E i.
Proof using.
  intros H. unfold pos. destruct (Z.eqb_spec (nn + Z.of_nat i) 0); [lia|]. destruct (Z.ltb_spec (nn + Z.of_nat i) nn); [lia|].
  now replace (Z.to_nat (nn + Z.of_nat i - nn)) with i by lia.
Qed.
Lemma pos_pos k : 0 < k < 2 * nn -> (0 < pos k)%Q.
Proof using W.
  intros H. unfold pos. destruct (Z.eqb_spec k 0); [lia|]. destruct (Z.ltb_spec k nn).
  - apply inv_pos. pose proof (at_ge (Z.to_nat (nn - k)) ltac:(lia)). lra.
  - pose proof (at_ge (Z.to_nat (k - nn)) ltac:(lia)). lra.
Qed.
Lemma pos_lt j k : 0 <= j -> j < k -> k < 2 * nn -> (pos j < pos k)%Q.
Proof using W.
  intros J H K. destruct (Z.eq_dec j 0) as [->|J0]; [apply pos_pos; lia|].
  unfold pos. destruct (Z.eqb_spec j 0); [lia|]. destruct (Z.eqb_spec k 0); [lia|]. destruct (Z.ltb_spec j nn), (Z.ltb_spec k nn); [| |lia|].
  - pose proof (at_lt (Z.to_nat (nn - k)) (Z.to_nat (nn - j)) ltac:(lia)) as L. pose proof (at_ge (Z.to_nat (nn - k)) ltac:(lia)). apply inv_lt; lra.
  - pose proof (at_lt 0 (Z.to_nat (nn - j)) ltac:(lia)) as L. pose proof (at_ge (Z.to_nat (k - nn)) ltac:(lia)). pose proof at_first as F.
    assert (I : (/ pn_at E (Z.to_nat (nn - j)) < / 1)%Q) by (apply inv_lt; lra). change (/ 1)%Q with 1%Q in I. lra.
  - apply at_lt. lia.
Qed.
Lemma pos_recip k : 0 < k < 2 * nn -> (pos (2 * nn - k) == / pos k)%Q.
Proof using W.
  intros H. unfold pos. destruct (Z.eqb_spec k 0); [lia|]. destruct (Z.eqb_spec (2 * nn - k) 0); [lia|].
  destruct (Z.ltb_spec k nn), (Z.ltb_spec (2 * nn - k) nn); try lia.
  - rewrite Qinv_involutive. replace (2 * nn - k - nn) with (nn - k) by lia. reflexivity.
  - replace (nn - (2 * nn - k)) with (k - nn) by lia. reflexivity.
  - assert (k = nn) by lia. subst k. replace (2 * nn - nn - nn) with 0 by lia. replace (nn - nn) with 0 by lia. cbn [Z.to_nat]. rewrite at_first. reflexivity.
Qed.
Lemma pv_opp k : (pv (- k) == - pv k)%Q.
Proof using.
  unfold pv. destruct (Z.ltb_spec (- k) 0), (Z.ltb_spec k 0); try lia.
  - rewrite Z.opp_involutive. reflexivity.
  - rewrite Qopp_involutive. reflexivity.
  - assert (k = 0) by lia. subst. cbn. reflexivity.
Qed.
Lemma pv_nonneg k : 0 <= k -> pv k = pos k.
Proof using. intros H. unfold pv. destruct (Z.ltb_spec k 0); [lia|reflexivity]. Qed.
Lemma pv_0 : pv 0 = 0%Q. Proof using. reflexivity. Qed.
Lemma pv_lt j k : - (2 * nn) < j -> j < k -> k < 2 * nn -> (pv j < pv k)%Q.
Proof using W.
  intros J H K. unfold pv. destruct (Z.ltb_spec j 0), (Z.ltb_spec k 0); try lia.
  - pose proof (pos_lt (- k) (- j) ltac:(lia) ltac:(lia) ltac:(lia)). lra.
  - pose proof (pos_pos (- j) ltac:(lia)). destruct (Z.eq_dec k 0) as [->|]; [change (pos 0) with 0%Q; lra|]. pose proof (pos_pos k ltac:(lia)). lra.
  - apply pos_lt; lia.
Qed.
Lemma pv_le j k : - (2 * nn) < j -> j <= k -> k < 2 * nn -> (pv j <= pv k)%Q.
Proof using W. intros J H K. destruct (Z.eq_dec j k) as [->|]; [lra|]. pose proof (pv_lt j k J ltac:(lia) K). lra. Qed.

(** The cell of a finite number: t from -4n+1 to 4n-1. *)
Definition cell (t : Z) (q : Q) : Prop :=
  if Z.even t then (q == pv (t / 2))%Q
  else (- (2 * nn) < t / 2 -> (pv (t / 2) < q)%Q) /\ (t / 2 + 1 < 2 * nn -> (q < pv (t / 2 + 1))%Q).
Lemma cell_even k q : cell (2 * k) q <-> (q == pv k)%Q.
Proof using. unfold cell. rewrite Z.even_mul. cbn [Z.even orb]. replace (2 * k / 2) with k by (rewrite Z.mul_comm, Z.div_mul; lia). reflexivity. Qed.
Lemma cell_odd k q : cell (2 * k + 1) q <-> (- (2 * nn) < k -> (pv k < q)%Q) /\ (k + 1 < 2 * nn -> (q < pv (k + 1))%Q).
Proof using.
  unfold cell. rewrite Z.even_add, Z.even_mul. cbn [Z.even orb eqb]. replace ((2 * k + 1) / 2) with k; [reflexivity|].
  rewrite (Z.mul_comm 2 k), Z.div_add_l by lia. change (1 / 2) with 0. lia.
Qed.
Lemma parity t : (exists k, t = 2 * k /\ Z.even t = true) \/ (exists k, t = 2 * k + 1 /\ Z.even t = false).
Proof using.
  destruct (Z.even t) eqn:P; [left|right]; exists (t / 2); split; try reflexivity; [now apply even_half|now apply odd_half].
Qed.
Lemma cell_sep t t' q q' : - (4 * nn) < t' -> t' < t -> t < 4 * nn -> cell t q -> cell t' q' -> (q' < q)%Q.
Proof using W.
  intros B L B' C C'. destruct (parity t) as [(k & -> & _)|(k & -> & _)], (parity t') as [(j & -> & _)|(j & -> & _)]; (apply cell_even in C || apply cell_odd in C); (apply cell_even in C' || apply cell_odd in C').
  - pose proof (pv_lt j k ltac:(lia) ltac:(lia) ltac:(lia)). lra.
  - destruct C' as [_ C']. pose proof (C' ltac:(lia)). pose proof (pv_le (j + 1) k ltac:(lia) ltac:(lia) ltac:(lia)). lra.
  - destruct C as [C _]. pose proof (C ltac:(lia)). pose proof (pv_le j k ltac:(lia) ltac:(lia) ltac:(lia)). lra.
  - destruct C as [C _]. destruct C' as [_ C']. pose proof (C ltac:(lia)). pose proof (C' ltac:(lia)). pose proof (pv_le (j + 1) k ltac:(lia) ltac:(lia) ltac:(lia)). lra.
Qed.
Lemma cell_unique t t' q : - (4 * nn) < t < 4 * nn -> - (4 * nn) < t' < 4 * nn -> cell t q -> cell t' q -> t = t'.
Proof using W.
  intros B B' C C'. destruct (Z.lt_trichotomy t t') as [L|[L|L]]; [|exact L|].
  - pose proof (cell_sep t' t q q ltac:(lia) L ltac:(lia) C' C). lra.
  - pose proof (cell_sep t t' q q ltac:(lia) L ltac:(lia) C C'). lra.
Qed.
Lemma cell_mono t t' q q' : - (4 * nn) < t < 4 * nn -> - (4 * nn) < t' < 4 * nn -> cell t q -> cell t' q' -> (q <= q')%Q -> t <= t'.
Proof using W.
  intros B B' C C' L. destruct (Z_le_gt_dec t t') as [H|H]; [exact H|].
  pose proof (cell_sep t t' q q' ltac:(lia) ltac:(lia) ltac:(lia) C C'). lra.
Qed.
Lemma cell_comp t q q' : (q == q')%Q -> cell t q -> cell t q'.
Proof using.
  intros H. unfold cell. destruct (Z.even t); [intros; lra|]. intros [A B]. split; intros X; [specialize (A X)|specialize (B X)]; lra.
Qed.
Lemma cell_opp t q : cell t q -> cell (- t) (- q).
Proof using.
  intros C. destruct (parity t) as [(k & -> & _)|(k & -> & _)].
  - replace (- (2 * k)) with (2 * - k) by lia. rewrite cell_even in *. rewrite pv_opp. lra.
  - replace (- (2 * k + 1)) with (2 * (- (k + 1)) + 1) by lia. rewrite cell_odd in *. destruct C as [A B].
    replace (- (k + 1) + 1) with (- k) by lia. rewrite !pv_opp. split; intros X; [specialize (B ltac:(lia))|specialize (A ltac:(lia))]; lra.
Qed.
Lemma cell_sign t q : - (4 * nn) < t < 4 * nn -> cell t q -> (0 < t -> (0 < q)%Q) /\ (t < 0 -> (q < 0)%Q).
Proof using W.
  intros B C. assert (Z0 : cell 0 0) by (change 0 with (2 * 0); apply cell_even; reflexivity). pose proof n_pos. split; intros H'.
  - exact (cell_sep t 0 q 0 ltac:(lia) ltac:(lia) ltac:(lia) C Z0).
  - exact (cell_sep 0 t 0 q ltac:(lia) ltac:(lia) ltac:(lia) Z0 C).
Qed.
Lemma cell_recip t q : 0 < t < 4 * nn -> cell t q -> cell (4 * nn - t) (/ q).
Proof using W.
  intros B C. destruct (cell_sign t q ltac:(lia) C) as [P _]. specialize (P ltac:(lia)).
  destruct (parity t) as [(k & -> & _)|(k & -> & _)].
  - replace (4 * nn - 2 * k) with (2 * (2 * nn - k)) by lia. rewrite cell_even in *. rewrite pv_nonneg in * by lia. rewrite pos_recip by lia. rewrite C. reflexivity.
  - replace (4 * nn - (2 * k + 1)) with (2 * (2 * nn - (k + 1)) + 1) by lia. rewrite cell_odd in *. destruct C as [A A'].
    replace (2 * nn - (k + 1) + 1) with (2 * nn - k) by lia. split; intros X.
    + destruct (Z.eq_dec (k + 1) (2 * nn)) as [->|N]; [rewrite Z.sub_diag, pv_0; now apply inv_pos|].
      specialize (A' ltac:(lia)). rewrite pv_nonneg in * by lia. rewrite pos_recip by lia. now apply inv_lt.
    + specialize (A ltac:(lia)). rewrite pv_nonneg in * by lia. rewrite pos_recip by lia. apply inv_lt; [|exact A]. apply pos_pos. lia.
Qed.

(** The search. *)
Lemma bisect_ok up : forall r lo hi, (lo < hi)%nat -> (hi - lo <= r)%nat ->
  let '(lo', hi') := pn_bisect up r lo hi in
  (lo <= lo' /\ hi' <= hi /\ hi' = S lo')%nat /\ (lo' = lo \/ up lo' = true) /\ (hi' = hi \/ up hi' = false).
Proof using.
  induction r as [|r IH]; intros lo hi L R; [lia|]. cbn [pn_bisect]. set (d := (hi - lo)%nat) in *.
  assert (D : (Nat.div2 d + Nat.div2 d <= d <= Nat.div2 d + Nat.div2 d + 1)%nat).
  { pose proof (Nat.div2_odd d) as O. destruct (Nat.odd d); cbn [Nat.b2n] in O; lia. }
  destruct (Nat.eqb_spec (lo + Nat.div2 d) lo) as [H1|H1]; cbn [orb].
  - split; [lia|]. auto.
  - destruct (Nat.eqb_spec (lo + Nat.div2 d) hi) as [H2|H2]; [lia|]. destruct (up (lo + Nat.div2 d)%nat) eqn:U.
    + specialize (IH (lo + Nat.div2 d)%nat hi ltac:(lia) ltac:(lia)). destruct (pn_bisect up r (lo + Nat.div2 d) hi) as [lo' hi'].
      destruct IH as (A & B & C). split; [lia|]. split; [|exact C]. right. destruct B as [->|B]; assumption.
    + specialize (IH lo (lo + Nat.div2 d)%nat ltac:(lia) ltac:(lia)). destruct (pn_bisect up r lo (lo + Nat.div2 d)) as [lo' hi'].
      destruct IH as (A & B & C). split; [lia|]. split; [exact B|]. right. destruct C as [->|C]; assumption.
Qed.
Lemma search_pos_ok x : (0 < x)%Q -> 0 < pn_search_pos E x < 4 * nn /\ cell (pn_search_pos E x) x.
Proof using W.
  intros X. pose proof n_pos as N1. pose proof at_first as F. unfold pn_search_pos. destruct (qlt x 1) eqn:S1.
  - apply qlt_true in S1. pose proof (bisect_ok (fun mid => qlt x (/ pn_at E mid)) (length E) 0 (length E) ltac:(lia) ltac:(lia)) as B.
    destruct (pn_bisect _ (length E) 0 (length E)) as [lo hi]. destruct B as ((L1 & L2 & ->) & B1 & B2).
    assert (LO : (x < / pn_at E lo)%Q). { destruct B1 as [->|B1]; [rewrite F; exact S1|]. now apply qlt_true. }
    assert (HI : (S lo < length E)%nat -> (/ pn_at E (S lo) <= x)%Q). { intros H. destruct B2 as [B2|B2]; [lia|]. now apply qlt_false. }
    destruct (qeq (/ pn_at E lo) x) eqn:Q1; [apply qeq_true in Q1; lra|].
    destruct (Nat.ltb_spec (S lo) (length E)) as [H|H]; cbn [andb].
    + specialize (HI H). destruct (qeq (/ pn_at E (S lo)) x) eqn:Q2.
      * apply qeq_true in Q2. rewrite fromexacts_eq, inv_eq by lia. destruct (Z.leb_spec (2 * nn + 2 * Z.of_nat (S lo)) (4 * nn)); [|lia].
        split; [lia|]. replace (4 * nn - (2 * nn + 2 * Z.of_nat (S lo))) with (2 * (nn - Z.of_nat (S lo))) by lia.
        rewrite cell_even, pv_nonneg, pos_frac by lia. lra.
      * apply qeq_false in Q2. assert (HI' : (/ pn_at E (S lo) < x)%Q) by (apply Qnot_le_lt; intros Q3; apply Q2; lra).
        destruct (Nat.eqb_spec lo 0) as [->|L0].
        -- rewrite one_eq, prev_eq by lia. destruct (Z.eqb_spec (2 * nn) 0); [lia|]. split; [lia|].
           replace (2 * nn - 1) with (2 * (nn - Z.of_nat 1) + 1) by lia. rewrite cell_odd. split; intros _.
           ++ rewrite pv_nonneg, pos_frac by lia. exact HI'.
           ++ replace (nn - Z.of_nat 1 + 1) with (nn + Z.of_nat 0) by lia. rewrite pv_nonneg, pos_int by lia. lra.
        -- destruct (Nat.leb_spec (length E) (S lo)); [lia|]. rewrite fromexacts_eq, next_eq by lia.
           destruct (Z.eqb_spec (2 * nn + 2 * Z.of_nat lo) (8 * nn - 1)); [lia|]. rewrite inv_eq by lia.
           destruct (Z.leb_spec (2 * nn + 2 * Z.of_nat lo + 1) (4 * nn)); [|lia]. split; [lia|].
           replace (4 * nn - (2 * nn + 2 * Z.of_nat lo + 1)) with (2 * (nn - Z.of_nat (S lo)) + 1) by lia. rewrite cell_odd. split; intros _.
           ++ rewrite pv_nonneg, pos_frac by lia. exact HI'.
           ++ replace (nn - Z.of_nat (S lo) + 1) with (nn - Z.of_nat lo) by lia. rewrite pv_nonneg, pos_frac by lia. exact LO.
    + destruct (Nat.eqb_spec lo 0) as [->|L0].
      * rewrite one_eq, prev_eq by lia. destruct (Z.eqb_spec (2 * nn) 0); [lia|]. split; [lia|].
        replace (2 * nn - 1) with (2 * 0 + 1) by lia. rewrite cell_odd. split; intros _; [exact X|].
        replace (0 + 1) with (nn + Z.of_nat 0) by lia. rewrite pv_nonneg, pos_int by lia. lra.
      * destruct (Nat.leb_spec (length E) (S lo)); [|lia]. unfold pn_zero. rewrite next_eq by lia. destruct (Z.eqb_spec 0 (8 * nn - 1)); [lia|].
        split; [lia|]. change (0 + 1) with (2 * 0 + 1). rewrite cell_odd. split; intros _; [exact X|].
        replace (0 + 1) with (nn - Z.of_nat lo) by lia. rewrite pv_nonneg, pos_frac by lia. exact LO.
  - apply qlt_false in S1. pose proof (bisect_ok (fun mid => qlt (pn_at E mid) x) (length E) 0 (length E) ltac:(lia) ltac:(lia)) as B.
    destruct (pn_bisect _ (length E) 0 (length E)) as [lo hi]. destruct B as ((L1 & L2 & ->) & B1 & B2).
    assert (LO : (pn_at E lo <= x)%Q). { destruct B1 as [->|B1]; [lra|]. apply qlt_true in B1. lra. }
    assert (HI : (S lo < length E)%nat -> (x <= pn_at E (S lo))%Q). { intros H. destruct B2 as [B2|B2]; [lia|]. now apply qlt_false. }
    destruct (qeq (pn_at E lo) x) eqn:Q1.
    + apply qeq_true in Q1. rewrite fromexacts_eq by lia. split; [lia|].
      replace (2 * nn + 2 * Z.of_nat lo) with (2 * (nn + Z.of_nat lo)) by lia. rewrite cell_even, pv_nonneg, pos_int by lia. lra.
    + apply qeq_false in Q1. assert (LO' : (pn_at E lo < x)%Q) by (apply Qnot_le_lt; intros Q3; apply Q1; lra).
      destruct (Nat.ltb_spec (S lo) (length E)) as [H|H]; cbn [andb].
      * specialize (HI H). destruct (qeq (pn_at E (S lo)) x) eqn:Q2.
        -- apply qeq_true in Q2. rewrite fromexacts_eq by lia. split; [lia|].
           replace (2 * nn + 2 * Z.of_nat (S lo)) with (2 * (nn + Z.of_nat (S lo))) by lia. rewrite cell_even, pv_nonneg, pos_int by lia. lra.
        -- apply qeq_false in Q2. assert (HI' : (x < pn_at E (S lo))%Q) by (apply Qnot_le_lt; intros Q3; apply Q2; lra).
           assert (G : 0 < 2 * nn + 2 * Z.of_nat lo + 1 < 4 * nn /\ cell (2 * nn + 2 * Z.of_nat lo + 1) x).
           { split; [lia|]. replace (2 * nn + 2 * Z.of_nat lo + 1) with (2 * (nn + Z.of_nat lo) + 1) by lia. rewrite cell_odd. split; intros _.
             - rewrite pv_nonneg, pos_int by lia. exact LO'.
             - replace (nn + Z.of_nat lo + 1) with (nn + Z.of_nat (S lo)) by lia. rewrite pv_nonneg, pos_int by lia. exact HI'. }
           destruct (Nat.eqb_spec lo 0) as [->|L0].
           ++ rewrite one_eq, next_eq by lia. destruct (Z.eqb_spec (2 * nn) (8 * nn - 1)); [lia|]. replace (2 * nn + 1) with (2 * nn + 2 * Z.of_nat 0 + 1) by lia. exact G.
           ++ destruct (Nat.leb_spec (length E) (S lo)); [lia|]. rewrite fromexacts_eq, next_eq by lia.
              destruct (Z.eqb_spec (2 * nn + 2 * Z.of_nat lo) (8 * nn - 1)); [lia|]. exact G.
      * assert (G : 0 < 4 * nn - 1 < 4 * nn /\ cell (4 * nn - 1) x).
        { split; [lia|]. replace (4 * nn - 1) with (2 * (nn + Z.of_nat lo) + 1) by lia. rewrite cell_odd. split; intros Y; [|lia].
          rewrite pv_nonneg, pos_int by lia. exact LO'. }
        destruct (Nat.eqb_spec lo 0) as [->|L0].
        -- rewrite one_eq, next_eq by lia. destruct (Z.eqb_spec (2 * nn) (8 * nn - 1)); [lia|]. replace (2 * nn + 1) with (4 * nn - 1) by lia. exact G.
        -- destruct (Nat.leb_spec (length E) (S lo)); [|lia]. rewrite inf_eq, prev_eq by lia. destruct (Z.eqb_spec (4 * nn) 0); [lia|]. exact G.
Qed.

(** Pnums and cells. *)
Definition sg (v : Z) : Z := if v <=? 4 * nn then v else v - 8 * nn.
Definition un (t : Z) : Z := if t <? 0 then t + 8 * nn else t.
Lemma search_ok x : exists t, - (4 * nn) < t < 4 * nn /\ pn_search E x = un t /\ cell t x.
Proof using W.
  pose proof n_pos. unfold pn_search. destruct (qeq x 0) eqn:Q0.
  - apply qeq_true in Q0. exists 0. split; [lia|]. split; [reflexivity|]. change 0 with (2 * 0). apply cell_even. exact Q0.
  - apply qeq_false in Q0. destruct (qlt x 0) eqn:Q1.
    + apply qlt_true in Q1. destruct (search_pos_ok (- x) ltac:(lra)) as [B C]. exists (- pn_search_pos E (- x)). split; [lia|]. split.
      * rewrite neg_eq by lia. unfold un. destruct (Z.eqb_spec (pn_search_pos E (- x)) 0); [lia|]. destruct (Z.ltb_spec (- pn_search_pos E (- x)) 0); lia.
      * apply (cell_comp _ (- - x)); [lra|]. apply cell_opp. exact C.
    + apply qlt_false in Q1. destruct (search_pos_ok x) as [B C]; [apply Qnot_le_lt; intros X; apply Q0; lra|]. exists (pn_search_pos E x). split; [lia|]. split; [|exact C].
      unfold un. destruct (Z.ltb_spec (pn_search_pos E x) 0); lia.
Qed.
Lemma un_sg v : is_pnum E v -> un (sg v) = v.
Proof using. unfold is_pnum, un, sg. intros B. destruct (Z.leb_spec v (4 * nn)); match goal with |- context [?a <? 0] => destruct (Z.ltb_spec a 0) end; lia. Qed.
Lemma sg_un t : - (4 * nn) < t <= 4 * nn -> sg (un t) = t.
Proof using. intros B. unfold un, sg. destruct (Z.ltb_spec t 0); match goal with |- context [?a <=? 4 * nn] => destruct (Z.leb_spec a (4 * nn)) end; lia. Qed.
Lemma un_pnum t : - (4 * nn) < t <= 4 * nn -> is_pnum E (un t).
Proof using W. pose proof n_pos. intros B. unfold is_pnum, un. destruct (Z.ltb_spec t 0); lia. Qed.
Lemma sg_range v : is_pnum E v -> - (4 * nn) < sg v <= 4 * nn.
Proof using. unfold is_pnum, sg. intros B. destruct (Z.leb_spec v (4 * nn)); lia. Qed.
Lemma point_finite k : - (2 * nn) < k < 2 * nn -> point E (if k <? 0 then k + 4 * nn else k) = Fin (pv k).
Proof using.
  intros B. unfold point, pv. fold (pn_at E). destruct (Z.ltb_spec k 0).
  - destruct (Z.ltb_spec (k + 4 * nn) (2 * nn)); [lia|]. destruct (Z.eqb_spec (k + 4 * nn) (2 * nn)); [lia|]. replace (4 * nn - (k + 4 * nn)) with (- k) by lia. reflexivity.
  - destruct (Z.ltb_spec k (2 * nn)); [reflexivity|lia].
Qed.
Lemma point_inf : point E (2 * nn) = Inf.
Proof using. unfold point. destruct (Z.ltb_spec (2 * nn) (2 * nn)); [lia|]. now rewrite Z.eqb_refl. Qed.
Lemma member_inf v : is_pnum E v -> member E v Inf <-> v = 4 * nn.
Proof using W.
  intros B. pose proof n_pos as NP. unfold is_pnum in B. unfold member. destruct (Z.even v) eqn:P.
  - apply even_half in P. set (k := v / 2) in *. clearbody k. subst v. split.
    + intros H. destruct (Z.eq_dec k (2 * nn)) as [->|N]; [lia|]. exfalso.
      destruct (Z_lt_le_dec k (2 * nn)).
      * pose proof (point_finite k ltac:(lia)) as F. destruct (Z.ltb_spec k 0); [lia|]. rewrite F in H. exact H.
      * pose proof (point_finite (k - 4 * nn) ltac:(lia)) as F. destruct (Z.ltb_spec (k - 4 * nn) 0); [|lia]. replace (k - 4 * nn + 4 * nn) with k in F by lia. rewrite F in H. exact H.
    + intros K. replace k with (2 * nn) by lia. rewrite point_inf. exact I.
  - split; [intros (q & H' & _); discriminate|]. intros ->. replace (4 * nn) with (2 * (2 * nn)) in P by lia. rewrite Z.even_mul in P. discriminate P.
Qed.
Lemma member_fin v q : is_pnum E v -> v <> 4 * nn -> member E v (Fin q) <-> cell (sg v) q.
Proof using W.
  intros B N. pose proof n_pos. unfold is_pnum in B. unfold member, sg. destruct (parity v) as [(k & -> & ->)|(k & -> & ->)].
  - replace (2 * k / 2) with k by (rewrite Z.mul_comm, Z.div_mul; lia). destruct (Z.leb_spec (2 * k) (4 * nn)).
    + rewrite cell_even. pose proof (point_finite k ltac:(lia)) as F. destruct (Z.ltb_spec k 0); [lia|]. rewrite F. reflexivity.
    + replace (2 * k - 8 * nn) with (2 * (k - 4 * nn)) by lia. rewrite cell_even. pose proof (point_finite (k - 4 * nn) ltac:(lia)) as F.
      destruct (Z.ltb_spec (k - 4 * nn) 0); [|lia]. replace (k - 4 * nn + 4 * nn) with k in F by lia. rewrite F. reflexivity.
  - replace ((2 * k + 1) / 2) with k by (rewrite (Z.mul_comm 2 k), Z.div_add_l by lia; change (1 / 2) with 0; lia).
    assert (LEFT : forall P : Q -> Prop, (exists p, Fin q = Fin p /\ P p) <-> P q). { intros P. split; [intros (p & [= ->] & X); exact X|intros X; exists q; auto]. }
    rewrite (LEFT (fun q => _ /\ _)). destruct (Z.leb_spec (2 * k + 1) (4 * nn)).
    + rewrite cell_odd. pose proof (point_finite k ltac:(lia)) as F. destruct (Z.ltb_spec k 0); [lia|]. rewrite F. rewrite Z.mod_small by lia.
      destruct (Z.eq_dec (k + 1) (2 * nn)) as [E1|E1].
      * rewrite E1, point_inf. split; [intros [X _]; split; [auto|lia]|intros [X _]; split; [apply X; lia|exact I]].
      * pose proof (point_finite (k + 1) ltac:(lia)) as F'. destruct (Z.ltb_spec (k + 1) 0); [lia|]. rewrite F'.
        split; [intros [X Y]; split; auto|intros [X Y]; split; [apply X|apply Y]; lia].
    + replace (2 * k + 1 - 8 * nn) with (2 * (k - 4 * nn) + 1) by lia. rewrite cell_odd.
      assert (F' : point E ((k + 1) mod (4 * nn)) = Fin (pv (k - 4 * nn + 1))).
      { destruct (Z.eq_dec (k + 1) (4 * nn)) as [E1|E1].
        - rewrite E1, Z.mod_same by lia. replace (k - 4 * nn + 1) with 0 by lia. pose proof (point_finite 0 ltac:(lia)) as F. exact F.
        - rewrite Z.mod_small by lia. pose proof (point_finite (k - 4 * nn + 1) ltac:(lia)) as F. destruct (Z.ltb_spec (k - 4 * nn + 1) 0); [|lia].
          replace (k - 4 * nn + 1 + 4 * nn) with (k + 1) in F by lia. exact F. }
      rewrite F'. destruct (Z.eq_dec k (2 * nn)) as [E1|E1].
      * rewrite E1, point_inf. split; [intros [_ Y]; split; [lia|auto]|intros [_ Y]; split; [exact I|apply Y; lia]].
      * pose proof (point_finite (k - 4 * nn) ltac:(lia)) as F. destruct (Z.ltb_spec (k - 4 * nn) 0); [|lia]. replace (k - 4 * nn + 4 * nn) with k in F by lia. rewrite F.
        split; [intros [X Y]; split; auto|intros [X Y]; split; [apply X|apply Y]; lia].
Qed.
Lemma member_un t q : - (4 * nn) < t < 4 * nn -> member E (un t) (Fin q) <-> cell t q.
Proof using W.
  intros B. rewrite member_fin.
  - rewrite sg_un by lia. reflexivity.
  - apply un_pnum. lia.
  - unfold un. destruct (Z.ltb_spec t 0); lia.
Qed.
Lemma even_sg v : Z.even (sg v) = Z.even v.
Proof using.
  unfold sg. destruct (v <=? 4 * nn); [reflexivity|]. rewrite Z.even_sub. replace (8 * nn) with (2 * (4 * nn)) by lia. rewrite Z.even_mul. cbn [Z.even orb]. destruct (Z.even v); reflexivity.
Qed.
Lemma even_un t : Z.even (un t) = Z.even t.
Proof using.
  unfold un. destruct (t <? 0); [|reflexivity]. rewrite Z.even_add. replace (8 * nn) with (2 * (4 * nn)) by lia. rewrite Z.even_mul. cbn [Z.even orb]. destruct (Z.even t); reflexivity.
Qed.
End cells.
