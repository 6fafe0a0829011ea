(** The loops of the table programs, and what the entries hold. *)
From Coq Require Import ZArith QArith Qabs Lia Lqa Bool List Znumtheory.
From Verif Require Import Res CInt Bits Traits Unpacked Cfg Posit Spec SpecFloat SpecAny FloatOps QPow Core SpecLemmas Arith DecodeProof EncodeProof
  UOps UAdd Ops OpsAdd OpsUnary OpsUnary2 Specials Room Laws Configs Final1 Final2 Final3 Misc4 Conv1 Conv2 Conv3 Conv4 Conv5 TabProof5 FloatProof FloatProof2 PositF PositFProof PositFProof2 PositFProof3 PositFProof4
  AnyProof AnyProof2 AnyProof3 AnyProof4 AnyProof5 Tab TabProof TabProof2 TabProof3 TabProof4 Gen GenProof.
Open Scope Z_scope.

Lemma fill_miss idx val l m j : (forall s, In s l -> idx s <> j) -> g_fill idx val l m j = m j.
Proof.
  revert m. induction l as [|a l IH]; intros m H; [reflexivity|]. cbn [g_fill fold_left]. fold (g_fill idx val l (g_upd m (idx a) (val a))).
  rewrite IH by (intros s S; apply H; right; exact S). unfold g_upd. destruct (Z.eqb_spec j (idx a)) as [E|]; [|reflexivity].
  destruct (H a (or_introl eq_refl)). symmetry. exact E.
Qed.
Lemma fill_hit idx val l m s : In s l -> (forall s', In s' l -> idx s' = idx s -> s' = s) -> g_fill idx val l m (idx s) = val s.
Proof.
  revert m. induction l as [|a l IH]; intros m I H; [contradiction|]. cbn [g_fill fold_left]. fold (g_fill idx val l (g_upd m (idx a) (val a))).
  destruct (in_dec Z.eq_dec s l) as [J|J]; [apply IH; [exact J|intros s' S; apply H; right; exact S]|].
  destruct I as [->|I]; [|contradiction]. rewrite fill_miss.
  - unfold g_upd. rewrite Z.eqb_refl. reflexivity.
  - intros s' S E. apply J. rewrite <- (H s' (or_intror S) E). exact S.
Qed.
Lemma nest_miss (idx : Z -> Z -> Z) (val : Z -> Z -> res Z) (l l' : list Z) m j : (forall s s', In s l -> In s' l' -> idx s s' <> j) ->
  fold_left (fun m s => g_fill (idx s) (val s) l' m) l m j = m j.
Proof.
  revert m. induction l as [|a l IH]; intros m H; [reflexivity|]. cbn [fold_left]. rewrite IH by (intros s s' S S'; apply H; [right; exact S|exact S']).
  apply fill_miss. intros s S. apply H; [left; reflexivity|exact S].
Qed.
Lemma nest_hit (idx : Z -> Z -> Z) (val : Z -> Z -> res Z) (l l' : list Z) m s s' : In s l -> In s' l' ->
  (forall t t', In t l -> In t' l' -> idx t t' = idx s s' -> t = s /\ t' = s') ->
  fold_left (fun m s => g_fill (idx s) (val s) l' m) l m (idx s s') = val s s'.
Proof.
  revert m. induction l as [|a l IH]; intros m I I' H; [contradiction|]. cbn [fold_left].
  destruct (in_dec Z.eq_dec s l) as [J|J]; [apply IH; [exact J|exact I'|intros t t' S S'; apply H; [right; exact S|exact S']]|].
  destruct I as [->|I]; [|contradiction]. rewrite nest_miss.
  - apply (fill_hit (idx s) (val s)); [exact I'|]. intros t S E. exact (proj2 (H s t (or_introl eq_refl) S E)).
  - intros t t' S S' E. apply J. destruct (H t t' (or_intror S) S' E) as [<- _]. exact S.
Qed.

Lemma pattern_range c v : pattern c v <-> - 2 ^ (cN c - 1) <= v < 2 ^ (cN c - 1).
Proof. unfold pattern. reflexivity. Qed.

Section idx.
Context (c : cfg) (T : tabbed c).
Let V := tb_valid c T.
Lemma twoN : 2 ^ cN c = 2 * 2 ^ (cN c - 1) /\ 0 < 2 ^ (cN c - 1) /\ 2 ^ cN c <= 2 ^ 15.
Proof using T.
  vcb V. split; [replace (cN c) with (cN c - 1 + 1) at 1 by lia; rewrite Z.pow_add_r by lia; ring|]. split; [apply Z.pow_pos_nonneg; lia|].
  apply Z.pow_le_mono_r; [lia|exact (tb_N c T)].
Qed.
Lemma loop_in s : In s (g_loop c) <-> pattern c s.
Proof using T.
  destruct twoN as (A & B & _). rewrite pattern_range. unfold g_loop. rewrite in_map_iff. split.
  - intros (i & <- & I). apply in_seq in I. lia.
  - intros R. exists (Z.to_nat (s + 2 ^ (cN c - 1))). split; [lia|]. apply in_seq. lia.
Qed.
Lemma index_mod s : g_index c s = s mod 2 ^ cN c.
Proof using T.
  vcb V. unfold g_index, cand. rewrite cast_u. replace (2 ^ cN c - 1) with (Z.ones (cN c)) by (rewrite Z.ones_equiv; lia). rewrite Z.land_ones by lia.
  pose proof (tb_N c T). symmetry. apply Zmod_div_mod; try (apply Z.pow_pos_nonneg; lia).
  exists (2 ^ (16 - cN c)). rewrite <- Z.pow_add_r by lia. f_equal. lia.
Qed.
Lemma index_range s : 0 <= g_index c s < 2 ^ cN c.
Proof using T. rewrite index_mod. apply Z.mod_pos_bound. destruct twoN; lia. Qed.
Lemma index_inj s t : pattern c s -> pattern c t -> g_index c s = g_index c t -> s = t.
Proof using T.
  rewrite !pattern_range, !index_mod. intros S R E. destruct twoN as (A & B & _).
  assert (D : (s - t) mod 2 ^ cN c = 0) by (rewrite Zminus_mod, E, Z.sub_diag; apply Z.mod_0_l; lia).
  apply Z.mod_divide in D; [|lia]. destruct D as (k & D).
  rewrite A in D. set (h := 2 ^ (cN c - 1)) in *. clearbody h. assert (k = 0) by (clear E; nia). subst k. lia.
Qed.
Lemma index_onto i : 0 <= i < 2 ^ cN c -> exists s, pattern c s /\ g_index c s = i.
Proof using T.
  intros I. destruct twoN as (A & B & _). destruct (Z_lt_ge_dec i (2 ^ (cN c - 1))) as [L|L].
  - exists i. rewrite pattern_range, index_mod. split; [lia|]. apply Z.mod_small. lia.
  - exists (i - 2 ^ cN c). rewrite pattern_range, index_mod. split; [lia|]. rewrite <- (Z_mod_plus_full (i - 2 ^ cN c) 1), Z.mul_1_l, Z.sub_add. apply Z.mod_small. lia.
Qed.
Lemma fill1 val s : pattern c s -> g_fill (g_index c) val (g_loop c) g_new (g_index c s) = val s.
Proof using T.
  intros P. apply fill_hit; [apply loop_in; exact P|]. intros s' I E. apply loop_in in I. exact (index_inj s' s I P E).
Qed.
Lemma pairs_at op s t : pattern c s -> pattern c t -> g_pairs c op (g_index c s * 2 ^ cN c + g_index c t) = g_pair c op s t.
Proof using T.
  intros P P'. unfold g_pairs. apply (nest_hit (fun s1 s2 => g_index c s1 * 2 ^ cN c + g_index c s2) (g_pair c op)); [apply loop_in; exact P|apply loop_in; exact P'|].
  intros a b A B E. apply loop_in in A, B. pose proof (index_range a). pose proof (index_range b). pose proof (index_range s). pose proof (index_range t).
  destruct twoN as (_ & _ & _). assert (g_index c a = g_index c s) by nia. split; [apply index_inj; assumption|]. apply index_inj; [assumption|assumption|nia].
Qed.
Lemma pair_index i : 0 <= i < 2 ^ cN c * 2 ^ cN c -> exists s t, pattern c s /\ pattern c t /\ g_index c s * 2 ^ cN c + g_index c t = i.
Proof using T.
  intros I. destruct twoN as (A & B & _). destruct (index_onto (i / 2 ^ cN c)) as (s & S & E).
  { split; [apply Z.div_pos; lia|apply Z.div_lt_upper_bound; lia]. }
  destruct (index_onto (i mod 2 ^ cN c)) as (t & R & E'); [apply Z.mod_pos_bound; lia|].
  exists s, t. split; [exact S|]. split; [exact R|]. rewrite E, E'. pose proof (Z.div_mod i (2 ^ cN c)). lia.
Qed.
End idx.

Section entries.
Context (c : cfg) (T : tabbed c) (rnd : Q -> Z) (RN : rounding 8 23 rnd).
Let V := tb_valid c T.

Lemma split_pattern v : pattern c v -> real c v \/ v = exceptional c.
Proof using T.
  intros P. unfold pattern in P. unfold real, maxreal, exceptional. rewrite (tb_sp c T). cbn iota. lia.
Qed.
Lemma exc_nan : is_nan c (exceptional c).
Proof using T. split; [rewrite (tb_sp c T); discriminate|reflexivity]. Qed.
Lemma float_real v : real c v -> exists b x, g_float c v = Ok b /\ 0 <= b < 2 ^ (8 + 23 + 1) /\ ieee_val 8 23 b = FinVal x /\ (x == value c v)%Q.
Proof using T. exact (to_float_covered c 8 23 true v V fmt23 (tb_pt c T) (tb_ff c T) (cov23 c T)). Qed.
Lemma float_nan : exists b, g_float c (exceptional c) = Ok b /\ 0 <= b < 2 ^ (8 + 23 + 1) /\ ieee_val 8 23 b = NaNVal.
Proof using T. exact (proj1 (to_float_special c 8 23 true (exceptional c) V fmt23) exc_nan). Qed.
Lemma value_zero v : real c v -> (value c v == 0)%Q <-> v = 0.
Proof using T. exact (PositFProof2.value_zero c V v). Qed.

Lemma pair_unfold op s t : pattern c s -> pattern c t -> g_pair c op s t =
  (let! x := g_float c s in let! y := g_float c t in p_of_float c single_trait (op x y)).
Proof using T. intros S R. unfold g_pair, g_op2float. rewrite !fill1 by assumption. reflexivity. Qed.
Lemma real_pat v : real c v -> pattern c v.
Proof using T. intros R. apply real_pattern; [exact V|exact R]. Qed.
Lemma exc_pat : pattern c (exceptional c).
Proof using T. apply pattern_range. unfold exceptional. destruct (twoN c T). lia. Qed.

Lemma pair_add a b : real c a -> real c b -> exists r, g_pair c (f_add 8 23 rnd) a b = Ok r /\ via_float c 8 23 (value c a + value c b) r.
Proof using T RN.
  intros A B. rewrite pair_unfold by (apply real_pat; assumption). destruct (float_real a A) as (x & p & -> & Bx & Ix & Ex). destruct (float_real b B) as (y & q & -> & By & Iy & Ey).
  cbn [bind]. unfold f_add. rewrite Ix, Iy. assert (E : (p + q == value c a + value c b)%Q) by (rewrite Ex, Ey; reflexivity).
  destruct (of_rnd_via c T rnd RN (p + q) (nr_comp _ _ (Qeq_sym _ _ E) (add_nr c T a b A B))) as (r & O & H). exists r. split; [exact O|].
  exact (via_float_comp c 8 23 _ _ r V E H).
Qed.
Lemma pair_mul a b : real c a -> real c b -> exists r, g_pair c (f_mul 8 23 rnd) a b = Ok r /\ rounds_tz c (value c a * value c b) r.
Proof using T RN.
  intros A B. rewrite pair_unfold by (apply real_pat; assumption). destruct (float_real a A) as (x & p & -> & Bx & Ix & Ex). destruct (float_real b B) as (y & q & -> & By & Iy & Ey).
  cbn [bind]. unfold f_mul. rewrite Ix, Iy. assert (E : (p * q == value c a * value c b)%Q) by (rewrite Ex, Ey; reflexivity).
  destruct (of_rnd_float c T rnd RN (p * q) (nr_comp _ _ (Qeq_sym _ _ E) (mul_nr c T a b A B)) (is_float_comp 8 23 _ _ (Qeq_sym _ _ E) (mul_exact c T a b A B))) as (r & O & H).
  exists r. split; [exact O|]. vcb V. exact (rounds_tz_comp c BN Bes _ _ r E H).
Qed.
Lemma gap_comp p q : (p == q)%Q -> gap c p -> gap c q.
Proof using. intros E G w W P L. destruct (G w W P ltac:(rewrite E; exact L)) as (f & F & F1 & F2). exists f. split; [exact F|]. rewrite <- E. auto. Qed.
Lemma pair_div a b : real c a -> real c b -> b <> 0 -> exists r, g_pair c (f_div 8 23 rnd) a b = Ok r /\ rounds_tz c (value c a / value c b) r.
Proof using T RN.
  intros A B NB. rewrite pair_unfold by (apply real_pat; assumption). destruct (float_real a A) as (x & p & -> & Bx & Ix & Ex). destruct (float_real b B) as (y & q & -> & By & Iy & Ey).
  cbn [bind]. unfold f_div. rewrite Ix, Iy.
  assert (NQ : ~ (q == 0)%Q) by (rewrite Ey; intros Z; apply NB; apply value_zero; assumption).
  destruct (f_isz q) eqn:FZ; [exfalso; apply NQ; apply Qeq_bool_iff; exact FZ|].
  assert (E : (p / q == value c a / value c b)%Q) by (rewrite Ex, Ey; reflexivity).
  destruct (of_rnd_gap c T rnd RN (p / q) (nr_comp _ _ (Qeq_sym _ _ E) (div_nr c T a b A B NB)) (gap_comp _ _ (Qeq_sym _ _ E) (div_gap c T a b A B NB))) as (r & O & H).
  exists r. split; [exact O|]. vcb V. exact (rounds_tz_comp c BN Bes _ _ r E H).
Qed.
Lemma pair_div_zero a : pattern c a -> g_pair c (f_div 8 23 rnd) a 0 = Ok (exceptional c).
Proof using T.
  intros A. assert (R0 : real c 0) by (apply zero_real; exact V). rewrite pair_unfold by (try assumption; apply real_pat; assumption).
  destruct (float_real 0 R0) as (y & q & -> & By & Iy & Ey). change (value c 0) with 0%Q in Ey. apply Qeq_bool_iff in Ey.
  destruct (split_pattern a A) as [R| ->].
  - destruct (float_real a R) as (x & p & -> & Bx & Ix & Ex). cbn [bind]. unfold f_div. rewrite Ix, Iy. unfold f_isz. rewrite Ey. destruct (Qeq_bool p 0); [apply (tb_nan c T)|apply (tb_inf c T)].
  - destruct float_nan as (x & -> & Bx & Ix). cbn [bind]. unfold f_div. rewrite Ix. apply (tb_nan c T).
Qed.
Lemma pair_nan a b : pattern c a -> pattern c b -> a = exceptional c \/ b = exceptional c ->
  g_pair c (f_add 8 23 rnd) a b = Ok (exceptional c) /\ g_pair c (f_mul 8 23 rnd) a b = Ok (exceptional c) /\ g_pair c (f_div 8 23 rnd) a b = Ok (exceptional c).
Proof using T.
  intros A B H. rewrite !pair_unfold by assumption. destruct float_nan as (x & X & Bx & Ix).
  assert (FA : exists z, g_float c a = Ok z) by (destruct (split_pattern a A) as [R| ->]; [destruct (float_real a R) as (z & q & -> & _)|]; eauto).
  assert (FB : exists z, g_float c b = Ok z) by (destruct (split_pattern b B) as [R| ->]; [destruct (float_real b R) as (z & q & -> & _)|]; eauto).
  destruct FA as (y & Y), FB as (z & Z). rewrite Y, Z. cbn [bind].
  assert (N : ieee_val 8 23 y = NaNVal \/ ieee_val 8 23 z = NaNVal) by (destruct H as [-> | ->]; [left|right]; congruence).
  unfold f_add, f_mul, f_div. destruct N as [-> | ->]; [|destruct (ieee_val 8 23 y)]; rewrite ?(tb_nan c T); auto.
Qed.

Lemma entry_square v : real c v -> exists r, g_square c rnd v = Ok r /\ rounds_tz c (value c v * value c v) r.
Proof using T RN.
  intros A. destruct (pair_mul v v A A) as (r & O & H). exists r. split; [|exact H].
  rewrite <- O, pair_unfold by (apply real_pat; assumption). unfold g_square. destruct (g_float c v); reflexivity.
Qed.
Lemma entry_half v : real c v -> exists r, g_half c rnd v = Ok r /\ rounds_tz c (value c v / 2) r.
Proof using T RN.
  intros A. unfold g_half. destruct (float_real v A) as (x & p & -> & Bx & Ix & Ex). cbn [bind].
  assert (I2 : exists q, ieee_val 8 23 (t_two single_trait) = FinVal q /\ (q == 2)%Q) by (eexists; split; [vm_compute; reflexivity|reflexivity]).
  destruct I2 as (q & I2 & E2). unfold f_div. rewrite Ix, I2.
  destruct (f_isz q) eqn:FZ; [exfalso; apply Qeq_bool_iff in FZ; lra|].
  assert (E : (p / q == value c v / 2)%Q) by (rewrite Ex, E2; reflexivity). destruct (half_float c T v A) as [HF HN].
  destruct (of_rnd_float c T rnd RN (p / q) (nr_comp _ _ (Qeq_sym _ _ E) HN) (is_float_comp 8 23 _ _ (Qeq_sym _ _ E) HF)) as (r & O & H).
  exists r. split; [exact O|]. vcb V. exact (rounds_tz_comp c BN Bes _ _ r E H).
Qed.
Lemma entry_nan : g_square c rnd (exceptional c) = Ok (exceptional c) /\ g_half c rnd (exceptional c) = Ok (exceptional c).
Proof using T.
  unfold g_square, g_half. destruct float_nan as (x & -> & Bx & Ix). cbn [bind]. unfold f_mul, f_div. rewrite Ix. split; apply (tb_nan c T).
Qed.
End entries.
