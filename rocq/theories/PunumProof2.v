(** Projective unums: the constructor, conversion, and the operations on one pnum. *)
From Coq Require Import ZArith QArith Qabs Bool List Lia Lqa.
From Verif Require Import Spec SpecFloat SpecPunum Punum PunumProof.
Import ListNotations.
Open Scope Z_scope.

(** The constructor. *)
Lemma ones_pos p : 1 <= ones p.
Proof. induction p as [p IH|p IH|]; cbn [ones]; lia. Qed.
Lemma ones_pow p : ones p = 1 -> exists k : nat, Zpos p = 2 ^ Z.of_nat k.
Proof.
  induction p as [p IH|p IH|]; cbn [ones]; intros H.
  - pose proof (ones_pos p). lia.
  - destruct (IH H) as [k K]. exists (S k). rewrite Nat2Z.inj_succ, Z.pow_succ_r by lia. lia.
  - exists 0%nat. reflexivity.
Qed.
Lemma pow_ones (k : nat) p : Zpos p = 2 ^ Z.of_nat k -> ones p = 1.
Proof.
  revert p. induction k as [|k IH]; intros p H.
  - change (2 ^ Z.of_nat 0) with 1 in H. injection H as ->. reflexivity.
  - rewrite Nat2Z.inj_succ, Z.pow_succ_r in H by lia. destruct p as [p|p|]; [lia| |].
    + apply (IH p). lia.
    + pose proof (Z.pow_pos_nonneg 2 (Z.of_nat k)). lia.
Qed.
Lemma monotonic_ok e : forall l, (1 <= l)%Q -> monotonic l e = true <-> ascending l e.
Proof.
  induction e as [|x e IH]; intros l L; cbn [monotonic ascending]; [tauto|].
  destruct (qlt x 1) eqn:A; cbn [orb].
  - apply qlt_true in A. split; [discriminate|intros [B _]; lra].
  - apply qlt_false in A. destruct (Qle_bool x l) eqn:B.
    + apply Qle_bool_iff in B. split; [discriminate|intros [C _]; lra].
    + rewrite (IH x) by lra. assert (C : (l < x)%Q). { apply Qnot_le_lt. intros C. apply Qle_bool_iff in C. congruence. } tauto.
Qed.
Lemma alphabet_ok e : (well_formed e -> alphabet e = Ret e) /\ (~ well_formed e -> alphabet e = Raise).
Proof.
  assert (D : (exists b : bool, (if b then well_formed e else ~ well_formed e) /\ alphabet e = if b then Ret e else Raise)).
  { destruct e as [|x t].
    - exists false. split; [|reflexivity]. intros ((x & t & H & _) & _). discriminate.
    - unfold alphabet. set (e := x :: t) in *. destruct (qeq x 1) eqn:X; cbn [negb].
      + apply qeq_true in X. set (c := match Z.of_nat (length e) with Zpos p => ones p | _ => 0 end). destruct (Z.eqb_spec c 1) as [C|C]; cbn [negb].
        * assert (P : exists k : nat, length e = (2 ^ k)%nat).
          { unfold c in C. destruct (Z.of_nat (length e)) as [|p|p] eqn:LE; try discriminate. destruct (ones_pow p C) as [k K]. exists k. apply Nat2Z.inj. rewrite Nat2Z.inj_pow. lia. }
          destruct (monotonic 0 e) eqn:M.
          -- exists true. split; [|reflexivity]. split; [now exists x, t|]. split; [|exact P]. unfold e in *. cbn [monotonic] in M. cbn [ascending].
             destruct (qlt x 1 || Qle_bool x 0); [discriminate|]. split; [lra|]. apply monotonic_ok; [lra|exact M].
          -- exists false. split; [|reflexivity]. intros (_ & A & _). unfold e in *. cbn [monotonic] in M. destruct A as [A1 A2].
             assert (Q1 : qlt x 1 = false) by (apply qlt_false; lra). rewrite Q1 in M. cbn [orb] in M.
             destruct (Qle_bool x 0) eqn:Q2; [apply Qle_bool_iff in Q2; lra|]. apply monotonic_ok in A2; [congruence|lra].
        * exists false. split; [|reflexivity]. intros (_ & _ & k & K). apply C. unfold c. assert (Z.of_nat (length e) = 2 ^ Z.of_nat k) by (rewrite K, Nat2Z.inj_pow; reflexivity).
          pose proof (Z.pow_pos_nonneg 2 (Z.of_nat k)). destruct (Z.of_nat (length e)) as [|p|p] eqn:LE; try lia. apply (pow_ones k). assumption.
      + exists false. split; [|reflexivity]. apply qeq_false in X. intros ((y & u & H & Y) & _). injection H as -> ->. contradiction. }
  destruct D as ([|] & B & ->); split; intros H; try reflexivity; contradiction.
Qed.

Lemma cell_zero E q : cell E 0 q -> (q == 0)%Q.
Proof. intros C. apply (cell_even E 0 q) in C. exact C. Qed.

Section one.
Variable E : list Q.
Hypothesis W : well_formed E.
Local Notation nn := (Z.of_nat (length E)).

Lemma count : pn_n2 E = 8 * nn /\ exists k : nat, pn_n2 E = 2 ^ Z.of_nat (k + 3).
Proof using W.
  split; [apply n2_eq|]. destruct W as (_ & _ & k & K). exists k. rewrite n2_eq, K, Nat2Z.inj_pow, Nat2Z.inj_add, Z.pow_add_r by lia. change (Z.of_nat 2) with 2.
  change (2 ^ Z.of_nat 3) with 8. lia.
Qed.
Lemma un_inj t t' : - (4 * nn) < t < 4 * nn -> - (4 * nn) < t' < 4 * nn -> un E t = un E t' -> t = t'.
Proof using. intros B B' H. rewrite <- (sg_un E t), <- (sg_un E t') by lia. now rewrite H. Qed.
Lemma pnum_cases v : is_pnum E v -> v = 4 * nn \/ exists t, - (4 * nn) < t < 4 * nn /\ v = un E t.
Proof using.
  intros B. destruct (Z.eq_dec v (4 * nn)) as [->|N]; [left; reflexivity|right]. exists (sg E v). rewrite (un_sg E v B). split; [|reflexivity].
  unfold is_pnum in B. unfold sg. destruct (Z.leb_spec v (4 * nn)); lia.
Qed.
Lemma inf_pnum : is_pnum E (4 * nn).
Proof using W. pose proof (n_pos E W). unfold is_pnum. lia. Qed.
Lemma un_not_inf t : - (4 * nn) < t < 4 * nn -> un E t <> 4 * nn.
Proof using. intros B. unfold un. destruct (Z.ltb_spec t 0); lia. Qed.
Lemma member_comp v x y : pr_eq x y -> member E v x -> member E v y.
Proof using.
  intros H. unfold member. destruct (Z.even v).
  - destruct x, y, (point E (v / 2)); cbn [pr_eq] in *; try contradiction; try tauto. intros; lra.
  - intros (q & -> & A & B). destruct y as [q'|]; [|contradiction]. cbn [pr_eq] in H. exists q'. split; [reflexivity|].
    destruct (point E (v / 2)), (point E ((v / 2 + 1) mod (4 * nn))); split; trivial; lra.
Qed.
Lemma partition x : exists v, is_pnum E v /\ member E v x /\ forall w, is_pnum E w -> member E w x -> w = v.
Proof using W.
  destruct x as [q|].
  - destruct (search_ok E W q) as (t & B & _ & C). exists (un E t). split; [apply un_pnum; [exact W|lia]|]. split; [now apply member_un|].
    intros w Bw M. destruct (pnum_cases w Bw) as [->|(t' & B' & ->)].
    + exfalso. unfold member in M. assert (EV : Z.even (4 * nn) = true) by (replace (4 * nn) with (2 * (2 * nn)) by lia; now rewrite Z.even_mul). rewrite EV in M.
      replace (4 * nn / 2) with (2 * nn) in M by (replace (4 * nn) with (2 * nn * 2) by lia; now rewrite Z.div_mul by lia). rewrite point_inf in M. exact M.
    + apply member_un in M; [|assumption|assumption]. f_equal. exact (cell_unique E W _ _ _ B' B M C).
  - exists (4 * nn). split; [apply inf_pnum|]. split; [now apply member_inf; [|apply inf_pnum|]|]. intros w Bw M. now apply member_inf in M.
Qed.
Lemma member_unique v w x : is_pnum E v -> is_pnum E w -> member E v x -> member E w x -> v = w.
Proof using W. intros Bv Bw V X. destruct (partition x) as (u & _ & _ & U). rewrite (U v Bv V). symmetry. exact (U w Bw X). Qed.

(** Conversion. *)
Lemma search_member q : is_pnum E (pn_search E q) /\ member E (pn_search E q) (Fin q).
Proof using W. destruct (search_ok E W q) as (t & B & -> & C). split; [apply un_pnum; [exact W|lia]|]. now apply member_un. Qed.
Lemma inf_member : is_pnum E (pn_inf E) /\ member E (pn_inf E) Inf.
Proof using W. rewrite (inf_eq E W). split; [apply inf_pnum|]. now apply member_inf; [|apply inf_pnum|]. Qed.
Lemma convert_float rnd e : match e with NaNVal => pn_convert E rnd (PFlt e) = Raise
  | FinVal q => exists v, pn_convert E rnd (PFlt e) = Ret v /\ is_pnum E v /\ member E v (Fin q)
  | InfVal _ => exists v, pn_convert E rnd (PFlt e) = Ret v /\ is_pnum E v /\ member E v Inf end.
Proof using W.
  destruct e as [q|s|]; [| |reflexivity].
  - exists (pn_search E q). split; [reflexivity|]. apply search_member.
  - exists (pn_inf E). split; [reflexivity|]. apply inf_member.
Qed.
Lemma convert_rational rnd q : rounding 11 52 rnd -> is_float 11 52 q ->
  exists v, pn_convert E rnd (PRat q) = Ret v /\ is_pnum E v /\ member E v (Fin q).
Proof using W.
  intros RN F. destruct (rn_exact _ _ _ RN q F) as (y & Iy & Y). unfold pn_convert. rewrite Iy. destruct (search_member y) as [B M].
  exists (pn_search E y). split; [reflexivity|]. split; [exact B|]. apply (member_comp _ (Fin y)); [exact Y|exact M].
Qed.
Lemma convert_near rnd q : match ieee_val 11 52 (rnd q) with
  | FinVal y => exists v, pn_convert E rnd (PRat q) = Ret v /\ is_pnum E v /\ member E v (Fin y)
  | _ => pn_convert E rnd (PRat q) = Raise end.
Proof using W.
  unfold pn_convert. destruct (ieee_val 11 52 (rnd q)) as [y|s|]; try reflexivity. exists (pn_search E y). split; [reflexivity|]. apply search_member.
Qed.

(** Negation and inversion. *)
Lemma neg_un t : - (4 * nn) < t < 4 * nn -> pn_neg E (un E t) = un E (- t).
Proof using W.
  intros B. pose proof (n_pos E W). rewrite neg_eq; [|exact W|apply un_pnum; [exact W|lia]].
  unfold un. destruct (Z.ltb_spec t 0), (Z.ltb_spec (- t) 0); try lia; match goal with |- context [?a =? 0] => destruct (Z.eqb_spec a 0) end; lia.
Qed.
Lemma neg_inf : pn_neg E (4 * nn) = 4 * nn.
Proof using W. pose proof (n_pos E W). rewrite neg_eq by (exact W || lia). destruct (Z.eqb_spec (4 * nn) 0); lia. Qed.
Lemma neg_ok v x : is_pnum E v -> is_pnum E (pn_neg E v) /\ pn_neg E (pn_neg E v) = v /\ (member E (pn_neg E v) x <-> member E v (pr_opp x)).
Proof using W.
  intros B. destruct (pnum_cases v B) as [->|(t & T & ->)].
  - rewrite !neg_inf. split; [exact B|]. split; [reflexivity|]. destruct x as [q|]; cbn [pr_opp]; [|reflexivity].
    assert (N : forall r, ~ member E (4 * nn) (Fin r)).
    { intros r M. pose proof (member_unique (4 * nn) (pn_search E r) (Fin r) B (proj1 (search_member r)) M (proj2 (search_member r))) as H.
      destruct (search_ok E W r) as (t & T & S & _). rewrite S in H. now apply (un_not_inf t T). }
    split; intros M; destruct (N _ M).
  - rewrite !neg_un by lia. rewrite Z.opp_involutive. split; [apply un_pnum; [exact W|lia]|]. split; [reflexivity|].
    destruct x as [q|]; cbn [pr_opp].
    + rewrite !member_un by (exact W || lia). split; intros C.
      * apply (cell_opp E) in C. rewrite Z.opp_involutive in C. exact C.
      * apply (cell_comp E _ (- - q)); [lra|]. apply cell_opp. exact C.
    + rewrite !member_inf by (exact W || (apply un_pnum; [exact W|lia])). pose proof (un_not_inf t T). pose proof (un_not_inf (- t) ltac:(lia)). tauto.
Qed.
Lemma inv_un t : - (4 * nn) < t < 4 * nn -> pn_inv E (un E t) = if t =? 0 then 4 * nn else un E ((if 0 <? t then 4 * nn else - (4 * nn)) - t).
Proof using W.
  intros B. pose proof (n_pos E W). rewrite inv_eq; [|exact W|apply un_pnum; [exact W|lia]].
  unfold un. destruct (Z.ltb_spec t 0), (Z.ltb_spec 0 t), (Z.eqb_spec t 0); try lia;
  repeat match goal with |- context [?a <? 0] => destruct (Z.ltb_spec a 0) | |- context [?a <=? 4 * nn] => destruct (Z.leb_spec a (4 * nn)) end; lia.
Qed.
Lemma inv_inf : pn_inv E (4 * nn) = 0.
Proof using W. pose proof (n_pos E W). rewrite inv_eq by (exact W || lia). rewrite Z.leb_refl. lia. Qed.
Lemma inv_0 : pn_inv E 0 = 4 * nn.
Proof using W. pose proof (n_pos E W). rewrite inv_eq by (exact W || lia). destruct (Z.leb_spec 0 (4 * nn)); lia. Qed.
Lemma inv_back v : is_pnum E v -> is_pnum E (pn_inv E v) /\ pn_inv E (pn_inv E v) = v.
Proof using W.
  intros B. pose proof (n_pos E W). unfold is_pnum in *. assert (B' : 0 <= pn_inv E v < 8 * nn) by (rewrite inv_eq by assumption; destruct (Z.leb_spec v (4 * nn)); lia).
  split; [exact B'|]. rewrite (inv_eq E W _ B'), (inv_eq E W v B). destruct (Z.leb_spec v (4 * nn)); match goal with |- context [?a <=? 4 * nn] => destruct (Z.leb_spec a (4 * nn)) end; lia.
Qed.
Lemma zero_member x : member E 0 x <-> pr_eq x (Fin 0).
Proof using W.
  pose proof (n_pos E W). destruct x as [q|].
  - change 0 with (un E 0) at 1. rewrite member_un by (exact W || lia). change 0 with (2 * 0) at 1. rewrite cell_even. reflexivity.
  - rewrite member_inf by (exact W || (unfold is_pnum; lia)). cbn [pr_eq]. lia.
Qed.
Lemma inf_member_only x : member E (4 * nn) x <-> x = Inf.
Proof using W.
  destruct x as [q|].
  - split; [|discriminate]. intros M. exfalso. pose proof (member_unique (4 * nn) (pn_search E q) (Fin q) inf_pnum (proj1 (search_member q)) M (proj2 (search_member q))) as H.
    destruct (search_ok E W q) as (t & T & S & _). rewrite S in H. now apply (un_not_inf t T).
  - rewrite member_inf by (exact W || apply inf_pnum). tauto.
Qed.
Lemma inv_half v x : is_pnum E v -> member E v x -> member E (pn_inv E v) (pr_inv x).
Proof using W.
  intros B M. destruct x as [q|].
  - cbn [pr_inv]. destruct (Qeq_bool q 0) eqn:Q0.
    + apply Qeq_bool_iff in Q0. assert (v = 0). { apply (member_unique v 0 (Fin q) B); [pose proof (n_pos E W); unfold is_pnum; lia|exact M|apply zero_member; exact Q0]. }
      subst v. rewrite inv_0. now apply inf_member_only.
    + assert (QN : ~ (q == 0)%Q) by (intros X; apply Qeq_bool_iff in X; congruence).
      destruct (pnum_cases v B) as [->|(t & T & ->)]; [apply inf_member_only in M; discriminate|].
      apply member_un in M; [|exact W|exact T]. rewrite (inv_un t T). destruct (Z.eqb_spec t 0) as [->|T0].
      { exfalso. apply QN. exact (cell_zero _ _ M). }
      destruct (Z.ltb_spec 0 t).
      * apply member_un; [exact W|lia|]. apply cell_recip; [exact W|lia|exact M].
      * apply member_un; [exact W|lia|]. replace (- (4 * nn) - t) with (- (4 * nn - - t)) by lia. apply (cell_comp E _ (- / - q)).
        { field. repeat split; intros X; apply QN; lra. }
        apply cell_opp. apply cell_recip; [exact W|lia|]. apply cell_opp. exact M.
  - apply member_inf in M; [|exact W|exact B]. subst v. rewrite inv_inf. apply zero_member. reflexivity.
Qed.
Lemma pr_inv_inv x : pr_eq (pr_inv (pr_inv x)) x.
Proof using.
  destruct x as [q|]; cbn [pr_inv]; [|reflexivity]. destruct (Qeq_bool q 0) eqn:Q0; cbn [pr_inv pr_eq].
  - apply Qeq_bool_iff in Q0. lra.
  - assert (QN : ~ (q == 0)%Q) by (intros X; apply Qeq_bool_iff in X; congruence). destruct (Qeq_bool (/ q) 0) eqn:Q1; cbn [pr_eq]; [|apply Qinv_involutive].
    apply Qeq_bool_iff in Q1. apply QN. rewrite <- (Qinv_involutive q), Q1. reflexivity.
Qed.
Lemma inv_ok v x : is_pnum E v -> is_pnum E (pn_inv E v) /\ pn_inv E (pn_inv E v) = v /\ (member E (pn_inv E v) x <-> member E v (pr_inv x)).
Proof using W.
  intros B. destruct (inv_back v B) as [B' I2]. split; [exact B'|]. split; [exact I2|]. split; intros M.
  - apply inv_half in M; [|exact B']. rewrite I2 in M. exact M.
  - apply inv_half in M; [|exact B]. revert M. apply member_comp. apply pr_inv_inv.
Qed.

(** Neighbours. *)
Lemma next_prev v : is_pnum E v -> is_pnum E (pn_next E v) /\ is_pnum E (pn_prev E v) /\ pn_prev E (pn_next E v) = v /\ pn_next E (pn_prev E v) = v.
Proof using W.
  intros B. pose proof (n_pos E W). unfold is_pnum in *.
  assert (N : 0 <= pn_next E v < 8 * nn) by (rewrite next_eq by assumption; destruct (Z.eqb_spec v (8 * nn - 1)); lia).
  assert (P : 0 <= pn_prev E v < 8 * nn) by (rewrite prev_eq by assumption; destruct (Z.eqb_spec v 0); lia).
  split; [exact N|]. split; [exact P|]. rewrite (prev_eq E W _ N), (next_eq E W _ P), (next_eq E W v B), (prev_eq E W v B).
  split; [destruct (Z.eqb_spec v (8 * nn - 1))|destruct (Z.eqb_spec v 0)];
  match goal with |- context [?a =? ?b] => destruct (Z.eqb_spec a b) end; lia.
Qed.
Lemma next_un t : - (4 * nn) < t < 4 * nn -> pn_next E (un E t) = un E (t + 1).
Proof using W.
  intros B. pose proof (n_pos E W). rewrite next_eq; [|exact W|apply un_pnum; [exact W|lia]]. unfold un.
  destruct (Z.ltb_spec t 0), (Z.ltb_spec (t + 1) 0); try lia; match goal with |- context [?a =? ?b] => destruct (Z.eqb_spec a b) end; lia.
Qed.
Lemma prev_un t : - (4 * nn) < t < 4 * nn -> pn_prev E (un E t) = if t =? - (4 * nn) + 1 then 4 * nn else un E (t - 1).
Proof using W.
  intros B. pose proof (n_pos E W). rewrite prev_eq; [|exact W|apply un_pnum; [exact W|lia]]. unfold un.
  destruct (Z.eqb_spec t (- (4 * nn) + 1)), (Z.ltb_spec t 0), (Z.ltb_spec (t - 1) 0); try lia; match goal with |- context [?a =? ?b] => destruct (Z.eqb_spec a b) end; lia.
Qed.
Lemma next_inf : pn_next E (4 * nn) = un E (- (4 * nn) + 1).
Proof using W.
  pose proof (n_pos E W). rewrite next_eq by (exact W || lia). unfold un. destruct (Z.eqb_spec (4 * nn) (8 * nn - 1)), (Z.ltb_spec (- (4 * nn) + 1) 0); lia.
Qed.
Lemma next_above v p q : is_pnum E v -> member E v (Fin p) -> member E (pn_next E v) (Fin q) -> (p < q)%Q.
Proof using W.
  intros B M N. destruct (pnum_cases v B) as [->|(t & T & ->)]; [apply inf_member_only in M; discriminate|].
  rewrite next_un in N by exact T. destruct (Z.eq_dec (t + 1) (4 * nn)) as [X|X].
  - exfalso. rewrite X in N. assert (U : un E (4 * nn) = 4 * nn) by (unfold un; destruct (Z.ltb_spec (4 * nn) 0); lia). rewrite U in N. apply inf_member_only in N. discriminate.
  - apply member_un in M; [|exact W|exact T]. apply member_un in N; [|exact W|lia]. exact (cell_sep E W (t + 1) t q p ltac:(lia) ltac:(lia) ltac:(lia) N M).
Qed.

(** Predicates. *)
Lemma between p q : (p < q)%Q -> exists r s, (p < r)%Q /\ (r < s)%Q /\ (s < q)%Q.
Proof using. intros H. exists (p + (q - p) * (1 # 3))%Q, (p + (q - p) * (2 # 3))%Q. split; [|split]; lra. Qed.
Lemma cell_two t : - (4 * nn) < t < 4 * nn -> Z.even t = false -> exists r s, (r < s)%Q /\ cell E t r /\ cell E t s.
Proof using W.
  intros B P. pose proof (n_pos E W). apply odd_half in P. set (k := t / 2) in *. clearbody k. subst t.
  assert (H' : exists r s, (r < s)%Q /\ (- (2 * nn) < k -> (pv E k < r)%Q) /\ (k + 1 < 2 * nn -> (s < pv E (k + 1))%Q)).
  { destruct (Z.eq_dec k (- (2 * nn))) as [K|K].
    - exists (pv E (k + 1) - 2)%Q, (pv E (k + 1) - 1)%Q. split; [lra|]. split; [lia|intros _; lra].
    - destruct (Z.eq_dec (k + 1) (2 * nn)) as [K'|K'].
      + exists (pv E k + 1)%Q, (pv E k + 2)%Q. split; [lra|]. split; [intros _; lra|lia].
      + destruct (between _ _ (pv_lt E W k (k + 1) ltac:(lia) ltac:(lia) ltac:(lia))) as (r & s & R & RS & S). exists r, s. auto. }
  destruct H' as (r & s & RS & R & S). exists r, s. split; [exact RS|]. rewrite !cell_odd. split; split; intros X; try (specialize (R X)); try (specialize (S X)); lra.
Qed.
Lemma exact_ok v x : is_pnum E v -> member E v x -> (pn_isexact v = true <-> forall y, member E v y -> pr_eq y x).
Proof using W.
  intros B M. rewrite exact_eq. destruct (pnum_cases v B) as [->|(t & T & ->)].
  - replace (4 * nn) with (2 * (2 * nn)) at 1 by lia. rewrite Z.even_mul. cbn [Z.even orb]. apply inf_member_only in M. subst x. split; [|reflexivity].
    intros _ y Y. apply inf_member_only in Y. subst y. exact I.
  - rewrite even_un. assert (FM : forall y, member E (un E t) y -> exists q, y = Fin q /\ cell E t q).
    { intros [q|] Y; [|apply member_inf in Y; [|exact W|exact B]; destruct (un_not_inf t T Y)]. exists q. split; [reflexivity|]. now apply member_un in Y. }
    destruct (FM x M) as (p & -> & C). destruct (Z.even t) eqn:P.
    + split; [|reflexivity]. intros _ y Y. destruct (FM y Y) as (q & -> & D). unfold cell in C, D. rewrite P in C, D. cbn [pr_eq]. lra.
    + split; [discriminate|]. intros H. exfalso. destruct (cell_two t T P) as (r & s & RS & R & S).
      apply member_un in R; [|exact W|exact T]. apply member_un in S; [|exact W|exact T]. pose proof (H _ R) as H1. pose proof (H _ S) as H2. cbn [pr_eq] in H1, H2. lra.
Qed.
Lemma zero_inf_ok v x : is_pnum E v -> member E v x -> (pn_iszero v = true <-> pr_eq x (Fin 0)) /\ (pn_isinf E v = true <-> x = Inf).
Proof using W.
  intros B M. pose proof (n_pos E W). unfold pn_iszero, pn_isinf. rewrite half_eq, !Z.eqb_eq. split; split.
  - intros ->. now apply zero_member.
  - intros X. apply (member_unique v 0 x B); [unfold is_pnum; lia|exact M|now apply zero_member].
  - intros ->. now apply inf_member_only.
  - intros ->. now apply member_inf in M.
Qed.
Lemma negative_ok v x : is_pnum E v -> member E v x -> (pn_isstrictlynegative E v = true <-> exists q, x = Fin q /\ (q < 0)%Q).
Proof using W.
  intros B M. pose proof (n_pos E W). unfold pn_isstrictlynegative. rewrite half_eq, Z.ltb_lt. destruct (pnum_cases v B) as [->|(t & T & ->)].
  - apply inf_member_only in M. subst x. split; [lia|intros (q & X & _); discriminate].
  - destruct x as [q|]; [|apply member_inf in M; [|exact W|exact B]; destruct (un_not_inf t T M)]. apply member_un in M; [|exact W|exact T].
    pose proof (cell_sign E W t q T M) as [S1 S2]. unfold un. destruct (Z.ltb_spec t 0) as [N|N].
    + split; [|lia]. intros _. exists q. auto.
    + split; [lia|]. intros (r & [= <-] & R). exfalso. destruct (Z.eq_dec t 0) as [->|T0].
      * apply cell_zero in M. lra.
      * specialize (S1 ltac:(lia)). lra.
Qed.
Lemma abs_ok v x : is_pnum E v -> member E v x -> is_pnum E (pn_abs E v) /\ member E (pn_abs E v) (match x with Fin q => Fin (Qabs q) | Inf => Inf end).
Proof using W.
  intros B M. unfold pn_abs. destruct (pn_isstrictlynegative E v) eqn:N.
  - apply (negative_ok v x B M) in N. destruct N as (q & -> & Q0). destruct (neg_ok v (Fin (Qabs q)) B) as (B' & _ & I). split; [exact B'|]. apply I. cbn [pr_opp].
    revert M. apply member_comp. cbn [pr_eq]. rewrite Qabs_neg by lra. lra.
  - split; [exact B|]. destruct x as [q|]; [|exact M]. revert M. intros M. apply (member_comp _ (Fin q)); [|exact M]. cbn [pr_eq]. rewrite Qabs_pos; [reflexivity|].
    apply Qnot_lt_le. intros Q0. assert (pn_isstrictlynegative E v = true) by (apply (negative_ok v (Fin q) B M); exists q; auto). congruence.
Qed.
Lemma one_cell : cell E (2 * nn) 1.
Proof using W. pose proof (n_pos E W). apply cell_even. rewrite pv_nonneg by lia. replace nn with (nn + Z.of_nat 0) by lia. rewrite pos_int by lia. rewrite at_first by exact W. reflexivity. Qed.
Lemma fractional_ok v x : is_pnum E v -> member E v x -> (pn_isfractional E v = true <-> exists q, x = Fin q /\ (0 < Qabs q)%Q /\ (Qabs q < 1)%Q).
Proof using W.
  intros B M. pose proof (n_pos E W). unfold pn_isfractional. cbv zeta. rewrite quarter_eq, andb_true_iff, !Z.ltb_lt. destruct (abs_ok v x B M) as [B' M'].
  destruct (pnum_cases _ B') as [E1|(t & T & E1)]; rewrite E1 in *.
  - apply inf_member_only in M'. split; [lia|]. intros (q & -> & _). discriminate.
  - destruct x as [q|]; [|apply member_inf in M'; [|exact W|exact B']; destruct (un_not_inf t T M')]. apply member_un in M'; [|exact W|exact T].
    pose proof (cell_sign E W t _ T M') as [S1 S2]. pose proof (Qabs_nonneg q) as QN. split.
    + intros [A1 A2]. assert (0 < t < 2 * nn) by (unfold un in *; destruct (Z.ltb_spec t 0); [specialize (S2 ltac:(lia)); lra|lia]).
      exists q. split; [reflexivity|]. split; [apply S1; lia|]. exact (cell_sep E W (2 * nn) t 1 (Qabs q) ltac:(lia) ltac:(lia) ltac:(lia) one_cell M').
    + intros (r & [= <-] & R1 & R2).
      assert (T1 : 0 < t). { destruct (Z_lt_le_dec 0 t) as [|N]; [assumption|]. exfalso. destruct (Z.eq_dec t 0) as [->|]; [apply cell_zero in M'; lra|specialize (S2 ltac:(lia)); lra]. }
      pose proof (cell_mono E W t (2 * nn) _ 1 T ltac:(lia) M' one_cell ltac:(lra)) as T2. unfold un. destruct (Z.ltb_spec t 0); [lia|]. split; [lia|].
      destruct (Z.eq_dec t (2 * nn)) as [->|]; [|lia]. exfalso. apply cell_even in M'. pose proof one_cell as O. apply cell_even in O. lra.
Qed.

(** Values. *)
Lemma shiftr1 k : Z.shiftr (2 * k) 1 = k /\ Z.shiftr (2 * k + 1) 1 = k.
Proof using.
  rewrite !Z.shiftr_div_pow2 by lia. change (2 ^ 1) with 2. split; [rewrite Z.mul_comm, Z.div_mul; lia|].
  rewrite (Z.mul_comm 2 k), Z.div_add_l by lia. change (1 / 2) with 0. lia.
Qed.
Lemma nonneg_value_frac w : 0 < w < 2 * nn -> pn_nonneg_value E w = (/ pn_at E (Z.to_nat (Z.shiftr (2 * nn - w) 1)))%Q.
Proof using W.
  intros H. pose proof (n_pos E W). unfold pn_nonneg_value, pn_isfractional, pn_abs, pn_isstrictlynegative, pn_positive_value. rewrite half_eq, quarter_eq.
  destruct (Z.ltb_spec (4 * nn) w); [lia|]. destruct (Z.ltb_spec 0 w); [|lia]. destruct (Z.ltb_spec w (2 * nn)); [|lia]. cbn [andb].
  rewrite inv_eq by (exact W || lia). destruct (Z.leb_spec w (4 * nn)); [|lia]. replace (4 * nn - w - 2 * nn) with (2 * nn - w) by lia. reflexivity.
Qed.
Lemma nonneg_value_int w : 2 * nn <= w < 4 * nn -> pn_nonneg_value E w = pn_at E (Z.to_nat (Z.shiftr (w - 2 * nn) 1)).
Proof using W.
  intros H. pose proof (n_pos E W). unfold pn_nonneg_value, pn_isfractional, pn_abs, pn_isstrictlynegative, pn_positive_value. rewrite half_eq, quarter_eq.
  destruct (Z.ltb_spec (4 * nn) w); [lia|]. destruct (Z.ltb_spec 0 w); [|lia]. destruct (Z.ltb_spec w (2 * nn)); [lia|]. reflexivity.
Qed.
Lemma nonneg_value_even k : 0 < k < 2 * nn -> pn_nonneg_value E (2 * k) = pos E k.
Proof using W.
  intros H. destruct (Z_lt_le_dec k nn) as [L|L].
  - rewrite nonneg_value_frac by lia. replace (2 * nn - 2 * k) with (2 * (nn - k)) by lia. rewrite (proj1 (shiftr1 _)). unfold pos.
    destruct (Z.eqb_spec k 0); [lia|]. destruct (Z.ltb_spec k nn); [reflexivity|lia].
  - rewrite nonneg_value_int by lia. replace (2 * k - 2 * nn) with (2 * (k - nn)) by lia. rewrite (proj1 (shiftr1 _)). unfold pos.
    destruct (Z.eqb_spec k 0); [lia|]. destruct (Z.ltb_spec k nn); [lia|reflexivity].
Qed.
Lemma nonneg_value_odd k : 0 <= k < 2 * nn -> pn_nonneg_value E (2 * k + 1) = pos E (if k <? nn then k + 1 else k) \/ (pn_nonneg_value E (2 * k + 1) == pos E (if k <? nn then k + 1 else k))%Q.
Proof using W.
  intros H. right. destruct (Z.ltb_spec k nn) as [L|L].
  - rewrite nonneg_value_frac by lia. replace (2 * nn - (2 * k + 1)) with (2 * (nn - (k + 1)) + 1) by lia. rewrite (proj2 (shiftr1 _)). unfold pos.
    destruct (Z.eqb_spec (k + 1) 0); [lia|]. destruct (Z.ltb_spec (k + 1) nn); [reflexivity|]. replace (nn - (k + 1)) with 0 by lia. replace (k + 1 - nn) with 0 by lia.
    cbn [Z.to_nat]. rewrite at_first by exact W. reflexivity.
  - rewrite nonneg_value_int by lia. replace (2 * k + 1 - 2 * nn) with (2 * (k - nn) + 1) by lia. rewrite (proj2 (shiftr1 _)). unfold pos.
    destruct (Z.eqb_spec k 0); [pose proof (n_pos E W); lia|]. destruct (Z.ltb_spec k nn); [lia|reflexivity].
Qed.
Lemma value_even k : - (2 * nn) < k < 2 * nn -> pn_exactvalue E (un E (2 * k)) = Some (pv E k).
Proof using W.
  intros H. pose proof (n_pos E W). unfold pn_exactvalue, pn_isinf, pn_isstrictlynegative. rewrite half_eq.
  destruct (Z.eqb_spec (un E (2 * k)) (4 * nn)) as [X|_]; [destruct (un_not_inf (2 * k) ltac:(lia) X)|].
  destruct (Z.eq_dec k 0) as [->|K0]; [reflexivity|]. destruct (Z.eqb_spec (un E (2 * k)) 0) as [X|_]; [unfold un in X; destruct (Z.ltb_spec (2 * k) 0); lia|].
  destruct (Z.ltb_spec (4 * nn) (un E (2 * k))) as [L|L].
  - assert (k < 0) by (unfold un in L; destruct (Z.ltb_spec (2 * k) 0); lia). rewrite neg_un by lia. replace (- (2 * k)) with (2 * - k) by lia.
    assert (U : un E (2 * - k) = 2 * - k) by (unfold un; destruct (Z.ltb_spec (2 * - k) 0); lia). rewrite U, nonneg_value_even by lia. unfold pv. destruct (Z.ltb_spec k 0); [reflexivity|lia].
  - assert (0 < k) by (unfold un in L; destruct (Z.ltb_spec (2 * k) 0); lia). assert (U : un E (2 * k) = 2 * k) by (unfold un; destruct (Z.ltb_spec (2 * k) 0); lia).
    rewrite U, nonneg_value_even by lia. rewrite pv_nonneg by lia. reflexivity.
Qed.
Lemma value_exact v x : is_pnum E v -> member E v x -> pn_isexact v = true ->
  match pn_exactvalue E v with Some q => pr_eq x (Fin q) | None => x = Inf end.
Proof using W.
  intros B M X. rewrite exact_eq in X. destruct (pnum_cases v B) as [->|(t & T & ->)].
  - apply inf_member_only in M. subst x. unfold pn_exactvalue, pn_isinf. rewrite half_eq, Z.eqb_refl. reflexivity.
  - rewrite even_un in X. apply even_half in X. set (k := t / 2) in *. clearbody k. subst t. rewrite value_even by lia.
    destruct x as [q|]; [|apply member_inf in M; [|exact W|exact B]; destruct (un_not_inf _ T M)]. apply member_un in M; [|exact W|exact T]. apply cell_even in M. exact M.
Qed.
End one.
