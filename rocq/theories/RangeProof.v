(** The halves in a range. *)
From Coq Require Import ZArith QArith Qabs Bool List Sorted Permutation Lia Lqa.
From Verif Require Import Res CInt Spec SpecFloat SpecHalf SpecAny SpecRange FloatOps Asimd Soft MatHalf Dump HalfRange SoftProof MatProof7 DumpProof4.
Import ListNotations.
Open Scope Z_scope.

Lemma ext_same a a' b b' : same_ext a a' -> same_ext b b' -> ext_le a b <-> ext_le a' b'.
Proof.
  destruct a as [x|s|], a' as [x'|s'|]; cbn [same_ext]; intros A; try discriminate A; try (injection A as <-);
  destruct b as [y|t|], b' as [y'|t'|]; cbn [same_ext]; intros B; try discriminate B; try (injection B as <-); cbn [ext_le]; try tauto.
  rewrite A, B. tauto.
Qed.
Lemma same_self a : same_ext a a. Proof. destruct a; cbn [same_ext]; reflexivity. Qed.
Lemma ext_trans a b c : ext_le a b -> ext_le b c -> ext_le a c.
Proof. destruct a as [x|[]|], b as [y|[]|], c as [z|[]|]; cbn [ext_le]; try tauto. intros. lra. Qed.
Lemma ext_total a b : a <> NaNVal -> b <> NaNVal -> ext_le a b \/ ext_le b a.
Proof. destruct a as [x|[]|], b as [y|[]|]; cbn [ext_le]; try tauto. intros _ _. destruct (Qlt_le_dec x y); [left; lra|right; lra]. Qed.
Lemma ext_refl a : a <> NaNVal -> ext_le a a.
Proof. destruct a as [x|[]|]; cbn [ext_le]; try tauto. intros _. lra. Qed.

Definition vd (p : Z * Z) : ieee := ieee_val 11 52 (snd p).
Definition before (p q : Z * Z) : Prop := ext_le (vd p) (vd q) /\ (ext_le (vd q) (vd p) -> fst p < fst q).
Lemma m_before_ok p q : vd p <> NaNVal -> vd q <> NaNVal -> m_before (snd p) (snd q) = true <-> ~ ext_le (vd q) (vd p).
Proof.
  intros P Q. unfold m_before. assert (E : f_eq 11 52 (snd q) (snd q) = true).
  { apply f_eq_spec. fold (vd q). destruct (vd q) as [x|[]|]; cbn [x_eq]; try reflexivity. congruence. }
  rewrite E, andb_false_r, orb_false_r, f_lt_spec, lt_ext. fold (vd p) (vd q). destruct (ext_total _ _ P Q); tauto.
Qed.
Lemma insert_perm x l : Permutation (m_insert x l) (x :: l).
Proof. induction l as [|y r IH]; cbn [m_insert]; [apply Permutation_refl|]. destruct (m_before _ _); [|apply Permutation_refl]. rewrite IH. apply perm_swap. Qed.
Lemma sort_perm l : Permutation (m_sort l) l.
Proof. induction l as [|x r IH]; cbn [m_sort]; [constructor|]. rewrite insert_perm. constructor. exact IH. Qed.
Lemma insert_sorted x l : vd x <> NaNVal -> Forall (fun y => vd y <> NaNVal /\ fst x < fst y) l -> StronglySorted before l -> StronglySorted before (m_insert x l).
Proof.
  intros X F S. induction S as [|y r S IH H]; cbn [m_insert]; [repeat constructor|]. inversion F as [|? ? [Y1 Y2] F']; subst.
  destruct (m_before (snd y) (snd x)) eqn:B.
  - apply (m_before_ok y x Y1 X) in B. constructor; [apply IH; exact F'|]. eapply (Permutation_Forall (Permutation_sym (insert_perm x r))). constructor; [|exact H].
    split; [destruct (ext_total _ _ X Y1); tauto|tauto].
  - assert (L : ext_le (vd x) (vd y)).
    { destruct (ext_total _ _ X Y1) as [L|L]; [exact L|]. assert (D : ext_le (vd x) (vd y) \/ ~ ext_le (vd x) (vd y)).
      { unfold vd in *. destruct (ieee_val 11 52 (snd x)) as [a|[]|], (ieee_val 11 52 (snd y)) as [b|[]|]; cbn [ext_le]; try tauto. destruct (Qlt_le_dec b a); [right; lra|left; lra]. }
      destruct D as [D|D]; [exact D|]. apply (m_before_ok y x Y1 X) in D. congruence. }
    constructor; [constructor; [exact S|exact H]|]. constructor; [split; [exact L|intros _; exact Y2]|].
    rewrite Forall_forall in H, F' |- *. intros z Z. destruct (H z Z) as (A & _). split; [eapply ext_trans; eassumption|]. intros _. apply F', Z.
Qed.
Lemma sort_sorted l : Forall (fun p => vd p <> NaNVal) l -> StronglySorted (fun p q => fst p < fst q) l -> StronglySorted before (m_sort l).
Proof.
  intros F S. induction S as [|x r S IH H]; cbn [m_sort]; [constructor|]. inversion F as [|? ? X F']; subst. apply insert_sorted; [exact X| |apply IH; exact F'].
  eapply (Permutation_Forall (Permutation_sym (sort_perm r))). rewrite Forall_forall in *. intros y Y. split; [apply F', Y|apply H, Y].
Qed.
Lemma filter_sorted {A} (R : A -> A -> Prop) f l : StronglySorted R l -> StronglySorted R (filter f l).
Proof.
  induction 1 as [|x r S IH H]; cbn [filter]; [constructor|]. destruct (f x); [|exact IH]. constructor; [exact IH|]. rewrite Forall_forall in *. intros y Y. apply filter_In in Y. apply H, Y.
Qed.
Lemma combine_sorted (R : Z -> Z -> Prop) : forall z y : list Z, StronglySorted R z -> StronglySorted (fun p q => R (fst p) (fst q)) (combine z y).
Proof.
  induction z as [|a z IH]; intros [|b y] S; cbn [combine]; try constructor; inversion S as [|? ? S' H]; subst; [apply IH; exact S'|].
  apply Forall_forall. intros [p q] I. apply in_combine_l in I. rewrite Forall_forall in H. exact (H p I).
Qed.
Lemma combine_all (R : Z -> Z -> Prop) z y : Forall2 R z y -> Forall (fun p => R (fst p) (snd p)) (combine z y) /\ map fst (combine z y) = z.
Proof. induction 1 as [|a b z y H F [IH1 IH2]]; cbn [combine map fst snd]; [split; constructor|]. split; [constructor; assumption|congruence]. Qed.
Lemma pairs_all (R : Z -> Z -> Prop) l : Forall (fun p => R (fst p) (snd p)) l -> Forall2 R (map fst l) (map snd l).
Proof. induction 1; cbn [map]; constructor; assumption. Qed.

Section g.
Context (little : bool) (fs : mclass -> Z -> Z).
Lemma select_ok z mi ma : Forall (fun p => 0 <= p < 2 ^ 16) z -> StronglySorted Z.lt z -> exists u h, half_select little fs z mi ma = Ok (Some (u, h)) /\
  Forall2 (same_number 11 52) u h /\ NoDup u /\ StronglySorted half_before u /\ (forall p, In p u <-> In p z /\ half_within mi ma p).
Proof.
  intros F S. unfold half_select. destruct (gate_to_double little fs z None F I I) as (y & i & -> & R & _). cbn [bind].
  destruct (combine_all _ _ _ R) as (A & M). pose proof (combine_sorted Z.lt z y S) as C. set (L := combine z y) in *. clearbody L.
  set (f := fun p : Z * Z => f_le 11 52 mi (snd p) && f_le 11 52 (snd p) ma).
  assert (FI : forall p, f p = true <-> ext_le (ieee_val 11 52 mi) (vd p) /\ ext_le (vd p) (ieee_val 11 52 ma)).
  { intros p. unfold f. rewrite andb_true_iff, !f_le_spec, !le_ext. tauto. }
  assert (NN : Forall (fun p => vd p <> NaNVal) (filter f L)).
  { apply Forall_forall. intros p P. apply filter_In in P. destruct P as (_ & P). apply FI in P. destruct P as (_ & P). intros N. rewrite N in P. destruct P. }
  assert (SR : StronglySorted before (m_sort (filter f L))) by (apply sort_sorted; [exact NN|apply filter_sorted; exact C]).
  assert (PL : forall p, In p (m_sort (filter f L)) <-> In p L /\ f p = true).
  { intros p. rewrite <- filter_In. split; apply Permutation_in; [|apply Permutation_sym]; apply sort_perm. }
  assert (SN : forall p, In p (m_sort (filter f L)) -> same_number 11 52 (fst p) (snd p)).
  { intros p P. apply PL in P. rewrite Forall_forall in A. apply A, P. }
  assert (SA : forall p, In p (m_sort (filter f L)) -> same_ext (vd p) (ieee_val 5 10 (fst p))) by (intros p P; apply (SN p P)).
  eexists _, _. split; [reflexivity|]. set (K := m_sort (filter f L)) in *.
  split; [apply pairs_all, Forall_forall; exact SN|]. split; [|split].
  - apply (Permutation_NoDup (l := map fst (filter f L))); [apply Permutation_map, Permutation_sym, sort_perm|].
    pose proof (filter_sorted _ f _ C) as C'. clear -C'. induction C' as [|x r S IH H]; cbn [map]; constructor; [|exact IH].
    rewrite in_map_iff. intros (q & E & Q). rewrite Forall_forall in H. specialize (H q Q). lia.
  - clear -SR SA. induction SR as [|x r S IH H]; cbn [map]; [constructor|]. constructor; [apply IH; intros; apply SA; now right|].
    rewrite Forall_forall in *. intros q Q. apply in_map_iff in Q. destruct Q as (b & <- & B). destruct (H b B) as (H1 & H2).
    pose proof (SA x (or_introl eq_refl)) as Ex. pose proof (SA b (or_intror B)) as Eb. split.
    + apply (ext_same _ _ _ _ Ex Eb). exact H1.
    + intros H3. apply H2. apply (ext_same _ _ _ _ Eb Ex). exact H3.
  - intros p. rewrite in_map_iff. split.
    + intros (q & <- & Q). pose proof (SA q Q) as E. apply PL in Q. destruct Q as (Q & B). apply FI in B. assert (IZ : In (fst q) z) by (rewrite <- M; apply in_map; exact Q).
      split; [exact IZ|]. split; [rewrite Forall_forall in F; apply F, IZ|]. destruct B as (B1 & B2). split.
      * apply (ext_same _ _ _ _ (same_self _) E); exact B1.
      * apply (ext_same _ _ _ _ E (same_self _)); exact B2.
    + intros (IZ & _ & B1 & B2). rewrite <- M, in_map_iff in IZ. destruct IZ as (q & <- & Q). exists q. split; [reflexivity|]. apply PL. split; [exact Q|]. apply FI.
      rewrite Forall_forall in A. pose proof (A q Q) as (_ & E & _). fold (vd q) in E. split.
      * apply (ext_same _ _ _ _ (same_self _) E); exact B1.
      * apply (ext_same _ _ _ _ E (same_self _)); exact B2.
Qed.
Lemma up_sorted n : forall k, StronglySorted Z.lt (map Z.of_nat (seq k n)).
Proof.
  induction n as [|n IH]; intros k; cbn [seq map]; constructor; [apply IH|]. apply Forall_forall. intros x X. apply in_map_iff in X. destruct X as (j & <- & J). apply in_seq in J. lia.
Qed.
Lemma up_in n p : In p (map Z.of_nat (seq 0 n)) <-> 0 <= p < Z.of_nat n.
Proof.
  rewrite in_map_iff. split; [intros (j & <- & J); apply in_seq in J; lia|]. intros P. exists (Z.to_nat p). rewrite Z2Nat.id by lia. split; [reflexivity|]. apply in_seq. lia.
Qed.
Lemma range_ok mi ma : exists u h, halfinrange little fs mi ma = Ok (Some (u, h)) /\
  Forall2 (same_number 11 52) u h /\ NoDup u /\ StronglySorted half_before u /\ (forall p, In p u <-> half_within mi ma p).
Proof.
  assert (IN : forall p, In p m_uint16s <-> 0 <= p < 2 ^ 16) by (intros p; unfold m_uint16s; rewrite up_in, Z2Nat.id by lia; reflexivity).
  assert (FA : Forall (fun p => 0 <= p < 2 ^ 16) m_uint16s) by (apply Forall_forall; intros p P; apply IN, P).
  destruct (select_ok m_uint16s mi ma FA (up_sorted _ _)) as (u & h & E & A & B & C & D). exists u, h. unfold halfinrange. repeat split; try assumption; try apply D in H.
  - apply H. - apply H. - apply H. - apply H.
  - intros H. apply D. split; [apply IN, H|exact H].
Qed.
End g.
