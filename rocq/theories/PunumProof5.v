(** Projective unums: the named alphabets, and what goes wrong. *)
From Coq Require Import ZArith QArith Qabs Bool List Lia Lqa.
From Verif Require Import Spec SpecFloat SpecPunum Punum PunumProof PunumProof2 PunumProof3 PunumProof4.
From Verif Require Import QPow Conv1 PositFProof PositFProof4 FloatOps AnyFloat PositF SoftProof.
Import ListNotations.
Open Scope Z_scope.

Lemma small_float m : Z.abs m < 2 ^ 30 -> is_float 11 52 (inject_Z m * pow2 (-14)).
Proof.
  intros M. assert (P : forall m, 0 <= m < 2 ^ 30 -> is_float 11 52 (inject_Z m * pow2 (-14))).
  { intros a A. apply (is_float_dy 11 52 fmt_d a (-14)); [|lia|].
    - assert (2 ^ 30 < 2 ^ (52 + 1)) by (apply Z.pow_lt_mono_r; lia). lia.
    - apply Qle_lt_trans with (dy (2 ^ 30) (-14)); [apply dy_le; lia|]. unfold dy. rewrite <- pow2_Z, <- pow2_plus by lia. apply pow2_lt. reflexivity. }
  destruct (Z_lt_le_dec m 0) as [N|N].
  - apply (is_float_comp 11 52 (- (inject_Z (- m) * pow2 (-14)))); [rewrite inject_Z_opp; ring|]. apply is_float_opp; [exact fmt_d|]. apply P. lia.
  - apply P. lia.
Qed.
(** Points that are multiples of 1/128 below 2^14 / 128. *)
Definition coarse (p : pr) : bool :=
  match p with Inf => true | Fin q => (((Qnum q * 128) mod Zpos (Qden q)) =? 0) && (Z.abs (Qnum q * 128 / Zpos (Qden q)) <=? 2 ^ 14) end.
Lemma coarse_val q : coarse (Fin q) = true -> exists a, Z.abs a <= 2 ^ 14 /\ (q == inject_Z a * pow2 (-7))%Q.
Proof.
  intros H. cbn [coarse] in H. apply andb_true_iff in H. destruct H as [H1 H2]. apply Z.eqb_eq in H1. apply Z.leb_le in H2.
  exists (Qnum q * 128 / Zpos (Qden q)). split; [exact H2|]. pose proof (Z.div_mod (Qnum q * 128) (Zpos (Qden q)) ltac:(discriminate)) as DM. rewrite H1, Z.add_0_r in DM.
  set (a := Qnum q * 128 / Zpos (Qden q)) in *. clearbody a. change (pow2 (-7)) with (1 # 128). destruct q as [n d]. cbn [Qnum Qden] in *. unfold Qeq, Qmult, inject_Z. cbn [Qnum Qden]. lia.
Qed.
Lemma coarse_ok E : forallb (fun j => coarse (point E (Z.of_nat j))) (seq 0 (4 * length E)) = true -> in_doubles E.
Proof.
  intros H. rewrite forallb_forall in H. intros j k p q J K P Q.
  assert (C : forall i r, 0 <= i < 4 * Z.of_nat (length E) -> point E i = Fin r -> exists a, Z.abs a <= 2 ^ 14 /\ (r == inject_Z a * pow2 (-7))%Q).
  { intros i r I R. apply coarse_val. rewrite <- R. specialize (H (Z.to_nat i)). rewrite Z2Nat.id in H by lia. apply H. apply in_seq. lia. }
  destruct (C j p J P) as (a & A & EA). destruct (C k q K Q) as (b & B & EB). change (2 ^ 14) with 16384 in *.
  assert (P7 : (pow2 (-7) == 128 * pow2 (-14))%Q) by (vm_compute; reflexivity). assert (P14 : (pow2 (-7) * pow2 (-7) == pow2 (-14))%Q) by (vm_compute; reflexivity).
  split.
  - apply (is_float_comp 11 52 (inject_Z (128 * (a + b)) * pow2 (-14))); [|apply small_float; change (2 ^ 30) with 1073741824; lia].
    rewrite EA, EB, P7, inject_Z_mult, inject_Z_plus. change (inject_Z 128) with 128%Q. ring.
  - apply (is_float_comp 11 52 (inject_Z (a * b) * pow2 (-14))); [|apply small_float; change (2 ^ 30) with 1073741824; nia].
    rewrite EA, EB, <- P14, inject_Z_mult. ring.
Qed.
Definition named (E : list Q) : Prop := E = al_p1 \/ E = al_p2 \/ E = al_p4 \/ E = al_p8.
Lemma named_ok E : named E -> alphabet E = Ret E /\ well_formed E /\ in_doubles E.
Proof.
  assert (G : forall e, alphabet e = Ret e -> well_formed e).
  { intros e A. destruct (alphabet_ok e) as [_ N].
    assert (DEC : well_formed e \/ ~ well_formed e).
    { clear N. destruct e as [|x t]; [right; intros ((y & u & H & _) & _); discriminate|]. unfold alphabet in A.
      destruct (qeq x 1) eqn:X; [|discriminate]. cbn [negb] in A. destruct (Z.eqb_spec (match Z.of_nat (length (x :: t)) with Zpos p => ones p | _ => 0 end) 1) as [O|]; [|discriminate]. cbn [negb] in A.
      destruct (monotonic 0 (x :: t)) eqn:M; [|discriminate]. left. apply qeq_true in X. split; [exists x, t; auto|]. split.
      - cbn [monotonic] in M. destruct (qlt x 1 || Qle_bool x 0); [discriminate|]. cbn [ascending]. split; [lra|]. apply monotonic_ok in M; [|lra]. exact M.
      - destruct (Z.of_nat (length (x :: t))) as [|p|p] eqn:L; try lia. destruct (ones_pow p O) as (k & K). exists k. apply Nat2Z.inj. rewrite L, K, Nat2Z.inj_pow. reflexivity. }
    destruct DEC as [D|D]; [exact D|]. rewrite (N D) in A. discriminate. }
  intros H. assert (A : alphabet E = Ret E /\ forallb (fun j => coarse (point E (Z.of_nat j))) (seq 0 (4 * length E)) = true).
  { destruct H as [->|[->|[->| ->]]]; vm_compute; split; reflexivity. }
  destruct A as [A C]. split; [exact A|]. split; [now apply G|now apply coarse_ok].
Qed.
Lemma p8a_raises : alphabet al_p8a = Raise /\ ~ well_formed al_p8a.
Proof.
  assert (A : alphabet al_p8a = Raise) by (vm_compute; reflexivity). split; [exact A|]. intros W. rewrite (proj1 (alphabet_ok _) W) in A. discriminate.
Qed.

(** Numbers by their pnum. *)
Lemma not_in E b x v : well_formed E -> is_pnum E v -> member E v x -> (forall f l, b = PBound false f l -> ~ on_arc E f l v) -> ~ in_bound E b x.
Proof.
  intros W V M N. destruct b as [e f l]. intros (-> & u & A & U). pose proof (member_unique E W u v x (proj1 A) V U M) as ->. exact (N f l eq_refl A).
Qed.
Lemma plus_ends E rnd : well_formed E -> let n := Z.of_nat (length E) in pn_plus E rnd (4 * n - 1) (4 * n + 1) = Ret (inr (PBound false (4 * n + 1) (4 * n + 1))).
Proof.
  intros W n. pose proof (n_pos E W) as N1. subst n. set (n := Z.of_nat (length E)) in *.
  assert (U1 : 4 * n - 1 = un E (4 * n - 1)) by (unfold un; destruct (Z.ltb_spec (4 * n - 1) 0); lia).
  assert (U2 : 4 * n + 1 = un E (- (4 * n) + 1)) by (unfold un, n; fold n; destruct (Z.ltb_spec (- (4 * n) + 1) 0); lia).
  transitivity (pn_plus E rnd (un E (4 * n - 1)) (un E (- (4 * n) + 1))); [now rewrite <- U1, <- U2|]. rewrite U2. clear U1 U2. unfold pn_plus. rewrite !isinf_un, !iszero_un by lia. destruct (Z.eqb_spec (4 * n - 1) 0); [lia|]. destruct (Z.eqb_spec (- (4 * n) + 1) 0); [lia|]. cbn [andb orb].
  rewrite !ends_un, !exact_eq, !even_un by (exact W || lia).
  assert (O1 : Z.even (4 * n - 1) = false) by (replace (4 * n - 1) with (2 * (2 * n - 1) + 1) by lia; now rewrite Z.even_add, Z.even_mul).
  assert (O2 : Z.even (- (4 * n) + 1) = false) by (replace (- (4 * n) + 1) with (2 * (- (2 * n)) + 1) by lia; now rewrite Z.even_add, Z.even_mul).
  assert (L2 : lo (- (4 * n) + 1) = - (2 * n)) by (unfold lo; replace (- (4 * n) + 1) with (1 + (- (2 * n)) * 2) by lia; rewrite Z.div_add by lia; reflexivity).
  assert (H1 : hi (4 * n - 1) = 2 * n) by (unfold hi; rewrite O1; replace (4 * n - 1) with (1 + (2 * n - 1) * 2) by lia; rewrite Z.div_add by lia; change (1 / 2) with 0; lia).
  assert (EB : em E (- (2 * n)) = 4 * n) by apply em_bottom. assert (ET : em E (2 * n) = 4 * n) by apply em_top. rewrite L2, H1, EB, ET, O1, O2. cbn [andb].
  unfold n at 2 3. rewrite !(exactop_inf E W) by auto. cbn [pbind]. unfold pn_close. rewrite !exact_eq. fold n.
  assert (E4 : Z.even (4 * n) = true) by (replace (4 * n) with (2 * (2 * n)) by lia; now rewrite Z.even_mul). rewrite E4. cbn [negb andb]. unfold n. rewrite !next_inf by exact W. reflexivity.
Qed.
Lemma plus_misses E (rnd : Q -> Z) : well_formed E -> let n := Z.of_nat (length E) in
  member E (4 * n - 1) (Fin (nth (length E - 1) E 0%Q + 1)) /\ member E (4 * n + 1) (Fin (- (nth (length E - 1) E 0%Q + 1))) /\
  exists r, pn_plus E rnd (4 * n - 1) (4 * n + 1) = Ret r /\ ~ in_result E r (Fin 0).
Proof.
  intros W n. pose proof (n_pos E W) as N1. fold n in N1. set (e := nth (length E - 1) E 0%Q).
  assert (U1 : 4 * n - 1 = un E (4 * n - 1)) by (unfold un; destruct (Z.ltb_spec (4 * n - 1) 0); lia).
  assert (U2 : 4 * n + 1 = un E (- (4 * n - 1))) by (unfold un; fold n; destruct (Z.ltb_spec (- (4 * n - 1)) 0); lia).
  assert (PV : pv E (2 * n - 1) = e). { rewrite pv_nonneg by lia. replace (2 * n - 1) with (n + Z.of_nat (length E - 1)) by lia. unfold n. rewrite pos_int by lia. reflexivity. }
  assert (C : cell E (4 * n - 1) (e + 1)).
  { replace (4 * n - 1) with (2 * (2 * n - 1) + 1) by lia. apply cell_odd. split; intros X; [|fold n in X; lia]. rewrite PV. lra. }
  assert (M1 : member E (4 * n - 1) (Fin (e + 1))) by (rewrite U1; apply member_un; [exact W|fold n; lia|exact C]).
  split; [exact M1|]. split; [rewrite U2; apply member_un; [exact W|fold n; lia|]; now apply cell_opp|].
  eexists. split; [exact (plus_ends E rnd W)|]. cbn [in_result]. fold n. apply (not_in E _ _ 0 W); [unfold is_pnum; fold n; lia|apply zero_member; [exact W|reflexivity]|].
  intros f l H. assert (F : f = 4 * n + 1) by congruence. assert (L : l = 4 * n + 1) by congruence. clear H. subst f l. assert (EN : n = Z.of_nat (length E)) by reflexivity. clearbody n. rewrite arc_spec by (unfold is_pnum; lia). lia.
Qed.

(** Reading a concrete case: the pnum of a number by searching. *)
Lemma member_by_search E q v : well_formed E -> pn_search E q = v -> member E v (Fin q).
Proof. intros W <-. now apply search_member. Qed.
Lemma p2_ok : well_formed al_p2 /\ in_doubles al_p2.
Proof. destruct (named_ok al_p2) as (_ & W & D); [unfold named; auto|]. auto. Qed.
Definition al_13 : list Q := [1; 3]%Q.
Lemma al_13_ok : well_formed al_13.
Proof.
  split; [exists 1%Q, [3%Q]; split; reflexivity|]. split; [cbn [ascending al_13]; repeat split; reflexivity|]. exists 1%nat. reflexivity.
Qed.
(** A bound holding numbers that are no sums. *)
Lemma plus_loose : exists a b f l v, is_pnum al_p2 a /\ is_pnum al_p2 b /\ pn_plus al_p2 (rne 11 52) a b = Ret (inr (PBound false f l)) /\
  on_arc al_p2 f l v /\ forall x y z, member al_p2 a x -> member al_p2 b y -> sum_of x y z -> ~ member al_p2 v z.
Proof.
  destruct p2_ok as [W D]. exists 1, 2, 3, 5, 5. split; [unfold is_pnum; cbn; lia|]. split; [unfold is_pnum; cbn; lia|]. split; [vm_compute; reflexivity|]. split; [apply arc_spec; first [lia | unfold is_pnum; cbn; lia]|].
  intros x y z X Y S Z.
  apply (member_un_fin al_p2 W 1) in X; [|cbn; lia]. destruct X as (p & -> & P). apply (member_un_fin al_p2 W 2) in Y; [|cbn; lia]. destruct Y as (q & -> & Q).
  apply (member_un_fin al_p2 W 5) in Z; [|cbn; lia]. destruct Z as (r & -> & R). cbn [sum_of pr_eq] in S.
  pose proof (proj1 (cell_odd al_p2 0 p) P) as P'. destruct P' as [_ P']. clear P. rename P' into P. specialize (P ltac:(cbn; lia)). pose proof (proj1 (cell_even al_p2 1 q) Q) as Q1. pose proof (proj1 (cell_odd al_p2 2 r) R) as R'. destruct R' as [R' _]. clear R. rename R' into R. specialize (R ltac:(cbn; lia)).
  assert (V1 : (pv al_p2 (0 + 1) == 1 # 2)%Q) by (vm_compute; reflexivity). assert (V1' : (pv al_p2 1 == 1 # 2)%Q) by (vm_compute; reflexivity). assert (V2 : (pv al_p2 2 == 1)%Q) by (vm_compute; reflexivity). rewrite V1 in P. rewrite V1' in Q1. rewrite V2 in R. lra.
Qed.
(** A product of different signs that is missed. *)
Lemma times_misses : exists a b x y r, is_pnum al_p2 a /\ is_pnum al_p2 b /\ member al_p2 a (Fin x) /\ member al_p2 b (Fin y) /\
  pn_times al_p2 (rne 11 52) a b = Ret r /\ ~ in_bound al_p2 r (Fin (x * y)).
Proof.
  destruct p2_ok as [W D]. exists 5, 11, (5 # 4)%Q, (- (6 # 5))%Q. eexists. split; [unfold is_pnum; cbn; lia|]. split; [unfold is_pnum; cbn; lia|].
  split; [apply member_by_search; [exact W|vm_compute; reflexivity]|]. split; [apply member_by_search; [exact W|vm_compute; reflexivity]|]. split; [vm_compute; reflexivity|].
  apply (not_in al_p2 _ _ 11 W); [unfold is_pnum; cbn; lia|apply member_by_search; [exact W|vm_compute; reflexivity]|]. intros f l H. injection H as <- <-.
  rewrite arc_spec by (unfold is_pnum; cbn; lia). lia.
Qed.
(** 1/3 becomes another number on the way. *)
Lemma convert_third : exists v, pn_convert al_13 (rne 11 52) (PRat (1 # 3)) = Ret v /\ ~ member al_13 v (Fin (1 # 3)).
Proof.
  eexists. split; [vm_compute; reflexivity|]. intros M.
  assert (M' : member al_13 2 (Fin (1 # 3))) by (apply member_by_search; [exact al_13_ok|vm_compute; reflexivity]).
  assert (X : 1 = 2); [|discriminate]. apply (member_unique al_13 al_13_ok _ _ (Fin (1 # 3))); [unfold is_pnum; cbn; lia|unfold is_pnum; cbn; lia|exact M|exact M'].
Qed.
Lemma times_third : exists r, pn_isexact 2 = true /\ pn_isexact 4 = true /\ member al_13 2 (Fin (1 # 3)) /\ member al_13 4 (Fin 1) /\
  pn_times al_13 (rne 11 52) 2 4 = Ret r /\ ~ in_bound al_13 r (Fin ((1 # 3) * 1)).
Proof.
  eexists. split; [reflexivity|]. split; [reflexivity|]. split; [apply member_by_search; [exact al_13_ok|vm_compute; reflexivity]|].
  split; [apply member_by_search; [exact al_13_ok|vm_compute; reflexivity]|]. split; [vm_compute; reflexivity|].
  apply (not_in al_13 _ _ 2 al_13_ok); [unfold is_pnum; cbn; lia|apply member_by_search; [exact al_13_ok|vm_compute; reflexivity]|]. intros f l H. injection H as <- <-.
  rewrite arc_spec by (unfold is_pnum; cbn; lia). lia.
Qed.
Lemma invert_empty E : well_formed E -> exists x, in_bound E (pb_invert E pb_empty) x /\ ~ in_bound E pb_empty (pr_inv x).
Proof.
  intros W. exists Inf. split; [|apply empty_ok]. cbn [pb_invert pb_empty in_bound]. split; [reflexivity|]. unfold pn_zero. rewrite inv_0 by exact W.
  apply arc_one; [exact W|now apply inf_pnum|]. now apply inf_member_only.
Qed.
Lemma walk_next E : well_formed E -> forall r f l i u w, nth_error (pb_walk E r f l) i = Some u -> nth_error (pb_walk E r f l) (S i) = Some w -> w = pn_next E u.
Proof.
  intros W. induction r as [|r IH]; intros f l i u w; cbn [pb_walk]; destruct i as [|i]; cbn [nth_error].
  - discriminate.
  - destruct i; discriminate.
  - intros H. injection H as <-. destruct (f =? l); [discriminate|]. destruct r; cbn [pb_walk nth_error]; intros H; now injection H as <-.
  - destruct (f =? l); [destruct i; discriminate|]. exact (IH _ _ i u w).
Qed.
Lemma iter_ordered E (W : well_formed E) f l : is_pnum E f -> is_pnum E l ->
  NoDup (pb_iter E (PBound false f l)) /\ (forall v, In v (pb_iter E (PBound false f l)) <-> on_arc E f l v) /\
  (forall i u w, nth_error (pb_iter E (PBound false f l)) i = Some u -> nth_error (pb_iter E (PBound false f l)) (S i) = Some w -> w = pn_next E u) /\
  hd_error (pb_iter E (PBound false f l)) = Some f /\ pb_iter E (PBound true f l) = [].
Proof.
  intros F L. destruct (iter_ok E W f l F L) as [N I]. split; [exact N|]. split; [exact I|]. split; [|split; [|reflexivity]].
  - cbn [pb_iter]. intros i u w. exact (walk_next E W _ f l i u w).
  - cbn [pb_iter]. destruct (Z.to_nat (pn_n2 E)); reflexivity.
Qed.
Lemma everything_bound E (W : well_formed E) f l : is_pnum E f -> is_pnum E l -> (forall x, in_bound E (PBound false f l) x) <-> pn_next E l = f.
Proof.
  intros F L. rewrite <- (everything_arc E W f l F L). split; intros H x; [exact (proj2 (H x))|split; [reflexivity|exact (H x)]].
Qed.
