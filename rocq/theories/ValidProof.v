(** The tables of validsgentable.py. *)
From Coq Require Import ZArith QArith Qabs Bool List Lia Lqa.
From Verif Require Import QPow PositFProof PositFProof4 Spec SpecFloat SpecPunum Punum PunumProof PunumProof2 PunumProof3 PunumProof4 PunumProof5 ValidTab FloatOps.
Import ListNotations.
Open Scope Z_scope.

(** ** Lists. *)
Lemma pmap_all {A B : Type} (f : A -> py B) l : (forall x, In x l -> exists y, f x = Ret y) -> exists r, pmap f l = Ret r /\ Forall2 (fun x y => f x = Ret y) l r.
Proof.
  induction l as [|x l IH]; intros H; cbn [pmap]; [exists []; split; [reflexivity|constructor]|].
  destruct (H x (or_introl eq_refl)) as (y & Y). destruct IH as (r & R & F); [intros z Z; apply H; now right|].
  rewrite Y. cbn [pbind]. rewrite R. cbn [pbind]. exists (y :: r). split; [reflexivity|]. now constructor.
Qed.
Lemma pmap_raise {A B : Type} (f : A -> py B) x l : In x l -> f x = Raise -> pmap f l = Raise.
Proof.
  induction l as [|z l IH]; intros H R; [destruct H|]. cbn [pmap]. destruct (f z) eqn:Z; [|reflexivity]. cbn [pbind].
  destruct H as [->|H]; [congruence|]. now rewrite (IH H R).
Qed.
Lemma forall2_in {A B : Type} (R : A -> B -> Prop) l r y : Forall2 R l r -> In y r -> exists x, In x l /\ R x y.
Proof. induction 1 as [|a b l r H F IH]; [intros []|intros [Y|Y]]. - subst. exists a. split; [now left|assumption]. - destruct (IH Y) as (x & X & H'). exists x. split; [now right|assumption]. Qed.
Lemma forall2_in' {A B : Type} (R : A -> B -> Prop) l r x : Forall2 R l r -> In x l -> exists y, In y r /\ R x y.
Proof. induction 1 as [|a b l r H F IH]; [intros []|intros [Y|Y]]. - subst. exists b. split; [now left|assumption]. - destruct (IH Y) as (y & X & H'). exists y. split; [now right|assumption]. Qed.
Lemma forall2_nth {A B : Type} (R : A -> B -> Prop) l r m y : Forall2 R l r -> nth_error r m = Some y -> exists x, nth_error l m = Some x /\ R x y.
Proof.
  intros F. revert m. induction F as [|a b l r H F IH]; intros [|m] Y; cbn [nth_error] in *; try discriminate.
  - injection Y as <-. exists a. now split.
  - exact (IH m Y).
Qed.
Lemma nodup_flat_map {A B : Type} (f : A -> list B) (g : B -> A) l : NoDup l -> (forall x, In x l -> NoDup (f x)) ->
  (forall x y, In x l -> In y (f x) -> g y = x) -> NoDup (flat_map f l).
Proof.
  induction l as [|x l IH]; intros N F G; cbn [flat_map]; [constructor|]. inversion N as [|? ? N1 N2]; subst.
  assert (NA : forall a b : list B, NoDup a -> NoDup b -> (forall z, In z a -> In z b -> False) -> NoDup (a ++ b)).
  { induction a as [|z a IHa]; intros b Na Nb D; cbn [app]; [exact Nb|]. inversion Na; subst. constructor.
    - rewrite in_app_iff. intros [X|X]; [contradiction|]. exact (D z (or_introl eq_refl) X).
    - apply IHa; try assumption. intros w W1 W2. exact (D w (or_intror W1) W2). }
  apply NA.
  - apply F. now left.
  - apply IH; [assumption| |]; intros; [apply F|apply G]; try assumption; now right.
  - intros z Z1 Z2. apply in_flat_map in Z2. destruct Z2 as (x' & X' & Z2). pose proof (G x z (or_introl eq_refl) Z1). pose proof (G x' z (or_intror X') Z2). congruence.
Qed.

Section valid.
Variable E : list Q.
Hypothesis W : well_formed E.
Local Notation nn := (Z.of_nat (length E)).

(** ** The pairs, by signed position. *)
Definition ks (i j : Z) : list (Z * Z) :=
  let a := nn + i in let b := nn + j in let ia := nn - i in let ib := nn - j in
  if i =? 0 then if j =? 0 then [(a, b); (- a, b)] else [(a, b); (a, - b); (- a, - ib); (a, - ib)]
  else if i =? j then [(a, a); (a, - a); (ia, a); (ia, ia); (a, - ia)]
  else [(a, b); (a, - b); (ia, b); (- a, - ib); (- ia, - ib); (ia, - ib); (ia, - b); (a, - ib)].
Definition up (x : Z * Z) : Z * Z := (un E (2 * fst x), un E (2 * snd x)).
Lemma from_un i : (i < length E)%nat -> pn_fromexacts E i = un E (2 * (nn + Z.of_nat i)).
Proof using W. intros H. rewrite (fromexacts_eq E W) by exact H. unfold un. destruct (Z.ltb_spec (2 * (nn + Z.of_nat i)) 0); lia. Qed.
Lemma inv_from i : (i < length E)%nat -> pn_inv E (un E (2 * (nn + Z.of_nat i))) = un E (2 * (nn - Z.of_nat i)).
Proof using W.
  intros H. rewrite (inv_un E W) by lia. destruct (Z.eqb_spec (2 * (nn + Z.of_nat i)) 0); [lia|]. destruct (Z.ltb_spec 0 (2 * (nn + Z.of_nat i))); [|lia]. f_equal. lia.
Qed.
Lemma neg_pt k : - (2 * nn) < k < 2 * nn -> pn_neg E (un E (2 * k)) = un E (2 * - k).
Proof using W. intros H. rewrite (neg_un E W) by lia. f_equal. lia. Qed.
Lemma whats_ks i j : (i < length E)%nat -> (j < length E)%nat -> vt_whats E i j = map up (ks (Z.of_nat i) (Z.of_nat j)).
Proof using W.
  intros I J. unfold vt_whats, ks. rewrite !from_un, !inv_from by assumption.
  destruct (Nat.eqb_spec i 0) as [I0|I0], (Z.eqb_spec (Z.of_nat i) 0) as [I1|I1]; try lia.
  - destruct (Nat.eqb_spec j 0) as [J0|J0], (Z.eqb_spec (Z.of_nat j) 0) as [J1|J1]; try lia; cbn [map]; unfold up; cbn [fst snd]; rewrite ?neg_pt by lia; reflexivity.
  - destruct (Nat.eqb_spec i j) as [J0|J0], (Z.eqb_spec (Z.of_nat i) (Z.of_nat j)) as [J1|J1]; try lia; cbn [map]; unfold up; cbn [fst snd]; rewrite ?neg_pt by lia; reflexivity.
Qed.
Lemma in_pairs x : In x (vt_pairs E) <-> exists i j y, 0 <= i <= j /\ j < nn /\ In y (ks i j) /\ x = up y.
Proof using W.
  unfold vt_pairs. rewrite in_flat_map. split.
  - intros (i & I & H). apply in_seq in I. apply in_flat_map in H. destruct H as (j & J & H). apply in_seq in J. rewrite whats_ks in H by lia.
    apply in_map_iff in H. destruct H as (y & <- & Y). exists (Z.of_nat i), (Z.of_nat j), y. repeat split; try assumption; lia.
  - intros (i & j & y & I & J & Y & ->). exists (Z.to_nat i). split; [apply in_seq; lia|]. apply in_flat_map. exists (Z.to_nat j). split; [apply in_seq; lia|].
    rewrite whats_ks by lia. rewrite !Z2Nat.id by lia. apply in_map. exact Y.
Qed.
Ltac cases H := cbn [In] in H; repeat (destruct H as [H|H]; [injection H as <- <-|]); try (destruct H).
(** Positions are in range, and tell the indices. *)
Definition ix (k : Z) : Z := Z.abs (Z.abs k - nn).
Lemma ks_ok i j k l : 0 <= i <= j -> j < nn -> In (k, l) (ks i j) -> (- (2 * nn) < k < 2 * nn /\ k <> 0) /\ (- (2 * nn) < l < 2 * nn /\ l <> 0) /\ ix k = i /\ ix l = j.
Proof using.
  intros I J H. unfold ks in H. unfold ix. destruct (Z.eqb_spec i 0); [destruct (Z.eqb_spec j 0)|destruct (Z.eqb_spec i j)]; cases H; lia.
Qed.
(** The pairs that are the same up to order and sign. *)
Definition alike (k l k' l' : Z) : Prop := k' = k /\ l' = l \/ k' = l /\ l' = k \/ k' = - k /\ l' = - l \/ k' = - l /\ l' = - k.
Lemma ks_one i j k l k' l' : 0 <= i <= j -> j < nn -> In (k, l) (ks i j) -> In (k', l') (ks i j) -> alike k l k' l' -> k' = k /\ l' = l.
Proof using.
  intros I J H H' A. unfold ks in *. unfold alike in A. destruct (Z.eqb_spec i 0); [destruct (Z.eqb_spec j 0)|destruct (Z.eqb_spec i j)]; cases H; cases H'; lia.
Qed.
Lemma ks_nodup i j : 0 <= i <= j -> j < nn -> NoDup (ks i j).
Proof using.
  intros I J. unfold ks. assert (P : forall a b c d : Z, (a, b) = (c, d) -> a = c /\ b = d) by (intros * X; injection X; auto).
  destruct (Z.eqb_spec i 0); [destruct (Z.eqb_spec j 0)|destruct (Z.eqb_spec i j)]; repeat (constructor; [cbn [In]; intros X; repeat (destruct X as [X|X]; [apply P in X; lia|]); exact X|]); constructor.
Qed.
Lemma ks_all i j k l : 0 <= i <= j -> j < nn -> ix k = i -> ix l = j -> k <> 0 -> l <> 0 -> ~ (l = - k /\ Z.abs k < nn) -> exists k' l', In (k', l') (ks i j) /\ alike k l k' l'.
Proof using.
  intros I J K L K0 L0 N. unfold ix in *. unfold ks, alike.
  assert (CK : k = nn + i \/ k = nn - i \/ k = - (nn + i) \/ k = - (nn - i)) by lia.
  assert (CL : l = nn + j \/ l = nn - j \/ l = - (nn + j) \/ l = - (nn - j)) by lia.
  clear K L.
  destruct (Z.eqb_spec i 0) as [I0|I0]; [destruct (Z.eqb_spec j 0) as [J0|J0]|destruct (Z.eqb_spec i j) as [J0|J0]];
  destruct CK as [K|[K|[K|K]]]; destruct CL as [L|[L|[L|L]]]; try subst j; try subst i; subst k l;
  match goal with |- exists k' l', In (k', l') ?ll /\ _ =>
    let rec go t := lazymatch t with
      | ?x :: ?r => first [ (exists (fst x), (snd x); cbn [fst snd]; split; [cbn [In]; tauto|solve [left; split; ring|right; left; split; ring|right; right; left; split; ring|right; right; right; split; ring]]) | go r ]
      | _ => exfalso; lia end in go ll end.
Qed.
Lemma ks_missing i k' l' : 0 < i < nn -> In (k', l') (ks i i) -> alike (nn - i) (- (nn - i)) k' l' -> False.
Proof using.
  intros I H A. unfold ks in H. unfold alike in A. rewrite Z.eqb_refl in H. destruct (Z.eqb_spec i 0); [lia|]. cases H; lia.
Qed.

Lemma up_inj x y : (- (2 * nn) < fst x < 2 * nn) -> (- (2 * nn) < snd x < 2 * nn) -> (- (2 * nn) < fst y < 2 * nn) -> (- (2 * nn) < snd y < 2 * nn) -> up x = up y -> x = y.
Proof using W.
  intros A B C D H. destruct x as [x1 x2], y as [y1 y2]. unfold up in H. cbn [fst snd] in *. injection H as H1 H2.
  pose proof (un_inj E (2 * x1) (2 * y1) ltac:(lia) ltac:(lia) H1). pose proof (un_inj E (2 * x2) (2 * y2) ltac:(lia) ltac:(lia) H2). f_equal; lia.
Qed.
(** Which index a pnum comes from. *)
Definition ixn (v : Z) : nat := Z.to_nat (ix (sg E v / 2)).
Lemma ixn_un k : - (2 * nn) < k < 2 * nn -> ixn (un E (2 * k)) = Z.to_nat (ix k).
Proof using W. intros H. unfold ixn. rewrite (sg_un E) by lia. replace (2 * k / 2) with k by (rewrite Z.mul_comm, Z.div_mul; lia). reflexivity. Qed.
Lemma pairs_nodup : NoDup (vt_pairs E).
Proof using W.
  unfold vt_pairs. apply (nodup_flat_map _ (fun x => ixn (fst x))); [apply seq_NoDup| |].
  - intros i I. apply in_seq in I. apply (nodup_flat_map _ (fun x => ixn (snd x))); [apply seq_NoDup| |].
    + intros j J. apply in_seq in J. rewrite whats_ks by lia. pose proof (ks_nodup (Z.of_nat i) (Z.of_nat j) ltac:(lia) ltac:(lia)) as N.
      assert (R : forall x, In x (ks (Z.of_nat i) (Z.of_nat j)) -> (- (2 * nn) < fst x < 2 * nn) /\ (- (2 * nn) < snd x < 2 * nn)).
      { intros [k l] X. destruct (ks_ok (Z.of_nat i) (Z.of_nat j) k l ltac:(lia) ltac:(lia) X) as (A & B & _). cbn [fst snd]. lia. }
      revert N R. generalize (ks (Z.of_nat i) (Z.of_nat j)). intros s. induction s as [|x s IH]; intros N R; cbn [map]; [constructor|]. inversion N as [|? ? N1 N2]; subst. constructor.
      * intros X. apply in_map_iff in X. destruct X as (y & Y1 & Y2). destruct (R x (or_introl eq_refl)). destruct (R y (or_intror Y2)). apply up_inj in Y1; try assumption. subst. contradiction.
      * apply IH; [assumption|]. intros z Z. apply R. now right.
    + intros j x J X. apply in_seq in J. rewrite whats_ks in X by lia. apply in_map_iff in X. destruct X as ([k l] & <- & Y).
      destruct (ks_ok (Z.of_nat i) (Z.of_nat j) k l ltac:(lia) ltac:(lia) Y) as (A & B & _ & D). unfold up. cbn [fst snd]. rewrite ixn_un by lia. lia.
  - intros i x I X. apply in_seq in I. apply in_flat_map in X. destruct X as (j & J & X). apply in_seq in J. rewrite whats_ks in X by lia. apply in_map_iff in X. destruct X as ([k l] & <- & Y).
    destruct (ks_ok (Z.of_nat i) (Z.of_nat j) k l ltac:(lia) ltac:(lia) Y) as (A & B & C & _). unfold up. cbn [fst snd]. rewrite ixn_un by lia. lia.
Qed.

(** ** The rows. *)
Variable rnd : Q -> Z.
Hypothesis RN : rounding 11 52 rnd.
Hypothesis D : in_doubles E.
Variable op : Q -> Q -> Q.
Hypothesis OP : op = Qplus \/ op = Qmult.
Lemma row_ok k l : - (2 * nn) < k < 2 * nn -> - (2 * nn) < l < 2 * nn ->
  exists y, vt_row E rnd op (up (k, l)) = Ret (up (k, l), y) /\ is_pnum E y /\ member E y (Fin (op (pv E k) (pv E l))).
Proof using W RN D OP.
  intros K L. unfold vt_row. unfold up at 1 2. cbn [fst snd]. rewrite !(value_even E W) by lia.
  destruct (point_index E k K) as (k' & K' & PK). destruct (point_index E l L) as (l' & L' & PL). destruct (D k' l' _ _ K' L' PK PL) as [D1 D2].
  assert (F : is_float 11 52 (op (pv E k) (pv E l))) by (destruct OP as [-> | ->]; assumption).
  destruct (convert_rational E W rnd _ RN F) as (v & V & B & M). exists v. rewrite V. cbn [pbind]. split; [reflexivity|]. now split.
Qed.
Lemma row_inv x a b y : vt_row E rnd op x = Ret (a, b, y) -> x = (a, b).
Proof using.
  unfold vt_row. destruct (pn_exactvalue E (fst x)), (pn_exactvalue E (snd x)); try discriminate. destruct (pn_convert E rnd (PRat (op q q0))) as [uy|]; cbn [pbind]; [|discriminate]. congruence.
Qed.
Lemma table_rows : exists rows, vt_table E rnd op = Ret rows /\ Forall2 (fun x y => vt_row E rnd op x = Ret y) (vt_pairs E) rows.
Proof using W RN D OP.
  unfold vt_table. apply pmap_all. intros x X. apply in_pairs in X. destruct X as (i & j & [k l] & I & J & Y & ->).
  destruct (ks_ok _ _ k l I J Y) as (A & B & _). destruct (row_ok k l) as (y & H & _); try lia. now exists (up (k, l), y).
Qed.
Lemma pv_nonzero k : - (2 * nn) < k < 2 * nn -> k <> 0 -> ~ (pv E k == 0)%Q.
Proof using W.
  intros K K0 Z. destruct (Z_lt_le_dec k 0); [pose proof (pv_lt E W k 0 ltac:(lia) ltac:(lia) ltac:(lia)) as L|pose proof (pv_lt E W 0 k ltac:(lia) ltac:(lia) ltac:(lia)) as L]; rewrite pv_0 in L; lra.
Qed.
Lemma pv_inj k l : - (2 * nn) < k < 2 * nn -> - (2 * nn) < l < 2 * nn -> (pv E k == pv E l)%Q -> k = l.
Proof using W.
  intros K L H. destruct (Z.lt_trichotomy k l) as [X|[X|X]]; [|exact X|]; [pose proof (pv_lt E W k l ltac:(lia) X ltac:(lia))|pose proof (pv_lt E W l k ltac:(lia) X ltac:(lia))]; lra.
Qed.
Lemma point_pv j p : 0 <= j < 4 * nn -> point E j = Fin p -> exists k, - (2 * nn) < k < 2 * nn /\ p = pv E k.
Proof using W.
  intros J P. destruct (Z.eq_dec j (2 * nn)) as [->|N]; [rewrite point_inf in P; discriminate|].
  exists (if j <? 2 * nn then j else j - 4 * nn). destruct (Z.ltb_spec j (2 * nn)) as [L|L].
  - split; [lia|]. pose proof (point_finite E j ltac:(lia)) as Q. destruct (Z.ltb_spec j 0); [lia|]. congruence.
  - split; [lia|]. pose proof (point_finite E (j - 4 * nn) ltac:(lia)) as Q. destruct (Z.ltb_spec (j - 4 * nn) 0); [|lia]. replace (j - 4 * nn + 4 * nn) with j in Q by lia. congruence.
Qed.
Lemma member_pt k q : - (2 * nn) < k < 2 * nn -> member E (un E (2 * k)) (Fin q) <-> (q == pv E k)%Q.
Proof using W. intros K. rewrite (member_un E W) by lia. apply cell_even. Qed.
Lemma small_pv k : - (2 * nn) < k < 2 * nn -> ((Qabs (pv E k) < 1)%Q <-> Z.abs k < nn).
Proof using W.
  intros K. pose proof (n_pos E W) as N. assert (P1 : (pv E nn == 1)%Q) by (symmetry; apply (cell_even E nn); apply (one_cell E W)).
  assert (A : (Qabs (pv E k) == pv E (Z.abs k))%Q).
  { destruct (Z_lt_le_dec k 0) as [L|L].
    - rewrite Z.abs_neq by lia. rewrite pv_opp. pose proof (pv_lt E W k 0 ltac:(lia) L ltac:(lia)) as X. rewrite pv_0 in X. rewrite Qabs_neg; lra.
    - rewrite Z.abs_eq by lia. pose proof (pv_le E W 0 k ltac:(lia) L ltac:(lia)) as X. rewrite pv_0 in X. rewrite Qabs_pos; lra. }
  rewrite A, <- P1. split; intros H.
  - apply Z.nle_gt. intros X. pose proof (pv_le E W nn (Z.abs k) ltac:(lia) X ltac:(lia)). lra.
  - apply (pv_lt E W); lia.
Qed.

(** Two pairs of numbers that are the same up to order and common sign. *)
Lemma alike_pv k l k' l' : - (2 * nn) < k < 2 * nn -> - (2 * nn) < l < 2 * nn -> - (2 * nn) < k' < 2 * nn -> - (2 * nn) < l' < 2 * nn ->
  same_pair (pv E k) (pv E l) (pv E k') (pv E l') <-> alike k l k' l'.
Proof using W.
  intros K L K' L'. assert (I : forall a b, - (2 * nn) < a < 2 * nn -> - (2 * nn) < b < 2 * nn -> (pv E a == pv E b)%Q <-> a = b).
  { intros a b A B. split; [apply pv_inj; assumption|]. intros ->. reflexivity. }
  unfold same_pair, alike. rewrite <- !pv_opp. rewrite !I by lia. reflexivity.
Qed.
Lemma rows_right rows a b y : vt_table E rnd op = Ret rows -> In (a, b, y) rows ->
  is_pnum E a /\ is_pnum E b /\ is_pnum E y /\ Z.even a = true /\ Z.even b = true /\
  exists p q, member E a (Fin p) /\ member E b (Fin q) /\ ~ (p == 0)%Q /\ ~ (q == 0)%Q /\ member E y (Fin (op p q)).
Proof using W RN D OP.
  intros T H. destruct table_rows as (rows' & T' & F). rewrite T' in T. injection T as ->. destruct (forall2_in _ _ _ _ F H) as (x & X & R). cbv beta in R. pose proof (row_inv _ _ _ _ R) as ->.
  apply in_pairs in X. destruct X as (i & j & [k l] & I & J & Y & U). destruct (ks_ok _ _ k l I J Y) as ([A A0] & [B B0] & _). unfold up in U. cbn [fst snd] in U. apply pair_equal_spec in U. destruct U as [-> ->].
  destruct (row_ok k l) as (y' & R' & P & M); try assumption. unfold up in R'. cbn [fst snd] in R'. rewrite R' in R. injection R as ->.
  split; [apply (un_pnum E W); lia|]. split; [apply (un_pnum E W); lia|]. split; [exact P|]. rewrite !(even_un E), !Z.even_mul. split; [reflexivity|]. split; [reflexivity|].
  exists (pv E k), (pv E l). split; [apply member_pt; [assumption|reflexivity]|]. split; [apply member_pt; [assumption|reflexivity]|].
  split; [now apply pv_nonzero|]. split; [now apply pv_nonzero|exact M].
Qed.
Lemma row_found rows k l : vt_table E rnd op = Ret rows -> - (2 * nn) < k < 2 * nn -> - (2 * nn) < l < 2 * nn -> k <> 0 -> l <> 0 -> ~ (l = - k /\ Z.abs k < nn) ->
  exists k' l' y, - (2 * nn) < k' < 2 * nn /\ - (2 * nn) < l' < 2 * nn /\ In (un E (2 * k'), un E (2 * l'), y) rows /\ alike k l k' l'.
Proof using W RN D OP.
  intros T K L K0 L0 N. destruct table_rows as (rows' & T' & F). rewrite T' in T. injection T as ->.
  assert (H : exists i j k' l', 0 <= i <= j /\ j < nn /\ In (k', l') (ks i j) /\ alike k l k' l').
  { assert (ix k < nn /\ ix l < nn) as [IK IL] by (unfold ix; lia). destruct (Z_le_gt_dec (ix k) (ix l)) as [C|C].
    - destruct (ks_all (ix k) (ix l) k l) as (k' & l' & H & A); try assumption; try reflexivity; [unfold ix in *; lia|]. exists (ix k), (ix l), k', l'. repeat split; try assumption. unfold ix; lia.
    - destruct (ks_all (ix l) (ix k) l k) as (k' & l' & H & A); try assumption; try reflexivity; [unfold ix in *; lia|lia|]. exists (ix l), (ix k), k', l'. repeat split; try assumption; [unfold ix; lia|lia|unfold alike in *; lia]. }
  destruct H as (i & j & k' & l' & I & J & H & A). destruct (ks_ok _ _ _ _ I J H) as ([B1 _] & [B2 _] & _).
  destruct (forall2_in' _ _ _ (up (k', l')) F) as (r & R1 & R2); [apply in_pairs; exists i, j, (k', l'); repeat split; try assumption; lia|].
  destruct (row_ok k' l' B1 B2) as (y & R & _). cbv beta in R2. rewrite R in R2. injection R2 as <-. exists k', l', y. repeat split; try assumption; lia.
Qed.
Lemma rows_found rows j k p q : vt_table E rnd op = Ret rows -> 0 <= j < 4 * nn -> 0 <= k < 4 * nn -> point E j = Fin p -> point E k = Fin q -> ~ (p == 0)%Q -> ~ (q == 0)%Q ->
  ~ ((q == - p)%Q /\ (Qabs p < 1)%Q) ->
  exists a b y p' q', In (a, b, y) rows /\ member E a (Fin p') /\ member E b (Fin q') /\ same_pair p q p' q'.
Proof using W RN D OP.
  intros T J K P Q P0 Q0 N. destruct (point_pv j p J P) as (s & S & ->). destruct (point_pv k q K Q) as (t & T' & ->).
  destruct (row_found rows s t T S T') as (k' & l' & y & B1 & B2 & R & A).
  - intros ->. apply P0. reflexivity.
  - intros ->. apply Q0. reflexivity.
  - intros [-> X]. apply N. split; [apply pv_opp|]. now apply small_pv.
  - exists (un E (2 * k')), (un E (2 * l')), y, (pv E k'), (pv E l'). split; [exact R|]. split; [apply member_pt; [assumption|reflexivity]|]. split; [apply member_pt; [assumption|reflexivity]|]. now apply alike_pv.
Qed.
Lemma rows_once rows m m' a b y a' b' y' p q p' q' : vt_table E rnd op = Ret rows -> nth_error rows m = Some (a, b, y) -> nth_error rows m' = Some (a', b', y') ->
  member E a (Fin p) -> member E b (Fin q) -> member E a' (Fin p') -> member E b' (Fin q') -> same_pair p q p' q' -> m = m'.
Proof using W RN D OP.
  intros T H H' MA MB MA' MB' S. destruct table_rows as (rows' & T' & F). rewrite T' in T. injection T as ->.
  destruct (forall2_nth _ _ _ _ _ F H) as (x & X & R). destruct (forall2_nth _ _ _ _ _ F H') as (x' & X' & R'). pose proof (row_inv _ _ _ _ R) as ->. pose proof (row_inv _ _ _ _ R') as ->.
  pose proof (nth_error_In _ _ X) as P. pose proof (nth_error_In _ _ X') as P'. apply in_pairs in P. apply in_pairs in P'.
  destruct P as (i & j & [k l] & I & J & Y & U). destruct P' as (i' & j' & [k' l'] & I' & J' & Y' & U').
  destruct (ks_ok _ _ _ _ I J Y) as ([B1 _] & [B2 _] & IK & IL). destruct (ks_ok _ _ _ _ I' J' Y') as ([B1' _] & [B2' _] & IK' & IL').
  assert (XX : Some (a, b) = Some (a', b')).
  { unfold up in U, U'. cbn [fst snd] in U, U'. apply pair_equal_spec in U. destruct U as [-> ->]. apply pair_equal_spec in U'. destruct U' as [-> ->].
    apply member_pt in MA; try assumption. apply member_pt in MB; try assumption. apply member_pt in MA'; try assumption. apply member_pt in MB'; try assumption.
    assert (A : alike k l k' l'). { apply alike_pv; try assumption. unfold same_pair in *. rewrite <- MA, <- MB, <- MA', <- MB'. exact S. }
    assert (i' = i /\ j' = j) as [-> ->] by (unfold ix, alike in *; lia).
    destruct (ks_one _ _ _ _ _ _ I J Y Y' A) as [-> ->]. reflexivity. }
  apply (proj1 (NoDup_nth_error (vt_pairs E)) pairs_nodup); [apply nth_error_Some; congruence|]. rewrite X, X'. exact XX.
Qed.
Lemma rows_missing rows i : vt_table E rnd op = Ret rows -> (0 < i < length E)%nat -> let p := (/ nth i E 0)%Q in
  forall a b y p' q', In (a, b, y) rows -> member E a (Fin p') -> member E b (Fin q') -> ~ same_pair p (- p) p' q'.
Proof using W RN D OP.
  intros T I p a b y p' q' H MA MB S. destruct table_rows as (rows' & T' & F). rewrite T' in T. injection T as ->. destruct (forall2_in _ _ _ _ F H) as (x & X & R). cbv beta in R. pose proof (row_inv _ _ _ _ R) as ->.
  apply in_pairs in X. destruct X as (i' & j & [k l] & I' & J & Y & U). destruct (ks_ok _ _ k l I' J Y) as ([A A0] & [B B0] & IK & IL). unfold up in U. cbn [fst snd] in U. apply pair_equal_spec in U. destruct U as [-> ->].
  apply member_pt in MA; try assumption. apply member_pt in MB; try assumption.
  assert (P : p = pv E (nn - Z.of_nat i)). { rewrite pv_nonneg by lia. rewrite (pos_frac E) by lia. reflexivity. }
  assert (Q : alike (nn - Z.of_nat i) (- (nn - Z.of_nat i)) k l).
  { apply alike_pv; try lia. unfold same_pair in *. rewrite <- MA, <- MB, pv_opp, <- P. exact S. }
  assert (i' = Z.of_nat i /\ j = Z.of_nat i) as [-> ->] by (unfold ix, alike in *; lia).
  exact (ks_missing (Z.of_nat i) k l ltac:(lia) Y Q).
Qed.

(** ** How many. *)
Lemma ks_length i j : 0 <= i <= j -> Z.of_nat (length (ks i j)) = if i =? 0 then if j =? 0 then 2 else 4 else if i =? j then 5 else 8.
Proof using. intros I. unfold ks. destruct (Z.eqb_spec i 0); [destruct (Z.eqb_spec j 0)|destruct (Z.eqb_spec i j)]; reflexivity. Qed.
Lemma inner_length i m s : (i + s + m <= length E)%nat -> (0 < s)%nat -> Z.of_nat (length (flat_map (vt_whats E i) (seq (i + s) m))) = (if (i =? 0)%nat then 4 else 8) * Z.of_nat m.
Proof using W.
  revert s. induction m as [|m IH]; intros s H S0; cbn [seq flat_map]; [cbn [length]; lia|].
  rewrite app_length, Nat2Z.inj_add. replace (S (i + s)) with (i + S s)%nat by lia. rewrite IH by lia. rewrite whats_ks, map_length, ks_length by lia.
  destruct (Nat.eqb_spec i 0), (Z.eqb_spec (Z.of_nat i) 0), (Z.eqb_spec (Z.of_nat (i + s)) 0), (Z.eqb_spec (Z.of_nat i) (Z.of_nat (i + s))); lia.
Qed.
Lemma outer_length m : forall i, (0 < i)%nat -> (i + m = length E)%nat -> Z.of_nat (length (flat_map (fun i => flat_map (vt_whats E i) (seq i (length E - i))) (seq i m))) = 4 * Z.of_nat m * (Z.of_nat m - 1) + 5 * Z.of_nat m.
Proof using W.
  induction m as [|m IH]; intros i P H; cbn [seq flat_map]; [reflexivity|]. rewrite app_length, Nat2Z.inj_add, IH by lia.
  replace (length E - i)%nat with (S m) by lia. cbn [seq flat_map]. rewrite app_length, Nat2Z.inj_add. replace (S i) with (i + 1)%nat by lia. rewrite inner_length by lia.
  rewrite whats_ks, map_length, ks_length, Z.eqb_refl by lia. destruct (Nat.eqb_spec i 0), (Z.eqb_spec (Z.of_nat i) 0); lia.
Qed.
Lemma pairs_length : Z.of_nat (length (vt_pairs E)) = 4 * nn * nn - 3 * nn + 1.
Proof using W.
  pose proof (n_pos E W) as N. unfold vt_pairs. destruct (length E) as [|m] eqn:L; [lia|]. cbn [seq flat_map]. rewrite app_length, Nat2Z.inj_add.
  pose proof (outer_length m 1 ltac:(lia) ltac:(lia)) as O. rewrite L in O. rewrite O.
  replace (S m - 0)%nat with (S m) by lia. cbn [seq flat_map]. rewrite app_length, Nat2Z.inj_add. pose proof (inner_length 0 m 1 ltac:(lia) ltac:(lia)) as I. cbn [Nat.add Nat.eqb] in I. rewrite I.
  rewrite whats_ks, map_length, ks_length by lia. cbn [Z.of_nat Z.eqb]. lia.
Qed.
Lemma rows_length rows : vt_table E rnd op = Ret rows -> Z.of_nat (length rows) = 4 * nn * nn - 3 * nn + 1.
Proof using W RN D OP.
  intros T. destruct table_rows as (rows' & T' & F). rewrite T' in T. injection T as ->. rewrite <- pairs_length. f_equal. clear T'. induction F as [|a b l r H F IH]; [reflexivity|]. cbn [length]. now rewrite IH.
Qed.

(** ** The table of values. *)
Lemma float_rows v y : In (v, y) (vt_float E) <-> exists k, 0 < k < 2 * nn /\ v = un E (2 * k) /\ y = Some (pv E k).
Proof using W.
  unfold vt_float. rewrite in_flat_map. split.
  - intros (i & I & H). apply in_seq in I. cbv zeta in H. rewrite from_un, inv_from, !(value_even E W) in H by lia.
    destruct H as [H|[H|[]]]; injection H as <- <-; [exists (nn + Z.of_nat i)|exists (nn - Z.of_nat i)]; repeat split; lia.
  - intros (k & K & -> & ->). destruct (Z_le_gt_dec nn k) as [C|C].
    + exists (Z.to_nat (k - nn)). split; [apply in_seq; lia|]. cbv zeta. rewrite from_un, (value_even E W) by lia. rewrite Z2Nat.id by lia. replace (nn + (k - nn)) with k by lia. now left.
    + exists (Z.to_nat (nn - k)). split; [apply in_seq; lia|]. cbv zeta. rewrite from_un, inv_from, !(value_even E W) by lia. rewrite Z2Nat.id by lia. replace (nn - (nn - k)) with k by lia. right. now left.
Qed.
Lemma float_right v y : In (v, y) (vt_float E) -> is_pnum E v /\ Z.even v = true /\ exists q, y = Some q /\ (0 < q)%Q /\ member E v (Fin q).
Proof using W.
  intros H. apply float_rows in H. destruct H as (k & K & -> & ->). split; [apply (un_pnum E W); lia|]. split; [rewrite (even_un E), Z.even_mul; reflexivity|].
  exists (pv E k). split; [reflexivity|]. split; [|apply member_pt; [lia|reflexivity]]. pose proof (pv_lt E W 0 k ltac:(lia) ltac:(lia) ltac:(lia)) as X. rewrite pv_0 in X. exact X.
Qed.
Lemma float_found j p : 0 <= j < 4 * nn -> point E j = Fin p -> (0 < p)%Q -> exists v q, In (v, Some q) (vt_float E) /\ (q == p)%Q.
Proof using W.
  intros J P Z. destruct (point_pv j p J P) as (k & K & ->). exists (un E (2 * k)), (pv E k). split; [|reflexivity]. apply float_rows. exists k. split; [|now split].
  split; [|lia]. apply Z.nle_gt. intros X. pose proof (pv_le E W k 0 ltac:(lia) X ltac:(lia)) as Y. rewrite pv_0 in Y. lra.
Qed.
End valid.
Lemma unary_raises E rnd o op1 op2 : (0 < length E)%nat -> In o op1 -> o <> VFloat -> vt_main E rnd op1 op2 = Raise.
Proof.
  intros L O N. unfold vt_main. destruct (pn_convert E rnd (PRat 2)) as [two|]; [|reflexivity]. cbn [pbind]. rewrite (pmap_raise _ o); [reflexivity| |].
  - apply filter_In. split; [exact O|]. destruct o; try reflexivity. congruence.
  - apply (pmap_raise _ 0%nat); [apply in_seq; lia|]. unfold vt_unary_rows, vt_unary. destruct o; try reflexivity.
    + destruct (pn_times E rnd (pn_fromexacts E 0) two); reflexivity.
    + destruct (pn_times E rnd (pn_fromexacts E 0) (pn_fromexacts E 0)); reflexivity.
    + congruence.
Qed.
Lemma main_tables E rnd op1 : well_formed E -> rounding 11 52 rnd -> in_doubles E -> (forall o, In o op1 -> o = VFloat) ->
  exists plus times, vt_table E rnd Qplus = Ret plus /\ vt_table E rnd Qmult = Ret times /\ vt_main E rnd op1 [Qmult; Qplus] = Ret ([], [times; plus]).
Proof.
  intros W RN D O. destruct (table_rows E W rnd RN D Qplus (or_introl eq_refl)) as (plus & P & _). destruct (table_rows E W rnd RN D Qmult (or_intror eq_refl)) as (times & T & _).
  exists plus, times. split; [exact P|]. split; [exact T|]. unfold vt_main.
  assert (F2 : is_float 11 52 2) by (apply (is_float_comp 11 52 (inject_Z (2 ^ 15) * pow2 (-14))); [reflexivity|apply small_float; reflexivity]).
  destruct (convert_rational E W rnd 2 RN F2) as (v & V & _). rewrite V. cbn [pbind].
  assert (FE : filter (fun o => negb (is_float_op o)) op1 = []).
  { induction op1 as [|o l IH]; [reflexivity|]. cbn [filter]. rewrite (O o (or_introl eq_refl)). cbn [is_float_op negb]. apply IH. intros x X. apply O. now right. }
  rewrite FE. cbn [pmap pbind]. rewrite T, P. reflexivity.
Qed.
