(** The table loaded from the listing: contents, limits, searches. *)
From Coq Require Import ZArith QArith Qabs Bool List String Ascii Sorted Lia Lqa.
From Verif Require Import Res CInt Traits Unpacked Cfg Spec SpecFloat SpecAny Posit FloatOps AnyFloat Asimd Soft ListP Dump SpecDump QPow Core Arith SpecLemmas DecodeProof EncodeProof UOps UAdd Ops
  Final1 Final4 Conv1 Conv5 FloatProof PositFProof PositFProof2 AnyProof AnyProof2 AnyProof3 SoftProof ListProof DumpProof DumpProof2 DumpProof3.
Import ListNotations.
Open Scope Z_scope.

(** Searches. *)
Lemma find_zup g d v n : forall a i, a <= v < a + Z.of_nat n -> (forall w, a <= w < a + Z.of_nat n -> f_eq 11 52 (g w) d = (w =? v)) ->
  m_find (map g (zup a n)) d i = Some (i + (v - a)).
Proof.
  induction n as [|n IH]; intros a i A H; [lia|]. cbn [zup map m_find]. rewrite H by lia. destruct (Z.eqb_spec a v) as [->|N]; [f_equal; lia|].
  rewrite (IH (a + 1) (i + 1)) by (intros; try apply H; lia). f_equal. lia.
Qed.
Definition nil_d (d : Z) : Prop := exists z, ieee_val 11 52 d = FinVal z /\ (z == 0)%Q.
Definition pos_d (d : Z) : Prop := x_lt (FinVal 0) (ieee_val 11 52 d).
Lemma pos_not_nan d : pos_d d -> match ieee_val 11 52 d with NaNVal => False | _ => True end.
Proof. unfold pos_d. destruct (ieee_val 11 52 d); cbn [x_lt]; auto. Qed.
Lemma nil_lt_pos a b : nil_d a -> pos_d b -> f_lt 11 52 a b = true.
Proof. intros (z & I & Z) P. apply f_lt_spec. rewrite I. unfold pos_d in P. destruct (ieee_val 11 52 b) as [x|[]|]; cbn [x_lt] in *; try tauto. rewrite Z. exact P. Qed.
Lemma not_lt_nil a b : nil_d b -> nil_d a \/ pos_d a -> f_lt 11 52 a b = false.
Proof.
  intros (z & I & Z) P. destruct (f_lt 11 52 a b) eqn:E; [exfalso|reflexivity]. apply f_lt_spec in E. rewrite I in E.
  destruct P as [(y & J & Y)|P]; [rewrite J in E; cbn [x_lt] in E; lra|]. unfold pos_d in P. destruct (ieee_val 11 52 a) as [x|[]|]; cbn [x_lt] in *; try tauto. lra.
Qed.
Lemma argmin_stay l : forall i best at_, nil_d best -> (forall d, In d l -> nil_d d \/ pos_d d) -> m_argmin l i best at_ = at_.
Proof.
  induction l as [|x l IH]; intros i best at_ B L; [reflexivity|]. cbn [m_argmin]. rewrite (not_lt_nil x best B (L x (or_introl eq_refl))).
  assert (E : match ieee_val 11 52 best with NaNVal => match ieee_val 11 52 x with NaNVal => false | _ => true end | _ => false end = false) by (destruct B as (z & -> & _); reflexivity).
  rewrite E. apply IH; [exact B|]. intros d D. apply L. now right.
Qed.
Lemma argmin_find h v n : forall a i best at_, pos_d best -> a <= v < a + Z.of_nat n -> nil_d (h v) -> (forall w, a <= w < a + Z.of_nat n -> w <> v -> pos_d (h w)) ->
  m_argmin (map h (zup a n)) i best at_ = i + (v - a).
Proof.
  induction n as [|n IH]; intros a i best at_ B A Z P; [lia|]. cbn [zup map m_argmin].
  assert (E : forall x b, match ieee_val 11 52 best with NaNVal => match ieee_val 11 52 x with NaNVal => false | _ => true end | _ => b end = b).
  { intros x b. pose proof (pos_not_nan best B) as NN. destruct (ieee_val 11 52 best); [reflexivity|reflexivity|contradiction]. }
  rewrite E. destruct (Z.eq_dec a v) as [->|N].
  - rewrite (nil_lt_pos (h v) best Z B). rewrite argmin_stay; [lia|exact Z|]. intros d D. apply in_map_iff in D. destruct D as (w & <- & D). apply zup_in in D. right. apply P; lia.
  - assert (R : forall b t, pos_d b -> m_argmin (map h (zup (a + 1) n)) (i + 1) b t = i + (v - a)).
    { intros b t PB. rewrite (IH (a + 1) (i + 1) b t PB) by (try assumption; try lia; intros; apply P; lia). lia. }
    destruct (f_lt 11 52 (h a) best); apply R; [apply P; lia|exact B].
Qed.
Lemma argmin_first h w n : forall a i best at_, nil_d best \/ pos_d best -> at_ < i -> a <= w < a + Z.of_nat n -> nil_d (h w) ->
  (forall x, a <= x < a + Z.of_nat n -> nil_d (h x) \/ pos_d (h x)) -> at_ <= m_argmin (map h (zup a n)) i best at_ <= i + (w - a).
Proof.
  induction n as [|n IH]; intros a i best at_ B T A Z P; [lia|]. cbn [zup map m_argmin].
  assert (E : forall x b, match ieee_val 11 52 best with NaNVal => match ieee_val 11 52 x with NaNVal => false | _ => true end | _ => b end = b).
  { intros x b. destruct B as [(z & -> & _)|B]; [reflexivity|]. pose proof (pos_not_nan best B) as NN. destruct (ieee_val 11 52 best); [reflexivity|reflexivity|contradiction]. }
  rewrite E. destruct (Z.eq_dec a w) as [->|N].
  - assert (S : forall b t, nil_d b -> m_argmin (map h (zup (w + 1) n)) (i + 1) b t = t).
    { intros b t NB. apply argmin_stay; [exact NB|]. intros d D. apply in_map_iff in D. destruct D as (x & <- & D). apply zup_in in D. apply P; lia. }
    destruct B as [B|B].
    + rewrite (not_lt_nil (h w) best B) by (left; exact Z). rewrite S by exact B. lia.
    + rewrite (nil_lt_pos (h w) best Z B). rewrite S by exact Z. lia.
  - destruct (f_lt 11 52 (h a) best).
    + pose proof (IH (a + 1) (i + 1) (h a) i (P a ltac:(lia)) ltac:(lia) ltac:(lia) Z ltac:(intros; apply P; lia)). lia.
    + pose proof (IH (a + 1) (i + 1) best at_ B ltac:(lia) ltac:(lia) Z ltac:(intros; apply P; lia)). lia.
Qed.

(** Limits. *)
Lemma lt_ext a b : x_lt a b <-> ext_le a b /\ ~ ext_le b a.
Proof. destruct a as [x|[]|], b as [y|[]|]; cbn [x_lt ext_le]; try tauto. split; [intros H; split; lra|intros [H K]; lra]. Qed.
Lemma le_ext a b : x_lt a b \/ x_eq a b <-> ext_le a b.
Proof.
  destruct a as [x|[]|], b as [y|[]|]; cbn [x_lt x_eq ext_le]; try tauto; try (split; [intros [H|H]; [contradiction|discriminate H]|contradiction]).
  split; [intros [H|H]; lra|intros H]. destruct (Qlt_le_dec x y); [tauto|right; lra].
Qed.
Lemma where_rows f : forall (s u v r : list Z), List.length u = List.length s -> List.length v = List.length s -> List.length r = List.length s ->
  let ba := map f v in
  combine (combine (combine (m_where ba s) (m_where ba u)) (m_where ba v)) (m_where ba r) =
    filter (fun x => match x with (_, _, d, _) => f d end) (combine (combine (combine s u) v) r) /\
  List.length (m_where ba u) = List.length (m_where ba s) /\ List.length (m_where ba v) = List.length (m_where ba s) /\ List.length (m_where ba r) = List.length (m_where ba s).
Proof.
  induction s as [|a s IH]; intros [|b u] [|d v] [|e r] L1 L2 L3; cbn [List.length] in *; try discriminate; [repeat split; reflexivity|].
  injection L1 as L1. injection L2 as L2. injection L3 as L3. destruct (IH u v r L1 L2 L3) as (A & B & C & D). cbn [map m_where combine filter].
  destruct (f d); cbn [combine List.length]; [rewrite A, B, C, D|]; repeat split; auto.
Qed.
Lemma limit_ok t mi ma ex t' s' : rectangular t -> (forall d, In d (t_float t) -> 0 <= d < 2 ^ 64) -> limittab t mi ma ex = Some (t', s') ->
  rectangular t' /\ (exists keep, (forall r, keep r = true <-> within mi ma ex r) /\ rows t' = filter keep (rows t)) /\
  (forall d, In d (t_float t') -> 0 <= d < 2 ^ 64) /\ describetab t' = Some s'.
Proof.
  intros (R1 & R2 & R3) B H. unfold limittab in H. set (f := fun v => if ex then f_lt 11 52 mi v && f_lt 11 52 v ma else f_le 11 52 mi v && f_le 11 52 v ma) in *.
  set (t1 := Tab _ _ _ _) in H. destruct (describetab t1) as [s1|] eqn:D; [|discriminate]. injection H as <- <-.
  destruct (where_rows f (t_signed t) (t_unsigned t) (t_float t) (t_res t) R1 R2 R3) as (W1 & W2 & W3 & W4). split; [unfold rectangular, t1; cbn [t_signed t_unsigned t_float t_res]; auto|].
  split.
  - exists (fun x => match x with (_, _, d, _) => f d end). split; [|exact W1]. intros [[[a b] d] e]. unfold within, f. destruct ex; rewrite andb_true_iff.
    + rewrite !f_lt_spec, !lt_ext. intuition congruence.
    + rewrite !f_le_spec, !le_ext. intuition congruence.
  - split; [|exact D]. unfold t1. cbn [t_float]. intros d. generalize (map f (t_float t)). intros ba I. apply B. clear -I. revert ba I. induction (t_float t) as [|x l IH]; intros [|b ba] I; cbn [m_where] in I; try destruct I.
    destruct b; [destruct I as [I|I]; [left; exact I|]|]; right; eapply IH; eassumption.
Qed.
