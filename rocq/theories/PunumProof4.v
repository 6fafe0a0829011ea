(** Projective unums: sets of pnums, examples. *)
From Coq Require Import ZArith QArith Qabs Bool List Lia Lqa.
From Verif Require Import Spec SpecFloat SpecPunum Punum PunumProof PunumProof2 PunumProof3.
Import ListNotations.
Open Scope Z_scope.

Section sets.
Variable E : list Q.
Hypothesis W : well_formed E.
Local Notation nn := (Z.of_nat (length E)).

Lemma arc_spec f l v : is_pnum E f -> is_pnum E l -> is_pnum E v ->
  on_arc E f l v <-> (f <= v <= l \/ l < f /\ f <= v \/ l < f /\ v <= l).
Proof using.
  intros F L V. unfold on_arc, is_pnum in *. rewrite !arc_mod by assumption. destruct (Z.leb_spec f v), (Z.leb_spec f l); lia.
Qed.
Lemma finite_ok x : in_bound E (pb_finite E) x <-> x <> Inf.
Proof using W.
  pose proof (n_pos E W). unfold pb_finite. rewrite inf_eq by exact W. cbn [in_bound].
  assert (NI : pn_next E (4 * nn) = 4 * nn + 1) by (rewrite next_eq by (exact W || lia); destruct (Z.eqb_spec (4 * nn) (8 * nn - 1)); lia).
  assert (PI : pn_prev E (4 * nn) = 4 * nn - 1) by (rewrite prev_eq by (exact W || lia); destruct (Z.eqb_spec (4 * nn) 0); lia). rewrite NI, PI.
  assert (A : forall v, is_pnum E v -> on_arc E (4 * nn + 1) (4 * nn - 1) v <-> v <> 4 * nn).
  { intros v V. rewrite arc_spec; unfold is_pnum in *; try lia. }
  split.
  - intros (_ & v & AV & M) ->. pose proof (proj1 AV) as V. apply A in AV; [|exact V]. apply AV. now apply member_inf in M.
  - intros X. split; [reflexivity|]. destruct (partition E W x) as (v & V & M & _). exists v. split; [|exact M]. apply A; [exact V|]. intros ->. apply X. now apply inf_member_only in M.
Qed.
Lemma nonzero_ok x : in_bound E (pb_nonzero E) x <-> ~ pr_eq x (Fin 0).
Proof using W.
  pose proof (n_pos E W). unfold pb_nonzero, pn_zero. cbn [in_bound].
  assert (NI : pn_next E 0 = 1) by (rewrite next_eq by (exact W || lia); destruct (Z.eqb_spec 0 (8 * nn - 1)); lia).
  assert (PI : pn_prev E 0 = 8 * nn - 1) by (rewrite prev_eq by (exact W || lia); reflexivity). rewrite NI, PI.
  assert (A : forall v, is_pnum E v -> on_arc E 1 (8 * nn - 1) v <-> v <> 0).
  { intros v V. rewrite arc_spec; unfold is_pnum in *; try lia. }
  split.
  - intros (_ & v & AV & M) X. pose proof (proj1 AV) as V. apply A in AV; [|exact V]. apply AV.
    apply (member_unique E W v 0 x V ltac:(unfold is_pnum; lia) M). now apply zero_member.
  - intros X. split; [reflexivity|]. destruct (partition E W x) as (v & V & M & _). exists v. split; [|exact M]. apply A; [exact V|]. intros ->. apply X. now apply zero_member in M.
Qed.
Lemma one_of_ok v x : is_pnum E v -> in_bound E (pb_one_of v) x <-> member E v x.
Proof using W. intros V. cbn [in_bound pb_one_of]. rewrite arc_one by assumption. tauto. Qed.
Lemma empty_ok x : ~ in_bound E pb_empty x.
Proof using. intros [H _]. discriminate. Qed.
Lemma everything_arc f l : is_pnum E f -> is_pnum E l -> (forall x, in_arc E f l x) <-> pn_next E l = f.
Proof using W.
  intros F L. pose proof (n_pos E W). assert (NL : pn_next E l = if l =? 8 * nn - 1 then 0 else l + 1) by (apply next_eq; assumption). rewrite NL. split.
  - intros A. destruct (next_prev E W l L) as (NV & _). set (v := pn_next E l) in *.
    assert (X : exists x, member E v x).
    { destruct (pnum_cases E v NV) as [->|(t & T & ->)]; [exists Inf; now apply inf_member_only|].
      destruct (Z.even t) eqn:P.
      - exists (Fin (pv E (t / 2))). apply member_un; [exact W|exact T|]. apply even_half in P. rewrite P at 1. apply cell_even. reflexivity.
      - destruct (cell_two E W t T P) as (r & _ & _ & C & _). exists (Fin r). now apply member_un. }
    destruct X as (x & X). destruct (A x) as (u & AU & MU). pose proof (member_unique E W u v x (proj1 AU) NV MU X) as ->. apply arc_spec in AU; try assumption.
    unfold is_pnum in *. revert AU. rewrite NL. destruct (Z.eqb_spec l (8 * nn - 1)); lia.
  - intros H' x. destruct (partition E W x) as (v & V & M & _). exists v. split; [|exact M]. apply arc_spec; try assumption. unfold is_pnum in *. revert H'. destruct (Z.eqb_spec l (8 * nn - 1)); lia.
Qed.
Lemma complement_ok f l x : is_pnum E f -> is_pnum E l -> pn_next E l <> f ->
  in_bound E (pb_complement E (PBound false f l)) x <-> ~ in_bound E (PBound false f l) x.
Proof using W.
  intros F L NE. pose proof (n_pos E W). unfold pb_complement, pb_iseverything. cbn [in_bound].
  destruct (next_prev E W l L) as (NL & _). destruct (next_prev E W f F) as (_ & PF & _).
  assert (NEQ : pn_next E l = if l =? 8 * nn - 1 then 0 else l + 1) by (apply next_eq; assumption).
  assert (PEQ : pn_prev E f = if f =? 0 then 8 * nn - 1 else f - 1) by (apply prev_eq; assumption).
  assert (A : forall v, is_pnum E v -> on_arc E (pn_next E l) (pn_prev E f) v <-> ~ on_arc E f l v).
  { intros v V. rewrite (arc_spec f l v), (arc_spec (pn_next E l) (pn_prev E f) v) by assumption. revert NE. rewrite NEQ, PEQ. unfold is_pnum in *.
    destruct (Z.eqb_spec l (8 * nn - 1)), (Z.eqb_spec f 0); lia. }
  split.
  - intros (_ & v & AV & M) (_ & u & AU & MU). pose proof (member_unique E W u v x (proj1 AU) (proj1 AV) MU M) as ->. apply A in AV; [contradiction|exact (proj1 AU)].
  - intros X. split; [reflexivity|]. destruct (partition E W x) as (v & V & M & _). exists v. split; [|exact M]. apply A; [exact V|]. intros AV. apply X. split; [reflexivity|]. exists v. auto.
Qed.
Lemma complement_empty f l x : in_bound E (pb_complement E (PBound true f l)) x.
Proof using W. apply everything_ok. exact W. Qed.
Lemma complement_everything f l x : is_pnum E f -> is_pnum E l -> pn_next E l = f -> in_bound E (PBound false f l) x /\ in_bound E (pb_complement E (PBound false f l)) x.
Proof using W.
  intros F L H. split; [split; [reflexivity|]; now apply everything_arc|]. unfold pb_complement, pb_iseverything. split; [reflexivity|].
  destruct (next_prev E W l L) as (NL & _ & PN & _). destruct (next_prev E W f F) as (_ & PF & _). apply everything_arc; try assumption. rewrite <- H, PN. reflexivity.
Qed.
Lemma inv_arc f l v : is_pnum E f -> is_pnum E l -> is_pnum E v -> on_arc E (pn_inv E l) (pn_inv E f) (pn_inv E v) <-> on_arc E f l v.
Proof using W.
  intros F L V. pose proof (n_pos E W). destruct (inv_back E W f F) as [F' _]. destruct (inv_back E W l L) as [L' _]. destruct (inv_back E W v V) as [V' _].
  unfold on_arc. assert (S : is_pnum E (pn_inv E v) <-> is_pnum E v) by tauto. rewrite S. unfold is_pnum in *. rewrite !arc_mod by assumption. revert F' L' V'. rewrite !inv_eq by (exact W || assumption).
  intros. destruct (Z.leb_spec f (4 * nn)), (Z.leb_spec l (4 * nn)), (Z.leb_spec v (4 * nn));
  repeat match goal with |- context [?a <=? ?b] => destruct (Z.leb_spec a b) end; lia.
Qed.
Lemma invert_ok f l x : is_pnum E f -> is_pnum E l -> in_bound E (pb_invert E (PBound false f l)) x <-> in_bound E (PBound false f l) (pr_inv x).
Proof using W.
  intros F L. cbn [pb_invert in_bound]. split; intros (_ & v & AV & M); (split; [reflexivity|]); exists (pn_inv E v).
  - pose proof (proj1 AV) as V. destruct (inv_ok E W v x V) as (V' & I2 & _). split; [|now apply inv_half].
    apply (inv_arc f l (pn_inv E v) F L V'). rewrite I2. exact AV.
  - pose proof (proj1 AV) as V. split; [now apply inv_arc|]. now apply inv_ok.
Qed.
Lemma walk_ok : forall r f l, is_pnum E f -> is_pnum E l -> (l - f) mod (8 * nn) <= Z.of_nat r ->
  NoDup (pb_walk E r f l) /\ (forall v, In v (pb_walk E r f l) <-> on_arc E f l v) /\ exists m, pb_walk E r f l = m ++ [l].
Proof using W.
  pose proof (n_pos E W) as N1. induction r as [|r IH]; intros f l F L B.
  - assert (f = l). { unfold is_pnum in *. rewrite arc_mod in B by assumption. destruct (Z.leb_spec f l); lia. } subst l. cbn [pb_walk]. split; [repeat constructor; auto|]. split.
    + intros v. cbn [In]. split.
      * intros [<-|[]]. apply arc_spec; try assumption. lia.
      * intros A. pose proof (proj1 A) as V. apply arc_spec in A; try assumption. left. lia.
    + exists []. reflexivity.
  - cbn [pb_walk]. destruct (Z.eqb_spec f l) as [->|N].
    + split; [repeat constructor; auto|]. split.
      * intros v. cbn [In]. split.
        -- intros [<-|[]]. apply arc_spec; try assumption. lia.
        -- intros A. pose proof (proj1 A) as V. apply arc_spec in A; try assumption. left. lia.
      * exists []. reflexivity.
    + destruct (next_prev E W f F) as (NF & _). assert (NEQ : pn_next E f = if f =? 8 * nn - 1 then 0 else f + 1) by (apply next_eq; assumption).
      assert (STEP : (l - pn_next E f) mod (8 * nn) = (l - f) mod (8 * nn) - 1).
      { unfold is_pnum in *. rewrite !arc_mod by assumption. rewrite NEQ. destruct (Z.eqb_spec f (8 * nn - 1)), (Z.leb_spec f l); repeat match goal with |- context [?a <=? ?b] => destruct (Z.leb_spec a b) end; lia. }
      destruct (IH (pn_next E f) l NF L ltac:(lia)) as (ND & IN & m & EM).
      assert (A : forall v, on_arc E f l v <-> v = f \/ on_arc E (pn_next E f) l v).
      { intros v. split.
        - intros A. pose proof (proj1 A) as V. destruct (Z.eq_dec v f); [left; assumption|right]. apply arc_spec; try assumption. apply arc_spec in A; try assumption. rewrite NEQ. unfold is_pnum in *. destruct (Z.eqb_spec f (8 * nn - 1)); lia.
        - intros [->|A]; [apply arc_spec; try assumption; lia|]. pose proof (proj1 A) as V. apply arc_spec in A; try assumption. apply arc_spec; try assumption. revert A. rewrite NEQ. unfold is_pnum in *. destruct (Z.eqb_spec f (8 * nn - 1)); lia. }
      split; [|split].
      * constructor; [|exact ND]. rewrite IN. intros X. apply arc_spec in X; try assumption. revert X. rewrite NEQ. unfold is_pnum in *. destruct (Z.eqb_spec f (8 * nn - 1)); lia.
      * intros v. cbn [In]. rewrite IN, A. intuition congruence.
      * exists (f :: m). rewrite EM. reflexivity.
Qed.
Lemma iter_ok f l : is_pnum E f -> is_pnum E l -> NoDup (pb_iter E (PBound false f l)) /\ (forall v, In v (pb_iter E (PBound false f l)) <-> on_arc E f l v).
Proof using W.
  intros F L. cbn [pb_iter]. destruct (walk_ok (Z.to_nat (pn_n2 E)) f l F L) as (ND & IN & _).
  - pose proof (n_pos E W). rewrite n2_eq. pose proof (Z.mod_pos_bound (l - f) (8 * nn) ltac:(lia)). lia.
  - auto.
Qed.

(** Differences. *)
Variable rnd : Q -> Z.
Hypothesis RN : rounding 11 52 rnd.
Hypothesis D : in_doubles E.
Definition same_ends (a b : Z) : Prop := a = b /\ (a = 4 * nn - 1 \/ a = 4 * nn + 1).
Lemma minus_ok a b : is_pnum E a -> is_pnum E b -> ~ same_ends a b ->
  exists r, pn_minus E rnd a b = Ret r /\ forall x y z, member E a x -> member E b y -> sum_of x (pr_opp y) z -> in_result E r z.
Proof using W RN D.
  intros A B X. pose proof (n_pos E W). destruct (neg_ok E W b Inf B) as (B' & N2 & _).
  assert (NE : pn_neg E b = if b =? 0 then 0 else 8 * nn - b) by (apply neg_eq; assumption).
  destruct (plus_ok E W rnd RN D a (pn_neg E b) A B') as (r & ER & IN).
  { intros O. apply X. unfold opposite_ends in O. rewrite NE in O. unfold same_ends, is_pnum in *. destruct (Z.eqb_spec b 0); lia. }
  exists r. split; [exact ER|]. intros x y z Mx My S. apply (IN x (pr_opp y) z Mx); [|exact S].
  apply (neg_ok E W b (pr_opp y) B). revert My. apply member_comp. destruct y as [q|]; cbn [pr_opp pr_eq]; [lra|exact I].
Qed.
End sets.
