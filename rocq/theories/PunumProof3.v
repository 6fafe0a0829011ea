(** Projective unums: sums, products and bounds. *)
From Coq Require Import ZArith QArith Qabs Bool List Lia Lqa.
From Verif Require Import Spec SpecFloat SpecPunum Punum PunumProof PunumProof2.
Import ListNotations.
Open Scope Z_scope.

Section two.
Variable E : list Q.
Hypothesis W : well_formed E.
Local Notation nn := (Z.of_nat (length E)).

(** Arcs. *)
Lemma arc_mod a b : 0 <= a < 8 * nn -> 0 <= b < 8 * nn -> (a - b) mod (8 * nn) = if b <=? a then a - b else a - b + 8 * nn.
Proof using.
  intros A B. destruct (Z.leb_spec b a).
  - apply Z.mod_small. lia.
  - apply (wrap E _ _ (-1)); lia.
Qed.
Lemma arc_inside f t l : - (4 * nn) < f -> f <= t -> t <= l -> l < 4 * nn -> on_arc E (un E f) (un E l) (un E t).
Proof using W.
  intros F T L B. pose proof (n_pos E W). pose proof (un_pnum E W f ltac:(lia)) as PF. pose proof (un_pnum E W t ltac:(lia)) as PT. pose proof (un_pnum E W l ltac:(lia)) as PL.
  split; [exact PT|]. unfold is_pnum in *. rewrite !arc_mod by assumption. unfold un in *.
  destruct (Z.ltb_spec f 0), (Z.ltb_spec t 0), (Z.ltb_spec l 0); try lia;
  repeat match goal with |- context [?a <=? ?b] => destruct (Z.leb_spec a b) end; lia.
Qed.
Lemma arc_over f t : - (4 * nn) + 1 < f -> f <= t -> t < 4 * nn -> on_arc E (un E f) (un E (- (4 * nn) + 1)) (un E t).
Proof using W.
  intros F T B. pose proof (n_pos E W). pose proof (un_pnum E W f ltac:(lia)) as PF. pose proof (un_pnum E W t ltac:(lia)) as PT. pose proof (un_pnum E W (- (4 * nn) + 1) ltac:(lia)) as PL.
  split; [exact PT|]. unfold is_pnum in *. rewrite !arc_mod by assumption. unfold un in *.
  destruct (Z.ltb_spec f 0), (Z.ltb_spec t 0), (Z.ltb_spec (- (4 * nn) + 1) 0); try lia;
  repeat match goal with |- context [?a <=? ?b] => destruct (Z.leb_spec a b) end; lia.
Qed.
Lemma arc_one v x : is_pnum E v -> in_arc E v v x <-> member E v x.
Proof using W.
  intros B. split.
  - intros (w & (Bw & L) & M). unfold is_pnum in *. rewrite Z.sub_diag, Z.mod_0_l in L by (pose proof (n_pos E W); lia). rewrite arc_mod in L by assumption.
    assert (w = v) by (destruct (Z.leb_spec v w); lia). subst w. exact M.
  - intros M. exists v. split; [|exact M]. split; [exact B|]. lia.
Qed.
Lemma everything_ok x : in_bound E (pb_everything E) x.
Proof using W.
  pose proof (n_pos E W). unfold pb_everything, pn_zero. rewrite prev_eq by (exact W || lia). cbn [Z.eqb]. split; [reflexivity|].
  destruct (partition E W x) as (v & B & M & _). exists v. split; [|exact M]. split; [exact B|]. unfold is_pnum in B. rewrite !Z.sub_0_r, !Z.mod_small by lia. lia.
Qed.

(** The ends of a cell: the points k with value pv k, or infinity at -2n and 2n. *)
Definition em (k : Z) : Z := if (k =? - (2 * nn)) || (k =? 2 * nn) then 4 * nn else un E (2 * k).
Lemma em_fin k : - (2 * nn) < k < 2 * nn -> em k = un E (2 * k).
Proof using. intros B. unfold em. destruct (Z.eqb_spec k (- (2 * nn))), (Z.eqb_spec k (2 * nn)); try lia. reflexivity. Qed.
Lemma em_top : em (2 * nn) = 4 * nn.
Proof using. unfold em. rewrite Z.eqb_refl, orb_true_r. reflexivity. Qed.
Lemma em_bottom : em (- (2 * nn)) = 4 * nn.
Proof using. unfold em. rewrite Z.eqb_refl. reflexivity. Qed.
Definition lo (t : Z) : Z := t / 2.
Definition hi (t : Z) : Z := if Z.even t then t / 2 else t / 2 + 1.
Lemma ends_un t : - (4 * nn) < t < 4 * nn -> pn_ends E (un E t) = (em (lo t), em (hi t)).
Proof using W.
  intros B. pose proof (n_pos E W). unfold pn_ends. rewrite exact_eq, even_un. unfold lo, hi. destruct (Z.even t) eqn:P.
  - apply even_half in P. rewrite em_fin by lia. rewrite <- P. reflexivity.
  - apply odd_half in P. set (k := t / 2) in *. clearbody k. subst t. rewrite prev_un, next_un by (exact W || lia). f_equal.
    + destruct (Z.eqb_spec (2 * k + 1) (- (4 * nn) + 1)).
      * replace k with (- (2 * nn)) by lia. symmetry. apply em_bottom.
      * rewrite em_fin by lia. f_equal. lia.
    + destruct (Z.eq_dec (k + 1) (2 * nn)) as [X|X].
      * rewrite X, em_top. replace (2 * k + 1 + 1) with (4 * nn) by lia. unfold un. destruct (Z.ltb_spec (4 * nn) 0); lia.
      * rewrite em_fin by lia. f_equal. lia.
Qed.
Lemma cell_ends t q : - (4 * nn) < t < 4 * nn -> cell E t q ->
  (- (2 * nn) <= lo t < 2 * nn /\ - (2 * nn) < hi t <= 2 * nn) /\
  (lo t <> - (2 * nn) -> (pv E (lo t) <= q)%Q /\ (Z.even t = false -> (pv E (lo t) < q)%Q)) /\
  (hi t <> 2 * nn -> (q <= pv E (hi t))%Q /\ (Z.even t = false -> (q < pv E (hi t))%Q)).
Proof using.
  intros B C. unfold lo, hi. destruct (Z.even t) eqn:P.
  - apply even_half in P. set (k := t / 2) in *. clearbody k. subst t. apply cell_even in C. split; [lia|]. split; intros _; (split; [lra|discriminate]).
  - apply odd_half in P. set (k := t / 2) in *. clearbody k. subst t. apply cell_odd in C. destruct C as [C1 C2]. split; [lia|].
    split; intros X; [specialize (C1 ltac:(lia))|specialize (C2 ltac:(lia))]; split; intros; lra.
Qed.
Lemma even_ends t : Z.even t = true -> lo t = hi t.
Proof using. unfold lo, hi. now intros ->. Qed.

(** Exact operations on points. *)
Variable rnd : Q -> Z.
Hypothesis RN : rounding 11 52 rnd.
Hypothesis D : in_doubles E.
Lemma point_index k : - (2 * nn) < k < 2 * nn -> exists j, 0 <= j < 4 * nn /\ point E j = Fin (pv E k).
Proof using. intros B. exists (if k <? 0 then k + 4 * nn else k). split; [destruct (Z.ltb_spec k 0); lia|]. now apply point_finite. Qed.
Lemma exactop_fin op j k : - (2 * nn) < j < 2 * nn -> - (2 * nn) < k < 2 * nn -> is_float 11 52 (op (pv E j) (pv E k)) ->
  exists t, - (4 * nn) < t < 4 * nn /\ pn_exactop E rnd op (em j) (em k) = Ret (un E t) /\ cell E t (op (pv E j) (pv E k)).
Proof using W RN.
  intros J K F. rewrite !em_fin by lia. unfold pn_exactop, pn_isinf. rewrite half_eq.
  destruct (Z.eqb_spec (un E (2 * j)) (4 * nn)) as [X|_]; [destruct (un_not_inf E (2 * j) ltac:(lia) X)|].
  destruct (Z.eqb_spec (un E (2 * k)) (4 * nn)) as [X|_]; [destruct (un_not_inf E (2 * k) ltac:(lia) X)|]. cbn [orb].
  rewrite !value_even by (exact W || lia). destruct (rn_exact _ _ _ RN _ F) as (y & Iy & Y). unfold pn_convert. rewrite Iy.
  destruct (search_ok E W y) as (t & T & -> & C). exists t. split; [exact T|]. split; [reflexivity|]. exact (cell_comp E t _ _ Y C).
Qed.
Lemma exactop_inf op a b : a = 4 * nn \/ b = 4 * nn -> pn_exactop E rnd op a b = Ret (4 * nn).
Proof using W.
  intros H. unfold pn_exactop, pn_isinf. rewrite half_eq, inf_eq by exact W. destruct H as [-> | ->]; rewrite Z.eqb_refl; [reflexivity|]. rewrite orb_true_r. reflexivity.
Qed.
Lemma sum_fin j k : - (2 * nn) < j < 2 * nn -> - (2 * nn) < k < 2 * nn ->
  exists t, - (4 * nn) < t < 4 * nn /\ pn_exactop E rnd Qplus (em j) (em k) = Ret (un E t) /\ cell E t (pv E j + pv E k).
Proof using W RN D.
  intros J K. apply exactop_fin; try assumption. destruct (point_index j J) as (j' & J' & PJ). destruct (point_index k K) as (k' & K' & PK). exact (proj1 (D j' k' _ _ J' K' PJ PK)).
Qed.
Lemma product_fin j k : - (2 * nn) < j < 2 * nn -> - (2 * nn) < k < 2 * nn ->
  exists t, - (4 * nn) < t < 4 * nn /\ pn_exactop E rnd Qmult (em j) (em k) = Ret (un E t) /\ cell E t (pv E j * pv E k).
Proof using W RN D.
  intros J K. apply exactop_fin; try assumption. destruct (point_index j J) as (j' & J' & PJ). destruct (point_index k K) as (k' & K' & PK). exact (proj2 (D j' k' _ _ J' K' PJ PK)).
Qed.

(** The closing step. *)
Lemma close_ok abe z1 z2 q :
  (z1 = 4 * nn /\ abe = false \/ exists t l, z1 = un E t /\ - (4 * nn) < t < 4 * nn /\ cell E t l /\ (l <= q)%Q /\ (abe = false -> (l < q)%Q)) ->
  (z2 = 4 * nn /\ abe = false /\ (exists t, z1 = un E t /\ 0 <= t < 4 * nn) \/
   exists t u, z2 = un E t /\ - (4 * nn) < t < 4 * nn /\ cell E t u /\ (q <= u)%Q /\ (abe = false -> (q < u)%Q)) ->
  in_bound E (pn_close E abe z1 z2) (Fin q).
Proof using W.
  intros H1 H2. pose proof (n_pos E W). destruct (search_ok E W q) as (tq & TQ & _ & CQ). unfold pn_close. rewrite !exact_eq. split; [reflexivity|].
  exists (un E tq). split; [|now apply member_un].
  assert (E4 : Z.even (4 * nn) = true) by (replace (4 * nn) with (2 * (2 * nn)) by lia; now rewrite Z.even_mul).
  assert (F : exists f, - (4 * nn) < f <= tq /\ (if negb abe && Z.even z1 then pn_next E z1 else z1) = un E f /\ (forall t, z1 = un E t -> 0 <= t < 4 * nn -> t <= f)).
  { destruct H1 as [[-> ->]|(t & l & -> & T & C & L & S)].
    - rewrite E4. cbn [negb andb]. rewrite next_inf by exact W. exists (- (4 * nn) + 1). split; [lia|]. split; [reflexivity|].
      intros t U T. symmetry in U. destruct (un_not_inf E t ltac:(lia) U).
    - rewrite even_un. destruct abe; cbn [negb andb].
      + exists t. split; [split; [lia|]; exact (cell_mono E W t tq l q T TQ C CQ L)|]. split; [reflexivity|]. intros t' U T'. apply un_inj in U; lia.
      + specialize (S eq_refl). pose proof (cell_mono E W t tq l q T TQ C CQ L) as M. destruct (Z.even t) eqn:P.
        * assert (t <> tq). { intros ->. unfold cell in C, CQ. rewrite P in C, CQ. lra. }
          rewrite next_un by (exact W || lia). exists (t + 1). split; [lia|]. split; [reflexivity|]. intros t' U T'. apply un_inj in U; lia.
        * exists t. split; [lia|]. split; [reflexivity|]. intros t' U T'. apply un_inj in U; lia. }
  destruct F as (f & FB & -> & FM). destruct H2 as [(-> & -> & t & U & T)|(t & u & -> & T & C & L & S)].
  - rewrite E4. cbn [negb andb]. rewrite next_inf by exact W. specialize (FM t U T). apply arc_over; lia.
  - rewrite even_un. pose proof (cell_mono E W tq t q u TQ T CQ C L) as M. destruct (negb abe && Z.even t) eqn:Q.
    + apply andb_true_iff in Q. destruct Q as [_ Q]. rewrite next_un by (exact W || lia). apply arc_inside; try lia.
      assert (t <> 4 * nn - 1). { intros ->. replace (4 * nn - 1) with (2 * (2 * nn - 1) + 1) in Q by lia. rewrite Z.even_add, Z.even_mul in Q. discriminate. } lia.
    + apply arc_inside; lia.
Qed.

(** Sums. *)
Lemma isinf_un t : - (4 * nn) < t < 4 * nn -> pn_isinf E (un E t) = false.
Proof using. intros T. unfold pn_isinf. rewrite half_eq. apply Z.eqb_neq. now apply un_not_inf. Qed.
Lemma isinf_inf : pn_isinf E (4 * nn) = true.
Proof using. unfold pn_isinf. rewrite half_eq. apply Z.eqb_refl. Qed.
Lemma iszero_un t : - (4 * nn) < t < 4 * nn -> pn_iszero (un E t) = (t =? 0).
Proof using. intros T. unfold pn_iszero, un. destruct (Z.ltb_spec t 0), (Z.eqb_spec t 0); try match goal with |- context [?a =? 0] => destruct (Z.eqb_spec a 0) end; try reflexivity; lia. Qed.
Lemma member_un_fin t x : - (4 * nn) < t < 4 * nn -> member E (un E t) x -> exists q, x = Fin q /\ cell E t q.
Proof using W.
  intros T M. destruct x as [q|]; [exists q; split; [reflexivity|]; now apply member_un in M|].
  apply member_inf in M; [|exact W|apply un_pnum; [exact W|lia]]. destruct (un_not_inf E t T M).
Qed.
Lemma plus_core s t : - (4 * nn) < s < 4 * nn -> - (4 * nn) < t < 4 * nn -> s <> 0 -> t <> 0 ->
  ~ (s = 4 * nn - 1 /\ t = - (4 * nn) + 1) -> ~ (t = 4 * nn - 1 /\ s = - (4 * nn) + 1) ->
  exists b, pn_plus E rnd (un E s) (un E t) = Ret (inr b) /\
    (forall x y, cell E s x -> cell E t y -> in_bound E b (Fin (x + y))) /\
    (Z.even s = true -> Z.even t = true -> exists v, b = PBound false v v /\ is_pnum E v).
Proof using W RN D.
  intros S T S0 T0 X1 X2. pose proof (n_pos E W) as N1. unfold pn_plus. rewrite !isinf_un, !iszero_un by assumption.
  destruct (Z.eqb_spec s 0); [lia|]. destruct (Z.eqb_spec t 0); [lia|]. cbn [andb orb]. rewrite !ends_un, !exact_eq, !even_un by (exact W || assumption).
  set (abe := Z.even s && Z.even t).
  assert (PS : (- (2 * nn) <= lo s < 2 * nn /\ - (2 * nn) < hi s <= 2 * nn) /\ (lo s = - (2 * nn) -> Z.even s = false /\ s = - (4 * nn) + 1) /\ (hi s = 2 * nn -> Z.even s = false /\ s = 4 * nn - 1)).
  { unfold lo, hi. destruct (Z.even s) eqn:P; [apply even_half in P|apply odd_half in P]; lia. }
  assert (PT : (- (2 * nn) <= lo t < 2 * nn /\ - (2 * nn) < hi t <= 2 * nn) /\ (lo t = - (2 * nn) -> Z.even t = false /\ t = - (4 * nn) + 1) /\ (hi t = 2 * nn -> Z.even t = false /\ t = 4 * nn - 1)).
  { unfold lo, hi. destruct (Z.even t) eqn:P; [apply even_half in P|apply odd_half in P]; lia. }
  destruct PS as (BS & S1 & S2). destruct PT as (BT & T1 & T2).
  assert (Z1 : exists z1, pn_exactop E rnd Qplus (em (lo s)) (em (lo t)) = Ret z1 /\
     ((z1 = 4 * nn /\ abe = false /\ (lo s = - (2 * nn) \/ lo t = - (2 * nn))) \/ exists r, z1 = un E r /\ - (4 * nn) < r < 4 * nn /\ cell E r (pv E (lo s) + pv E (lo t)) /\ lo s <> - (2 * nn) /\ lo t <> - (2 * nn))).
  { destruct (Z.eq_dec (lo s) (- (2 * nn))) as [H|H].
    - rewrite H, em_bottom. exists (4 * nn). split; [apply exactop_inf; auto|]. left. split; [reflexivity|]. split; [|left; reflexivity]. unfold abe. destruct (S1 H) as [-> _]. reflexivity.
    - destruct (Z.eq_dec (lo t) (- (2 * nn))) as [H'|H'].
      + rewrite H', em_bottom. exists (4 * nn). split; [apply exactop_inf; auto|]. left. split; [reflexivity|]. split; [|right; reflexivity]. unfold abe. destruct (T1 H') as [-> _]. apply andb_false_r.
      + destruct (sum_fin (lo s) (lo t) ltac:(lia) ltac:(lia)) as (r & R & -> & C). exists (un E r). split; [reflexivity|]. right. exists r. auto. }
  assert (Z2 : exists z2, pn_exactop E rnd Qplus (em (hi s)) (em (hi t)) = Ret z2 /\
     ((z2 = 4 * nn /\ abe = false /\ (hi s = 2 * nn \/ hi t = 2 * nn)) \/ exists r, z2 = un E r /\ - (4 * nn) < r < 4 * nn /\ cell E r (pv E (hi s) + pv E (hi t)) /\ hi s <> 2 * nn /\ hi t <> 2 * nn)).
  { destruct (Z.eq_dec (hi s) (2 * nn)) as [H|H].
    - rewrite H, em_top. exists (4 * nn). split; [apply exactop_inf; auto|]. left. split; [reflexivity|]. split; [|left; reflexivity]. unfold abe. destruct (S2 H) as [-> _]. reflexivity.
    - destruct (Z.eq_dec (hi t) (2 * nn)) as [H'|H'].
      + rewrite H', em_top. exists (4 * nn). split; [apply exactop_inf; auto|]. left. split; [reflexivity|]. split; [|right; reflexivity]. unfold abe. destruct (T2 H') as [-> _]. apply andb_false_r.
      + destruct (sum_fin (hi s) (hi t) ltac:(lia) ltac:(lia)) as (r & R & -> & C). exists (un E r). split; [reflexivity|]. right. exists r. auto. }
  destruct Z1 as (z1 & E1 & Z1). destruct Z2 as (z2 & E2 & Z2). rewrite E1, E2. cbn [pbind]. exists (pn_close E abe z1 z2). split; [reflexivity|]. split.
  - intros x y Cx Cy. destruct (cell_ends s x S Cx) as (_ & Lx & Ux). destruct (cell_ends t y T Cy) as (_ & Ly & Uy).
    assert (STR : abe = false -> Z.even s = false \/ Z.even t = false) by (unfold abe; destruct (Z.even s), (Z.even t); auto).
    apply close_ok.
    + destruct Z1 as [(-> & A & _)|(r & -> & R & C & H1 & H2)]; [left; auto|right]. specialize (Lx H1). specialize (Ly H2). exists r, (pv E (lo s) + pv E (lo t))%Q.
      split; [reflexivity|]. split; [exact R|]. split; [exact C|]. split; [lra|]. intros A. destruct (STR A) as [Y|Y]; [pose proof (proj2 Lx Y)|pose proof (proj2 Ly Y)]; lra.
    + destruct Z2 as [(-> & A & H)|(r & -> & R & C & H1 & H2)].
      * left. split; [reflexivity|]. split; [exact A|]. destruct Z1 as [(_ & _ & H')|(r & -> & R & C & H1 & H2)].
        -- exfalso. destruct H as [H|H], H' as [H'|H']; [apply S2 in H; apply S1 in H'|apply S2 in H; apply T1 in H'|apply T2 in H; apply S1 in H'|apply T2 in H; apply T1 in H']; lia.
        -- exists r. split; [reflexivity|]. split; [|lia].
           assert (G : (0 <= pv E (lo s) + pv E (lo t))%Q).
           { assert (TOP : forall u w, hi u = 2 * nn -> u = 4 * nn - 1 -> - (2 * nn) < lo w < 2 * nn -> (0 <= pv E (lo u) + pv E (lo w))%Q).
             { intros u w _ -> Bw. assert (LU : lo (4 * nn - 1) = 2 * nn - 1).
               { unfold lo. replace (4 * nn - 1) with (1 + (2 * nn - 1) * 2) by lia. rewrite Z.div_add by lia. change (1 / 2) with 0. lia. }
               rewrite LU. pose proof (pv_le E W (- (2 * nn - 1)) (lo w) ltac:(lia) ltac:(lia) ltac:(lia)) as PL. rewrite pv_opp in PL. lra. }
             destruct H as [H|H]; [pose proof (TOP s t H (proj2 (S2 H)) ltac:(lia))|pose proof (TOP t s H (proj2 (T2 H)) ltac:(lia))]; lra. }
           destruct (Z_lt_le_dec r 0) as [NEG|]; [|lia]. pose proof (proj2 (cell_sign E W r _ R C) NEG). lra.
      * right. specialize (Ux H1). specialize (Uy H2). exists r, (pv E (hi s) + pv E (hi t))%Q.
        split; [reflexivity|]. split; [exact R|]. split; [exact C|]. split; [lra|]. intros A. destruct (STR A) as [Y|Y]; [pose proof (proj2 Ux Y)|pose proof (proj2 Uy Y)]; lra.
  - intros P P'. assert (A : abe = true) by (unfold abe; now rewrite P, P'). rewrite (even_ends s P), (even_ends t P') in E1. rewrite E1 in E2. injection E2 as <-.
    rewrite A. unfold pn_close. cbn [negb andb]. exists z1. split; [reflexivity|]. destruct Z1 as [(_ & A' & _)|(r & -> & R & _)]; [congruence|]. apply un_pnum; [exact W|lia].
Qed.

Definition opposite_ends (a b : Z) : Prop := a = 4 * nn - 1 /\ b = 4 * nn + 1 \/ a = 4 * nn + 1 /\ b = 4 * nn - 1.
Lemma plus_ok a b : is_pnum E a -> is_pnum E b -> ~ opposite_ends a b ->
  exists r, pn_plus E rnd a b = Ret r /\ forall x y z, member E a x -> member E b y -> sum_of x y z -> in_result E r z.
Proof using W RN D.
  intros A B X. pose proof (n_pos E W) as N1. destruct (pnum_cases E a A) as [->|(s & S & ->)], (pnum_cases E b B) as [->|(t & T & ->)].
  - exists (inr (pb_everything E)). unfold pn_plus. rewrite isinf_inf. split; [reflexivity|]. intros x y z _ _ _. apply everything_ok.
  - exists (inr (pb_one_of (pn_inf E))). unfold pn_plus. rewrite isinf_inf, isinf_un by exact T. split; [reflexivity|]. intros x y z Mx My SZ.
    apply inf_member_only in Mx; [|exact W]. subst x. destruct (member_un_fin t y T My) as (q & -> & _). cbn [sum_of] in SZ. subst z.
    split; [reflexivity|]. apply arc_one; apply inf_member; exact W.
  - exists (inr (pb_one_of (pn_inf E))). unfold pn_plus. rewrite isinf_inf, isinf_un by exact S. split; [reflexivity|]. intros x y z Mx My SZ.
    apply inf_member_only in My; [|exact W]. subst y. destruct (member_un_fin s x S Mx) as (q & -> & _). cbn [sum_of] in SZ. subst z.
    split; [reflexivity|]. apply arc_one; apply inf_member; exact W.
  - destruct (Z.eq_dec s 0) as [->|S0]; [|destruct (Z.eq_dec t 0) as [->|T0]].
    + exists (inl (un E t)). unfold pn_plus. rewrite !isinf_un, iszero_un by assumption. split; [reflexivity|]. intros x y z Mx My SZ. cbn [in_result].
      destruct (member_un_fin 0 x S Mx) as (p & -> & P). destruct (member_un_fin t y T My) as (q & -> & Q). apply cell_zero in P. cbn [sum_of] in SZ.
      revert My. apply member_comp. destruct z as [r|]; [|contradiction]. cbn [pr_eq] in *. lra.
    + exists (inl (un E s)). unfold pn_plus. rewrite !isinf_un, !iszero_un by assumption. destruct (Z.eqb_spec s 0); [lia|]. split; [reflexivity|]. intros x y z Mx My SZ. cbn [in_result].
      destruct (member_un_fin s x S Mx) as (p & -> & P). destruct (member_un_fin 0 y T My) as (q & -> & Q). apply cell_zero in Q. cbn [sum_of] in SZ.
      revert Mx. apply member_comp. destruct z as [r|]; [|contradiction]. cbn [pr_eq] in *. lra.
    + assert (U1 : un E (4 * nn - 1) = 4 * nn - 1) by (unfold un; destruct (Z.ltb_spec (4 * nn - 1) 0); lia).
      assert (U2 : un E (- (4 * nn) + 1) = 4 * nn + 1) by (unfold un; destruct (Z.ltb_spec (- (4 * nn) + 1) 0); lia).
      destruct (plus_core s t S T S0 T0) as (bd & EB & IN & _).
      { intros [-> ->]. apply X. left. auto. }
      { intros [-> ->]. apply X. right. auto. }
      exists (inr bd). split; [exact EB|]. intros x y z Mx My SZ. destruct (member_un_fin s x S Mx) as (p & -> & P). destruct (member_un_fin t y T My) as (q & -> & Q).
      cbn [sum_of] in SZ. destruct z as [r|]; [|contradiction]. cbn [pr_eq] in SZ. specialize (IN p q P Q). cbn [in_result]. destruct bd as [e f l]. destruct IN as (EE & v & AV & MV).
      split; [exact EE|]. exists v. split; [exact AV|]. revert MV. apply member_comp. cbn [pr_eq]. lra.
Qed.
Lemma plus_exact a b p q : is_pnum E a -> is_pnum E b -> pn_isexact a = true -> pn_isexact b = true -> member E a (Fin p) -> member E b (Fin q) ->
  exists v, (pn_plus E rnd a b = Ret (inl v) \/ pn_plus E rnd a b = Ret (inr (PBound false v v))) /\ is_pnum E v /\ member E v (Fin (p + q)).
Proof using W RN D.
  intros A B XA XB MA MB. rewrite exact_eq in XA, XB.
  destruct (pnum_cases E a A) as [->|(s & S & ->)]; [apply inf_member_only in MA; [discriminate|exact W]|].
  destruct (pnum_cases E b B) as [->|(t & T & ->)]; [apply inf_member_only in MB; [discriminate|exact W]|]. rewrite even_un in XA, XB.
  assert (OE : ~ opposite_ends (un E s) (un E t)).
  { intros H. assert (O : forall k, Z.even (4 * k - 1) = false /\ Z.even (4 * k + 1) = false).
    { intros k. split; [replace (4 * k - 1) with (2 * (2 * k - 1) + 1) by lia|replace (4 * k + 1) with (2 * (2 * k) + 1) by lia]; now rewrite Z.even_add, Z.even_mul. }
    rewrite <- (even_un E) in XA. destruct H as [[H _]|[H _]]; rewrite H in XA; destruct (O nn); congruence. }
  destruct (plus_ok _ _ A B OE) as (r & ER & IN). specialize (IN (Fin p) (Fin q) (Fin (p + q)) MA MB (Qeq_refl _)).
  destruct (Z.eq_dec s 0) as [->|S0]; [|destruct (Z.eq_dec t 0) as [->|T0]].
  - exists (un E t). unfold pn_plus in *. rewrite !isinf_un, iszero_un in * by assumption. injection ER as <-. auto.
  - exists (un E s). unfold pn_plus in *. rewrite !isinf_un, !iszero_un in * by assumption. destruct (Z.eqb_spec s 0); [lia|]. injection ER as <-. auto.
  - destruct (plus_core s t S T S0 T0) as (bd & EB & _ & EX).
    { intros [-> ->]. rewrite (proj2 (Z.negb_even _)) in XA || idtac. replace (4 * nn - 1) with (2 * (2 * nn - 1) + 1) in XA by lia. rewrite Z.even_add, Z.even_mul in XA. discriminate XA. }
    { intros [-> ->]. replace (4 * nn - 1) with (2 * (2 * nn - 1) + 1) in XB by lia. rewrite Z.even_add, Z.even_mul in XB. discriminate XB. }
    destruct (EX XA XB) as (v & -> & BV). rewrite EB in ER. injection ER as <-. exists v. split; [auto|]. split; [exact BV|]. destruct IN as [_ IN]. apply arc_one in IN; assumption.
Qed.

(** Products. *)
Lemma mul_low a b x y : (0 <= a)%Q -> (0 <= b)%Q -> (a <= x)%Q -> (b <= y)%Q -> (0 < x)%Q -> (0 < y)%Q -> (a * b <= x * y)%Q /\ ((a < x)%Q \/ (b < y)%Q -> (a * b < x * y)%Q).
Proof using. intros. split; [nra|]. intros [H'|H']; nra. Qed.
Lemma isneg_un t : - (4 * nn) < t < 4 * nn -> pn_isstrictlynegative E (un E t) = (t <? 0).
Proof using.
  intros T. unfold pn_isstrictlynegative, un. rewrite half_eq. destruct (Z.ltb_spec t 0); match goal with |- context [?a <? ?b] => destruct (Z.ltb_spec a b) end; lia.
Qed.
Lemma times_exact_core s t : - (4 * nn) < s < 4 * nn -> - (4 * nn) < t < 4 * nn -> s <> 0 -> t <> 0 -> Z.even s = true -> Z.even t = true ->
  exists r, pn_times E rnd (un E s) (un E t) = Ret (PBound false (un E r) (un E r)) /\ - (4 * nn) < r < 4 * nn /\ cell E r (pv E (lo s) * pv E (lo t)).
Proof using W RN D.
  intros S T S0 T0 PS PT. unfold pn_times. rewrite !isinf_un, !iszero_un, !isneg_un by assumption. destruct (Z.eqb_spec s 0); [lia|]. destruct (Z.eqb_spec t 0); [lia|]. cbn [andb orb].
  rewrite !ends_un, !exact_eq, !even_un, PS, PT, <- (even_ends s PS), <- (even_ends t PT) by (exact W || assumption).
  assert (BS : - (2 * nn) < lo s < 2 * nn) by (unfold lo; apply even_half in PS; lia). assert (BT : - (2 * nn) < lo t < 2 * nn) by (unfold lo; apply even_half in PT; lia).
  destruct (product_fin (lo s) (lo t) BS BT) as (r & R & ER & C). exists r. split; [|auto].
  destruct (s <? 0), (t <? 0); rewrite !ER; reflexivity.
Qed.
Lemma times_same_core s t : - (4 * nn) < s < 4 * nn -> - (4 * nn) < t < 4 * nn -> 0 < s /\ 0 < t \/ s < 0 /\ t < 0 ->
  exists b, pn_times E rnd (un E s) (un E t) = Ret b /\ forall x y, cell E s x -> cell E t y -> in_bound E b (Fin (x * y)).
Proof using W RN D.
  intros S T SG. pose proof (n_pos E W) as N1. unfold pn_times. rewrite !isinf_un, !iszero_un, !isneg_un by assumption.
  destruct (Z.eqb_spec s 0); [lia|]. destruct (Z.eqb_spec t 0); [lia|]. cbn [andb orb]. rewrite !ends_un, !exact_eq, !even_un by (exact W || assumption).
  set (abe := Z.even s && Z.even t).
  assert (STR : abe = false -> Z.even s = false \/ Z.even t = false) by (unfold abe; destruct (Z.even s), (Z.even t); auto).
  assert (PS : (- (2 * nn) <= lo s < 2 * nn /\ - (2 * nn) < hi s <= 2 * nn) /\ (lo s = - (2 * nn) -> Z.even s = false) /\ (hi s = 2 * nn -> Z.even s = false) /\ (0 < s -> 0 <= lo s /\ 0 < hi s) /\ (s < 0 -> lo s < 0 /\ hi s <= 0)).
  { unfold lo, hi. destruct (Z.even s) eqn:P; [apply even_half in P|apply odd_half in P]; repeat split; intros; try reflexivity; lia. }
  assert (PT : (- (2 * nn) <= lo t < 2 * nn /\ - (2 * nn) < hi t <= 2 * nn) /\ (lo t = - (2 * nn) -> Z.even t = false) /\ (hi t = 2 * nn -> Z.even t = false) /\ (0 < t -> 0 <= lo t /\ 0 < hi t) /\ (t < 0 -> lo t < 0 /\ hi t <= 0)).
  { unfold lo, hi. destruct (Z.even t) eqn:P; [apply even_half in P|apply odd_half in P]; repeat split; intros; try reflexivity; lia. }
  destruct PS as (BS & S1 & S2 & S3 & S4). destruct PT as (BT & T1 & T2 & T3 & T4).
  assert (NN : forall k, 0 <= k < 2 * nn -> (0 <= pv E k)%Q). { intros k K. rewrite <- (pv_0 E). apply (pv_le E W); lia. }
  assert (NP : forall k, - (2 * nn) < k <= 0 -> (pv E k <= 0)%Q). { intros k K. rewrite <- (pv_0 E). apply (pv_le E W); lia. }
  destruct SG as [[SP TP]|[SN TN]].
  - destruct (Z.ltb_spec s 0); [lia|]. destruct (Z.ltb_spec t 0); [lia|]. specialize (S3 SP). specialize (T3 TP).
    destruct (product_fin (lo s) (lo t) ltac:(lia) ltac:(lia)) as (r & R & ER & C). rewrite ER. cbn [pbind].
    assert (R0 : 0 <= r). { destruct (Z_lt_le_dec r 0) as [NEG|]; [|assumption]. pose proof (proj2 (cell_sign E W r _ R C) NEG). pose proof (NN (lo s) ltac:(lia)). pose proof (NN (lo t) ltac:(lia)). nra. }
    assert (Z2 : exists z2, pn_exactop E rnd Qmult (em (hi s)) (em (hi t)) = Ret z2 /\
      ((z2 = 4 * nn /\ abe = false) \/ exists u, z2 = un E u /\ - (4 * nn) < u < 4 * nn /\ cell E u (pv E (hi s) * pv E (hi t)) /\ hi s <> 2 * nn /\ hi t <> 2 * nn)).
    { destruct (Z.eq_dec (hi s) (2 * nn)) as [H'|H']; [|destruct (Z.eq_dec (hi t) (2 * nn)) as [H''|H'']].
      - rewrite H', em_top. exists (4 * nn). split; [apply exactop_inf; auto|]. left. split; [reflexivity|]. unfold abe. rewrite (S2 H'). reflexivity.
      - rewrite H'', em_top. exists (4 * nn). split; [apply exactop_inf; auto|]. left. split; [reflexivity|]. unfold abe. rewrite (T2 H''). apply andb_false_r.
      - destruct (product_fin (hi s) (hi t) ltac:(lia) ltac:(lia)) as (u & U & -> & CU). exists (un E u). split; [reflexivity|]. right. exists u. auto. }
    destruct Z2 as (z2 & -> & Z2). cbn [pbind]. eexists. split; [reflexivity|]. intros x y Cx Cy.
    destruct (cell_ends s x S Cx) as (_ & Lx & Ux). destruct (cell_ends t y T Cy) as (_ & Ly & Uy). specialize (Lx ltac:(lia)). specialize (Ly ltac:(lia)).
    pose proof (proj1 (cell_sign E W s x S Cx) SP) as XP. pose proof (proj1 (cell_sign E W t y T Cy) TP) as YP. pose proof (NN (lo s) ltac:(lia)). pose proof (NN (lo t) ltac:(lia)).
    apply close_ok.
    + right. exists r, (pv E (lo s) * pv E (lo t))%Q. split; [reflexivity|]. split; [exact R|]. split; [exact C|].
      destruct (mul_low (pv E (lo s)) (pv E (lo t)) x y) as [M1 M2]; [tauto..|]. split; [exact M1|]. intros A. apply M2. destruct (STR A) as [Y|Y]; [left; now apply Lx|right; now apply Ly].
    + destruct Z2 as [[-> A]|(u & -> & U & CU & G1 & G2)]; [left|right].
      * split; [reflexivity|]. split; [exact A|]. exists r. split; [reflexivity|lia].
      * specialize (Ux G1). specialize (Uy G2). exists u, (pv E (hi s) * pv E (hi t))%Q. split; [reflexivity|]. split; [exact U|]. split; [exact CU|].
        destruct (mul_low x y (pv E (hi s)) (pv E (hi t))) as [M1 M2]; [lra..|]. split; [exact M1|]. intros A. apply M2. destruct (STR A) as [Y|Y]; [left; now apply Ux|right; now apply Uy].
  - destruct (Z.ltb_spec s 0); [|lia]. destruct (Z.ltb_spec t 0); [|lia]. specialize (S4 SN). specialize (T4 TN).
    destruct (product_fin (hi s) (hi t) ltac:(lia) ltac:(lia)) as (r & R & ER & C). rewrite ER. cbn [pbind].
    assert (R0 : 0 <= r). { destruct (Z_lt_le_dec r 0) as [NEG|]; [|assumption]. pose proof (proj2 (cell_sign E W r _ R C) NEG). pose proof (NP (hi s) ltac:(lia)). pose proof (NP (hi t) ltac:(lia)). nra. }
    assert (Z2 : exists z2, pn_exactop E rnd Qmult (em (lo s)) (em (lo t)) = Ret z2 /\
      ((z2 = 4 * nn /\ abe = false) \/ exists u, z2 = un E u /\ - (4 * nn) < u < 4 * nn /\ cell E u (pv E (lo s) * pv E (lo t)) /\ lo s <> - (2 * nn) /\ lo t <> - (2 * nn))).
    { destruct (Z.eq_dec (lo s) (- (2 * nn))) as [H'|H']; [|destruct (Z.eq_dec (lo t) (- (2 * nn))) as [H''|H'']].
      - rewrite H', em_bottom. exists (4 * nn). split; [apply exactop_inf; auto|]. left. split; [reflexivity|]. unfold abe. rewrite (S1 H'). reflexivity.
      - rewrite H'', em_bottom. exists (4 * nn). split; [apply exactop_inf; auto|]. left. split; [reflexivity|]. unfold abe. rewrite (T1 H''). apply andb_false_r.
      - destruct (product_fin (lo s) (lo t) ltac:(lia) ltac:(lia)) as (u & U & -> & CU). exists (un E u). split; [reflexivity|]. right. exists u. auto. }
    destruct Z2 as (z2 & -> & Z2). cbn [pbind]. eexists. split; [reflexivity|]. intros x y Cx Cy.
    destruct (cell_ends s x S Cx) as (_ & Lx & Ux). destruct (cell_ends t y T Cy) as (_ & Ly & Uy). specialize (Ux ltac:(lia)). specialize (Uy ltac:(lia)).
    pose proof (proj2 (cell_sign E W s x S Cx) SN) as XN. pose proof (proj2 (cell_sign E W t y T Cy) TN) as YN. pose proof (NP (hi s) ltac:(lia)). pose proof (NP (hi t) ltac:(lia)).
    apply close_ok.
    + right. exists r, (pv E (hi s) * pv E (hi t))%Q. split; [reflexivity|]. split; [exact R|]. split; [exact C|].
      destruct (mul_low (- pv E (hi s)) (- pv E (hi t)) (- x) (- y)) as [M1 M2]; [lra..|]. destruct Ux as [U1 U2]. destruct Uy as [U3 U4].
      split; [lra|]. intros A. assert (M3 : (- pv E (hi s) * - pv E (hi t) < - x * - y)%Q). { apply M2. destruct (STR A) as [Y|Y]; [left; specialize (U2 Y)|right; specialize (U4 Y)]; lra. } lra.
    + destruct Z2 as [[-> A]|(u & -> & U & CU & G1 & G2)]; [left|right].
      * split; [reflexivity|]. split; [exact A|]. exists r. split; [reflexivity|lia].
      * specialize (Lx G1). specialize (Ly G2). exists u, (pv E (lo s) * pv E (lo t))%Q. split; [reflexivity|]. split; [exact U|]. split; [exact CU|].
        destruct Lx as [U1 U2]. destruct Ly as [U3 U4]. destruct (mul_low (- x) (- y) (- pv E (lo s)) (- pv E (lo t))) as [M1 M2]; [lra..|].
        split; [lra|]. intros A. assert (M3 : (- x * - y < - pv E (lo s) * - pv E (lo t))%Q). { apply M2. destruct (STR A) as [Y|Y]; [left; specialize (U2 Y)|right; specialize (U4 Y)]; lra. } lra.
Qed.
Lemma bound_comp b x y : pr_eq x y -> in_bound E b x -> in_bound E b y.
Proof using. intros H. destruct b as [e f l]. intros (EE & v & A & M). split; [exact EE|]. exists v. split; [exact A|]. exact (member_comp E v x y H M). Qed.

(** Both exact, or of the same sign, or one of them 0 or infinite. *)
Definition easy_product (a b : Z) : Prop :=
  pn_isexact a = true /\ pn_isexact b = true \/ (a < 4 * nn <-> b < 4 * nn) \/ a = 0 \/ b = 0 \/ a = 4 * nn \/ b = 4 * nn.
Lemma times_ok a b : is_pnum E a -> is_pnum E b -> easy_product a b ->
  exists r, pn_times E rnd a b = Ret r /\ forall x y z, member E a x -> member E b y -> product_of x y z -> in_bound E r z.
Proof using W RN D.
  intros A B X. pose proof (n_pos E W) as N1.
  assert (INF : in_bound E (pb_one_of (pn_inf E)) Inf) by (split; [reflexivity|]; apply arc_one; apply inf_member; exact W).
  assert (ZERO : in_bound E (pb_one_of pn_zero) (Fin 0)).
  { split; [reflexivity|]. apply arc_one; [unfold is_pnum, pn_zero; lia|]. apply zero_member; [exact W|]. reflexivity. }
  destruct (pnum_cases E a A) as [->|(s & S & ->)], (pnum_cases E b B) as [->|(t & T & ->)].
  - unfold pn_times. rewrite !isinf_inf. assert (Z0 : pn_iszero (4 * nn) = false) by (unfold pn_iszero; apply Z.eqb_neq; lia). rewrite !Z0. cbn [andb orb].
    eexists. split; [reflexivity|]. intros x y z Mx My P. apply inf_member_only in Mx; [|exact W]. apply inf_member_only in My; [|exact W]. subst. cbn [product_of] in P. subst z. exact INF.
  - unfold pn_times. rewrite isinf_inf, isinf_un, iszero_un by exact T. assert (Z0 : pn_iszero (4 * nn) = false) by (unfold pn_iszero; apply Z.eqb_neq; lia). rewrite !Z0. cbn [andb orb].
    destruct (Z.eqb_spec t 0) as [->|T0]; cbn [orb]; eexists; (split; [reflexivity|]); intros x y z Mx My P; [apply everything_ok|].
    apply inf_member_only in Mx; [|exact W]. subst x. destruct (member_un_fin t y T My) as (q & -> & C). cbn [product_of] in P. destruct P as [P| ->]; [|exact INF].
    exfalso. apply T0. apply (cell_unique E W t 0 q); try lia; [exact C|]. apply (cell_even E 0). exact P.
  - unfold pn_times. rewrite isinf_inf, isinf_un, iszero_un by exact S. assert (Z0 : pn_iszero (4 * nn) = false) by (unfold pn_iszero; apply Z.eqb_neq; lia). rewrite !Z0. cbn [andb orb].
    destruct (Z.eqb_spec s 0) as [->|S0]; cbn [orb andb]; eexists; (split; [reflexivity|]); intros x y z Mx My P; [apply everything_ok|].
    apply inf_member_only in My; [|exact W]. subst y. destruct (member_un_fin s x S Mx) as (q & -> & C). cbn [product_of] in P. destruct P as [P| ->]; [|exact INF].
    exfalso. apply S0. apply (cell_unique E W s 0 q); try lia; [exact C|]. apply (cell_even E 0). exact P.
  - destruct (Z.eq_dec s 0) as [->|S0]; [|destruct (Z.eq_dec t 0) as [->|T0]].
    + unfold pn_times. rewrite !isinf_un, !iszero_un by assumption. cbn [andb orb Z.eqb]. eexists. split; [reflexivity|]. intros x y z Mx My P.
      destruct (member_un_fin 0 x S Mx) as (p & -> & C). apply cell_zero in C. destruct (member_un_fin t y T My) as (q & -> & _). cbn [product_of] in P.
      destruct z as [r|]; [|contradiction]. cbn [pr_eq] in P. apply (bound_comp _ (Fin 0)); [|exact ZERO]. cbn [pr_eq]. rewrite P, C. ring.
    + unfold pn_times. rewrite !isinf_un, !iszero_un by assumption. destruct (Z.eqb_spec s 0); [lia|]. cbn [andb orb Z.eqb]. eexists. split; [reflexivity|]. intros x y z Mx My P.
      destruct (member_un_fin s x S Mx) as (p & -> & _). destruct (member_un_fin 0 y T My) as (q & -> & C). apply cell_zero in C. cbn [product_of] in P.
      destruct z as [r|]; [|contradiction]. cbn [pr_eq] in P. apply (bound_comp _ (Fin 0)); [|exact ZERO]. cbn [pr_eq]. rewrite P, C. ring.
    + assert (G : exists bd, pn_times E rnd (un E s) (un E t) = Ret bd /\ forall x y, cell E s x -> cell E t y -> in_bound E bd (Fin (x * y))).
      { destruct X as [[X1 X2]|[X|X]].
        - rewrite exact_eq, even_un in X1, X2. destruct (times_exact_core s t S T S0 T0 X1 X2) as (r & ER & R & C). eexists. split; [exact ER|]. intros x y Cx Cy.
          split; [reflexivity|]. apply arc_one; [apply un_pnum; [exact W|lia]|]. apply member_un; [exact W|exact R|].
          assert (Ex : (x == pv E (lo s))%Q) by (unfold cell in Cx; rewrite X1 in Cx; exact Cx). assert (Ey : (y == pv E (lo t))%Q) by (unfold cell in Cy; rewrite X2 in Cy; exact Cy).
          apply (cell_comp E _ (pv E (lo s) * pv E (lo t))); [|exact C]. rewrite Ex, Ey. reflexivity.
        - apply times_same_core; try assumption. unfold un in X. destruct (Z.ltb_spec s 0), (Z.ltb_spec t 0); lia.
        - exfalso. unfold un in X. destruct (Z.ltb_spec s 0), (Z.ltb_spec t 0); lia. }
      destruct G as (bd & EB & IN). exists bd. split; [exact EB|]. intros x y z Mx My P. destruct (member_un_fin s x S Mx) as (p & -> & Cp). destruct (member_un_fin t y T My) as (q & -> & Cq).
      cbn [product_of] in P. destruct z as [r|]; [|contradiction]. apply (bound_comp _ (Fin (p * q))); [cbn [pr_eq] in *; lra|]. now apply IN.
Qed.
Lemma times_exact a b p q : is_pnum E a -> is_pnum E b -> pn_isexact a = true -> pn_isexact b = true -> member E a (Fin p) -> member E b (Fin q) ->
  exists v, pn_times E rnd a b = Ret (PBound false v v) /\ is_pnum E v /\ member E v (Fin (p * q)).
Proof using W RN D.
  intros A B XA XB MA MB. destruct (times_ok a b A B) as (r & ER & IN); [left; auto|]. specialize (IN _ _ (Fin (p * q)) MA MB (Qeq_refl _)).
  rewrite exact_eq in XA, XB.
  destruct (pnum_cases E a A) as [->|(s & S & ->)]; [apply inf_member_only in MA; [discriminate|exact W]|].
  destruct (pnum_cases E b B) as [->|(t & T & ->)]; [apply inf_member_only in MB; [discriminate|exact W]|]. rewrite even_un in XA, XB.
  assert (ONE : exists v, r = PBound false v v /\ is_pnum E v).
  { destruct (Z.eq_dec s 0) as [->|S0]; [|destruct (Z.eq_dec t 0) as [->|T0]].
    - unfold pn_times in ER. rewrite !isinf_un, !iszero_un in ER by assumption. cbn [andb orb Z.eqb] in ER. injection ER as <-. exists 0. split; [reflexivity|]. pose proof (n_pos E W). unfold is_pnum. lia.
    - unfold pn_times in ER. rewrite !isinf_un, !iszero_un in ER by assumption. destruct (Z.eqb_spec s 0); [lia|]. cbn [andb orb Z.eqb] in ER. injection ER as <-. exists 0. split; [reflexivity|]. pose proof (n_pos E W). unfold is_pnum. lia.
    - destruct (times_exact_core s t S T S0 T0 XA XB) as (u & EU & U & _). rewrite EU in ER. injection ER as <-. exists (un E u). split; [reflexivity|]. apply un_pnum; [exact W|lia]. }
  destruct ONE as (v & -> & BV). exists v. split; [exact ER|]. split; [exact BV|]. destruct IN as [_ IN]. now apply arc_one in IN.
Qed.
End two.
