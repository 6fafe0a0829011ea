(** The table loaded from the listing: the statements. *)
From Coq Require Import ZArith QArith Qabs Bool List String Ascii Sorted Lia Lqa.
From Verif Require Import Res CInt Traits Unpacked Cfg Spec SpecFloat SpecAny Posit FloatOps AnyFloat Asimd Soft ListP Dump SpecDump QPow Core Arith SpecLemmas DecodeProof EncodeProof UOps UAdd Ops
  Final1 Final4 Conv1 Conv5 Specials FloatProof PositFProof PositFProof2 AnyProof AnyProof2 AnyProof3 SoftProof ListProof DumpProof DumpProof2 DumpProof3 DumpProof4.
Import ListNotations.
Open Scope Z_scope.

Lemma forall2_map {A B} (P : A -> B -> Prop) (f : A -> B) l : (forall x, In x l -> P x (f x)) -> Forall2 P l (map f l).
Proof. induction l as [|x l IH]; intros H; cbn [map]; constructor; [apply H; now left|]. apply IH. intros y Y. apply H. now right. Qed.
Lemma forall2_maps {A B C} (P : B -> C -> Prop) (f : A -> B) (g : A -> C) l : (forall x, In x l -> P (f x) (g x)) -> Forall2 P (map f l) (map g l).
Proof. induction l as [|x l IH]; intros H; cbn [map]; constructor; [apply H; now left|]. apply IH. intros y Y. apply H. now right. Qed.
Lemma inject_eq a b : (inject_Z a == inject_Z b)%Q <-> a = b.
Proof. unfold Qeq. cbn [inject_Z Qnum Qden]. lia. Qed.

Section r.
Context (rnd : Q -> Z) (pw : Z -> Z) (c : cfg).
Hypothesis RN : rounding 11 52 rnd.
Hypothesis V : valid_cfg c.
Hypothesis FF : frac_fits c.
Hypothesis FC : float_covers c 11 52.
Hypothesis N54 : cN c <= 54.
Notation third := (third c).
Notation columns := (columns rnd c).

Lemma third_is v : real c v -> is_double (third v) (value c v).
Proof using V FF FC. intros R. exact (proj2 (third_ok c V FF FC v R)). Qed.
Lemma first_is v : real c v -> is_double (rnd (inject_Z v)) (inject_Z v).
Proof using RN V N54. intros R. apply int_is; [exact RN|]. exact (proj1 (real_small c V N54 v R)). Qed.
Lemma second_is v : real c v -> is_double (rnd (inject_Z (second c v))) (inject_Z (second c v)).
Proof using RN V N54. intros R. apply int_is; [exact RN|]. exact (proj2 (real_small c V N54 v R)). Qed.
Lemma mb : 2 <= maxreal c < 2 ^ (cN c - 1).
Proof using V. pose proof (pow_ge4 c V). unfold maxreal. destruct (csp c); lia. Qed.
Lemma posits_len : List.length (posits c) = S (Z.to_nat (2 * maxreal c)).
Proof using. apply zup_len. Qed.
Lemma posits_nth v : real c v -> nth_error (posits c) (Z.to_nat (v + maxreal c)) = Some v.
Proof using V. pose proof mb. unfold real, posits. intros R. rewrite zup_nth by lia. f_equal. lia. Qed.
Lemma nth_posits i v : nth_error (posits c) i = Some v -> real c v /\ i = Z.to_nat (v + maxreal c).
Proof using V.
  pose proof mb. intros H0. assert (L : (i < List.length (posits c))%nat) by (apply nth_error_Some; congruence). rewrite posits_len in L.
  unfold posits in H0. rewrite zup_nth in H0 by exact L. injection H0 as <-. unfold real. lia.
Qed.

Lemma columns_rect : rectangular columns.
Proof using. unfold rectangular, DumpProof.columns. cbn [t_signed t_unsigned t_float t_res]. rewrite meandiff_len, !map_length. auto. Qed.
Lemma float_dbl d : In d (t_float columns) -> exists v, real c v /\ is_double d (value c v) /\ d = third v.
Proof using V FF FC. cbn [DumpProof.columns t_float]. intros D. apply in_map_iff in D. destruct D as (v & <- & D). apply (posits_real c v V) in D. exists v. split; [exact D|]. split; [apply third_is; exact D|reflexivity]. Qed.
Lemma third_in v : real c v -> In (third v) (t_float columns).
Proof using V. intros R. cbn [DumpProof.columns t_float]. apply in_map. apply (posits_real c v V). exact R. Qed.

Lemma describes : exists s, describetab columns = Some s.
Proof using RN V FF FC.
  pose proof mb as M. assert (R1 : real c 1) by (unfold real; lia). assert (R1' : real c (-1)) by (unfold real; lia). vcb V.
  unfold describetab. set (W := filter m_finite (t_float columns)). set (Q := filter m_finite (t_res columns)).
  assert (W1 : In (third 1) W).
  { apply filter_In. split; [apply third_in; exact R1|]. apply m_finite_num. destruct (third_is 1 R1) as (_ & x & I & _). exists x. exact I. }
  assert (Q1 : exists d, In d Q).
  { destruct (diff_zero c V FC) as [D1 D2].
    pose proof (sub_exact rnd RN _ _ _ _ (third_is 1 R1) (third_is (-1) R1') D1) as S. pose proof (half_exact rnd RN _ _ S D2) as H.
    eexists. apply filter_In. split.
    - eapply nth_error_In. cbn [DumpProof.columns t_res]. apply (meandiff_nth rnd (map third (posits c)) (Z.to_nat (-1 + maxreal c))).
      + apply map_nth_error. apply posits_nth. exact R1'.
      + replace (Z.to_nat (-1 + maxreal c) + 2)%nat with (Z.to_nat (1 + maxreal c)) by lia. apply map_nth_error. apply posits_nth. exact R1.
    - apply m_finite_num. destruct H as (_ & x & I & _). exists x. exact I. }
  destruct Q1 as (q & Q1). destruct (m_max_some W _ W1) as (a & ->). destruct (m_min_some W _ W1) as (b & ->).
  destruct (m_min_some (map m_abs (filter (fun d => negb (f_eq 11 52 d 0)) W)) (m_abs (third 1))) as (s & ->).
  { apply in_map. apply filter_In. split; [exact W1|]. destruct (f_eq 11 52 (third 1) 0) eqn:E; [exfalso|reflexivity].
    apply (f_eq0 _ _ (third_is 1 R1)) in E. pose proof (value_pos c BN Bes 1 ltac:(lia)). lra. }
  destruct (m_min_some Q q Q1) as (x & ->). destruct (m_max_some Q q Q1) as (y & ->). eexists. reflexivity.
Qed.

Lemma loads : end_ok c -> exists n, forall m, (n <= m)%nat -> exists file t s, d_file rnd pw c "Biov" m = Some (Ok file) /\ loadpositdump rnd file = Some (t, s).
Proof using RN V FF FC.
  intros E. exists (S (Z.to_nat (2 * maxreal c))). intros m M. destruct describes as (s & S). exists (flat_map (row rnd c) (posits c)), columns, s. split.
  - unfold d_file. change (d_has "U" "Biov") with false. cbv iota. rewrite (signed_posits c m V E M). rewrite file_ok; auto. intros v. apply (posits_real c v V).
  - rewrite load_posits, S. reflexivity.
Qed.

Section loaded.
Context (m : nat) (file : list Z) (t : table) (s : summary).
Hypothesis FI : d_file rnd pw c "Biov" m = Some (Ok file).
Hypothesis LO : loadpositdump rnd file = Some (t, s).

Lemma t_is : t = columns /\ describetab columns = Some s.
Proof using V FF FC FI LO. exact (DumpProof.loaded rnd pw c V FF FC m file t s FI LO). Qed.
Lemma cols : exists l, (forall v, In v l <-> real c v) /\ StronglySorted (fun a b => (value c a < value c b)%Q) l /\
  Forall2 (fun v d => is_double d (inject_Z v)) l (t_signed t) /\ Forall2 (fun v d => is_double d (value c v)) l (t_float t).
Proof using RN V FF FC N54 FI LO.
  destruct t_is as [-> _]. exists (posits c). split; [intros v; apply posits_real; exact V|]. split; [apply posits_sorted; exact V|].
  split; apply forall2_map; intros v I; apply (posits_real c v V) in I; [apply first_is|apply third_is]; exact I.
Qed.
Lemma unsigned8 : cH c = 8 -> cN c = 8 ->
  Forall2 (fun d u => forall v, real c v -> is_double d (inject_Z v) -> is_double u (inject_Z (v mod 2 ^ cN c))) (t_signed t) (t_unsigned t).
Proof using RN V FF FC N54 FI LO.
  intros H8 N8. destruct t_is as [-> _]. apply forall2_maps. intros w I v R D. apply (posits_real c w V) in I.
  pose proof (is_double_inj _ _ _ D (first_is w I)) as E. apply (proj1 (inject_eq _ _)) in E. subst w. pose proof (second_is v R) as S. unfold second at 2 in S. rewrite H8 in S. cbn [Z.eqb Pos.eqb] in S. rewrite N8. exact S.
Qed.
Lemma unsigned_wrong : ~ (cH c = 8 /\ cN c = 8) -> 
  Forall2 (fun d u => forall v, real c v -> v < 0 -> is_double d (inject_Z v) ->
    ~ is_double u (inject_Z (v mod 2 ^ cN c)) /\ is_double u (inject_Z (if cH c =? 8 then v mod 2 ^ 8 else v))) (t_signed t) (t_unsigned t).
Proof using RN V FF FC N54 FI LO.
  intros H8. destruct t_is as [-> _]. apply forall2_maps. intros w I v R NV D. apply (posits_real c w V) in I.
  pose proof (is_double_inj _ _ _ D (first_is w I)) as E. apply (proj1 (inject_eq _ _)) in E. subst w. pose proof (second_is v R) as S.
  assert (S' : is_double (rnd (inject_Z (second c v))) (inject_Z (if cH c =? 8 then v mod 2 ^ 8 else v))) by exact S.
  split; [|exact S']. intros K. pose proof (is_double_inj _ _ _ K S') as E. apply (proj1 (inject_eq _ _)) in E. pose proof mb as M. unfold real in R. vcb V.
  assert (P2 : 2 ^ cN c = 2 * 2 ^ (cN c - 1)) by (rewrite <- Z.pow_succ_r by lia; f_equal; lia).
  assert (MV : v mod 2 ^ cN c = v + 2 ^ cN c) by (rewrite <- (Z_mod_plus_full v 1 (2 ^ cN c)), Z.mul_1_l; apply Z.mod_small; lia). rewrite MV in E.
  destruct (Z.eqb_spec (cH c) 8) as [E8|E8]; [|lia].
  assert (cN c < 8) by lia. pose proof (pow2_mono (cN c) 7 ltac:(lia)). change (2 ^ 7) with 128 in *. change (2 ^ 8) with 256 in E.
  assert (MW : v mod 256 = v + 256) by (rewrite <- (Z_mod_plus_full v 1 256), Z.mul_1_l; apply Z.mod_small; lia). lia.
Qed.
Lemma summary_ok : is_double (s_max s) (value c (maxreal c)) /\ is_double (s_min s) (value c (- maxreal c)) /\ is_double (s_smallest s) (value c 1) /\
  least_of (t_res t) (s_minres s) /\ greatest_of (t_res t) (s_maxres s).
Proof using RN V FF FC N54 FI LO.
  destruct t_is as [-> D]. pose proof mb as M. vcb V. apply describe_ok in D.
  2:{ intros d I. destruct (float_dbl d I) as (v & _ & H & _). exact (is_double_dbl _ _ H). }
  destruct D as (A & B & C1 & C2 & (d & x & D1 & D2 & D3 & D4 & D5)). split; [|split; [|split; [|split; assumption]]].
  - destruct A as (A1 & _ & A3). destruct (float_dbl _ A1) as (v & R & H & _). assert (RM : real c (maxreal c)) by (unfold real; lia).
    destruct (third_is _ RM) as (_ & y & Y & YE). pose proof (A3 _ y (third_in _ RM) Y) as L. destruct H as (HB & z & Z & ZE). rewrite Z in L. cbn [ext_le] in L.
    apply (is_double_comp _ (value c v)); [|split; [exact HB|exists z; auto]]. destruct (Z.eq_dec v (maxreal c)) as [->|N]; [reflexivity|exfalso].
    unfold real in R. pose proof (value_lt c BN Bes v (maxreal c) ltac:(lia) ltac:(lia) ltac:(lia)). lra.
  - destruct B as (A1 & _ & A3). destruct (float_dbl _ A1) as (v & R & H & _). assert (RM : real c (- maxreal c)) by (unfold real; lia).
    destruct (third_is _ RM) as (_ & y & Y & YE). pose proof (A3 _ y (third_in _ RM) Y) as L. destruct H as (HB & z & Z & ZE). rewrite Z in L. cbn [ext_le] in L.
    apply (is_double_comp _ (value c v)); [|split; [exact HB|exists z; auto]]. destruct (Z.eq_dec v (- maxreal c)) as [->|N]; [reflexivity|exfalso].
    unfold real in R. pose proof (value_lt c BN Bes (- maxreal c) v ltac:(lia) ltac:(lia) ltac:(lia)). lra.
  - destruct (float_dbl _ D1) as (v & R & H & _). pose proof (is_double_inj _ _ _ D2 H) as E. assert (R1 : real c 1) by (unfold real; lia).
    pose proof (value_pos c BN Bes 1 ltac:(lia)) as P1. pose proof (D5 _ _ (third_in 1 R1) (third_is 1 R1) ltac:(lra)) as L. rewrite (Qabs_pos (value c 1)) in L by lra.
    apply (is_double_comp _ (Qabs x)); [|exact D4]. apply Qle_antisym; [exact L|].
    assert (NZ : v <> 0) by (intros ->; apply D3; rewrite E; reflexivity). unfold real in R.
    assert (AB : forall w, 1 <= w <= maxreal c -> (value c 1 <= value c w)%Q).
    { intros w W. destruct (Z.eq_dec w 1) as [->|]; [lra|]. pose proof (value_lt c BN Bes 1 w ltac:(lia) ltac:(lia) ltac:(lia)). lra. }
    rewrite E. destruct (Z_lt_le_dec v 0) as [NV|NV].
    + replace v with (- - v) by lia. rewrite (value_opp c BN Bes), Qabs_opp. pose proof (Qle_Qabs (value c (- v))). pose proof (AB (- v) ltac:(lia)). lra.
    + pose proof (Qle_Qabs (value c v)). pose proof (AB v ltac:(lia)). lra.
Qed.
(** The row of a posit. *)
Lemma row_of i v d : nth_error (t_signed t) i = Some d -> is_double d (inject_Z v) -> real c v -> i = Z.to_nat (v + maxreal c).
Proof using RN V FF FC N54 FI LO.
  destruct t_is as [-> _]. intros H D R. cbn [DumpProof.columns t_signed] in H.
  destruct (nth_error (posits c) i) as [w|] eqn:W; [|apply nth_error_None in W; assert (X : nth_error (map (fun v => rnd (inject_Z v)) (posits c)) i = None) by (apply nth_error_None; rewrite map_length; exact W); congruence].
  rewrite (map_nth_error _ _ _ W) in H. injection H as <-. destruct (nth_posits i w W) as [RW ->]. pose proof (is_double_inj _ _ _ D (first_is w RW)) as E. apply (proj1 (inject_eq _ _)) in E. subst w. reflexivity.
Qed.
Lemma res_ok i v d : nth_error (t_signed t) i = Some d -> is_double d (inject_Z v) -> real c v ->
  exists r, nth_error (t_res t) i = Some r /\
    (Z.abs v = maxreal c -> ieee_val 11 52 r = NaNVal) /\
    (Z.abs v < maxreal c ->
      (exists x, ieee_val 11 52 (rnd (value c (v + 1) - value c (v - 1))) = FinVal x /\ same_ext (ieee_val 11 52 r) (ieee_val 11 52 (rnd (x / 2)))) /\
      (cN c - 2 - ces c + 2 * 2 ^ ces c <= 53 -> is_double r ((value c (v + 1) - value c (v - 1)) / 2))).
Proof using RN V FF FC N54 FI LO.
  intros H D R. pose proof (row_of i v d H D R) as I. subst i. clear H. destruct t_is as [-> _]. pose proof mb as M. vcb V. pose proof (emax_bound c V FC) as [EB GB].
  cbn [DumpProof.columns t_res]. unfold real in R.
  destruct (Z.eq_dec (Z.abs v) (maxreal c)) as [E|E].
  - exists m_nan. split; [|split; [intros _; vm_compute; reflexivity|lia]].
    destruct (meandiff_ends rnd (map third (posits c))) as [E1 E2].
    { intros X. apply (f_equal (@List.length Z)) in X. rewrite map_length, posits_len in X. discriminate X. }
    rewrite map_length, posits_len in E2. destruct (Z_lt_le_dec v 0).
    + replace (Z.to_nat (v + maxreal c)) with 0%nat by lia. exact E1.
    + replace (Z.to_nat (v + maxreal c)) with (S (Z.to_nat (2 * maxreal c)) - 1)%nat by lia. exact E2.
  - assert (RP : real c (v + 1)) by (unfold real; lia). assert (RM : real c (v - 1)) by (unfold real; lia).
    eexists. split; [|split; [lia|]].
    { replace (Z.to_nat (v + maxreal c)) with (Z.to_nat (v - 1 + maxreal c) + 1)%nat by lia. apply meandiff_nth.
      - apply map_nth_error. apply posits_nth. exact RM.
      - replace (Z.to_nat (v - 1 + maxreal c) + 2)%nat with (Z.to_nat (v + 1 + maxreal c)) by lia. apply map_nth_error. apply posits_nth. exact RP. }
    intros L. split.
    + destruct (sub_ok rnd RN _ _ _ _ (third_is _ RP) (third_is _ RM)) as [S1 S2].
      assert (X : exists x, ieee_val 11 52 (rnd (value c (v + 1) - value c (v - 1))) = FinVal x).
      { destruct (Z.eq_dec v 0) as [->|NZ]; [destruct (rn_exact _ _ _ RN _ (proj1 (diff_zero c V FC))) as (x & X & _); exists x; exact X|].
        apply (rnd_fin 11 52 fmt_d rnd RN). apply Qle_trans with (pow2 (emax c + 1)); [|apply pow2_le; change (2 ^ (11 - 1) - 1) with 1023; lia].
        pose proof (value_small c V FC _ RP) as B1. pose proof (value_small c V FC _ RM) as B2. unfold real in RP, RM.
        pose proof (value_lt c BN Bes (v - 1) (v + 1) ltac:(lia) ltac:(lia) ltac:(lia)) as VL. rewrite Qabs_pos by lra.
        assert (NN : forall w, 0 <= w <= maxreal c -> (0 <= value c w)%Q).
        { intros w W. destruct (Z.eq_dec w 0) as [->|]; [change (value c 0) with 0%Q; lra|]. pose proof (value_pos c BN Bes w ltac:(lia)). lra. }
        destruct (Z_lt_le_dec v 0).
        - pose proof (NN (- (v + 1)) ltac:(lia)) as NP. rewrite (value_opp c BN Bes) in NP. pose proof (Qle_Qabs (- value c (v - 1))) as QA. rewrite Qabs_opp in QA. lra.
        - pose proof (NN (v - 1) ltac:(lia)) as NP. pose proof (Qle_Qabs (value c (v + 1))) as QA. lra. }
      destruct X as (x & X).
      exists x. split; [exact X|]. rewrite X in S2. exact (proj2 (half_ok rnd RN _ _ (val_is_double _ _ S1 S2))).
    + intros NW. destruct (diff_float c V FC v NW ltac:(lia)) as [D1 D2]. apply half_exact; [exact RN| |exact D2]. apply sub_exact; [exact RN|apply third_is; exact RP|apply third_is; exact RM|exact D1].
Qed.
End loaded.
End r.
