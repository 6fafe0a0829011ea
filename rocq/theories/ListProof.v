(** The loops of listposits visit what they should. *)
From Coq Require Import ZArith QArith Bool List Sorted Lia Lqa.
From Verif Require Import Res CInt Cfg Spec Posit ListP Core Arith SpecLemmas DecodeProof EncodeProof UOps UAdd WideProof Final4.
Import ListNotations.
Open Scope Z_scope.

Fixpoint zup (i : Z) (n : nat) : list Z := match n with O => [] | S k => i :: zup (i + 1) k end.
Lemma zup_in n : forall i v, In v (zup i n) <-> i <= v < i + Z.of_nat n.
Proof.
  induction n as [|n IH]; intros i v; cbn [zup In]; [lia|]. rewrite IH. lia.
Qed.
Lemma zup_sorted n : forall i, StronglySorted Z.lt (zup i n).
Proof.
  induction n as [|n IH]; intros i; cbn [zup]; constructor; [apply IH|].
  apply Forall_forall. intros x X. apply zup_in in X. lia.
Qed.
Lemma sorted_weaken {A} (R S : A -> A -> Prop) l : StronglySorted R l ->
  (forall a b, In a l -> In b l -> R a b -> S a b) -> StronglySorted S l.
Proof.
  induction 1 as [|a l H IH F]; intros W; constructor.
  - apply IH. intros x y X Y. apply W; right; assumption.
  - rewrite Forall_forall in *. intros x X. apply W; [now left|now right|]. now apply F.
Qed.
Lemma sorted_map {A B} (f : A -> B) (R : B -> B -> Prop) l : StronglySorted (fun a b => R (f a) (f b)) l ->
  StronglySorted R (map f l).
Proof.
  induction 1 as [|a l H IH F]; cbn [map]; constructor; [assumption|].
  rewrite Forall_forall in *. intros x X. apply in_map_iff in X. destruct X as (y & <- & Y). now apply F.
Qed.
Lemma sorted_nodup {A} (R : A -> A -> Prop) l : (forall a, ~ R a a) -> StronglySorted R l -> NoDup l.
Proof.
  intros IR. induction 1 as [|a l H IH F]; constructor; [|assumption].
  intros I. rewrite Forall_forall in F. exact (IR a (F a I)).
Qed.

Lemma lp_incr_ok c i : valid_cfg c -> - 2 ^ (cH c - 1) <= i -> i + 1 < 2 ^ (cH c - 1) -> lp_incr c i = Ok (i + 1).
Proof.
  intros V A B. vcb V. unfold lp_incr, cadd. pose proof (vc_H _ V) as WH.
  assert (arith (prom (tS c)) (i + 1) = Ok (i + 1)) as ->.
  { unfold arith, prom, tS, sint. cbn [iw]. destruct (Z.ltb_spec (cH c) 32) as [L|L]; cbn [isg c_int sint fits].
    - unfold fits, min_of, max_of. cbn [isg iw c_int sint]. pose proof (pow2_mono (cH c - 1) 31 ltac:(lia)).
      change (32 - 1) with 31. destruct (Z.leb_spec (- 2 ^ 31) (i + 1)), (Z.leb_spec (i + 1) (2 ^ 31 - 1)); try lia. reflexivity.
    - unfold fits, min_of, max_of. cbn [isg iw].
      destruct (Z.leb_spec (- 2 ^ (cH c - 1)) (i + 1)), (Z.leb_spec (i + 1) (2 ^ (cH c - 1) - 1)); try lia. reflexivity. }
  cbn [bind]. f_equal. apply cast_s_small; lia.
Qed.
Lemma deep_pattern c i : valid_cfg c -> - 2 ^ (cN c - 1) <= i < 2 ^ (cN c - 1) -> deep c i = i.
Proof.
  intros V B. vcb V. pose proof (pow2_mono (cN c - 1) (cH c - 1) ltac:(lia)). apply cast_s_small; lia.
Qed.

Definition end_ok (c : cfg) : Prop := cH c < 32 \/ cN c < cH c \/ csp c = WithNanInf.

Lemma lp_incr_end c : valid_cfg c -> end_ok c -> exists j, lp_incr c (maxreal c) = Ok j.
Proof.
  intros V E. vcb V. pose proof (maxreal_bounds c BN Bes) as MB.
  pose proof (pow2_mono (cN c - 1) (cH c - 1) ltac:(lia)) as PM.
  destruct (Z_lt_le_dec (maxreal c + 1) (2 ^ (cH c - 1))) as [L|L].
  - eexists. apply lp_incr_ok; try assumption; lia.
  - destruct E as [E|[E|E]].
    + unfold lp_incr, cadd, arith, prom, tS, sint. cbn [iw]. destruct (Z.ltb_spec (cH c) 32); [|lia].
      cbn [isg c_int sint]. unfold fits, min_of, max_of. cbn [isg iw c_int sint]. change (32 - 1) with 31.
      pose proof (pow2_mono (cN c - 1) 30 ltac:(lia)). change (2 ^ 30) with 1073741824 in *.
      destruct (Z.leb_spec (- 2 ^ 31) (maxreal c + 1)), (Z.leb_spec (maxreal c + 1) (2 ^ 31 - 1)); try lia.
      cbn [andb bind]. eexists. reflexivity.
    + pose proof (Z.pow_lt_mono_r 2 (cN c - 1) (cH c - 1) ltac:(lia) ltac:(lia) ltac:(lia)). lia.
    + unfold maxreal in L. rewrite E in L. lia.
Qed.

Lemma lp_signed_zup c : valid_cfg c -> end_ok c -> forall n i m, - maxreal c <= i -> i + Z.of_nat n = maxreal c -> (n < m)%nat ->
  lp_signed_from c m i = Some (Ok (zup i (S n))).
Proof.
  intros V E. vcb V. pose proof (maxreal_bounds c BN Bes) as MB. pose proof (pow2_mono (cN c - 1) (cH c - 1) ltac:(lia)) as PM.
  induction n as [|n IH]; intros i m A B C; destruct m as [|m]; try lia; cbn [lp_signed_from]; rewrite P_MAXPOS_val by assumption.
  - replace i with (maxreal c) by lia. destruct (lp_incr_end c V E) as [j ->]. rewrite Z.ltb_irrefl. cbn [zup].
    rewrite deep_pattern by (try assumption; lia). reflexivity.
  - rewrite lp_incr_ok by (try assumption; lia). destruct (Z.ltb_spec i (maxreal c)); [|lia].
    rewrite (IH (i + 1) m) by lia. rewrite deep_pattern by (try assumption; lia). reflexivity.
Qed.

Lemma lp_signed_ok c : valid_cfg c -> end_ok c -> exists n l, (forall m, (n <= m)%nat -> lp_signed c m = Some (Ok l)) /\
  (forall v, In v l <-> real c v) /\ StronglySorted (fun a b => (value c a < value c b)%Q) l.
Proof.
  intros V E. vcb V. pose proof (maxreal_bounds c BN Bes) as MB.
  set (k := Z.to_nat (2 * maxreal c)). exists (S k), (zup (- maxreal c) (S k)). split; [|split].
  - intros m M. unfold lp_signed. rewrite P_MINNEG_val by assumption. apply lp_signed_zup; try assumption; unfold k in *; lia.
  - intros v. rewrite zup_in. unfold real, k. lia.
  - eapply sorted_weaken; [apply zup_sorted|]. intros a b A B L. apply zup_in in A, B. unfold k in *.
    apply (value_lt c BN Bes); lia.
Qed.
Lemma lp_signed_ub c : valid_cfg c -> ~ end_ok c -> exists n, forall m, (n <= m)%nat -> lp_signed c m = Some (UB SignedOverflow).
Proof.
  intros V E. vcb V. pose proof (maxreal_bounds c BN Bes) as MB. unfold end_ok in E.
  assert (HN : cN c = cH c) by lia. assert (H32 : 32 <= cH c) by lia.
  assert (MX : maxreal c = 2 ^ (cH c - 1) - 1) by (unfold maxreal; rewrite HN; destruct (csp c); tauto).
  assert (LAST : lp_incr c (maxreal c) = UB SignedOverflow).
  { rewrite MX. unfold lp_incr, cadd, arith, prom, tS, sint. cbn [iw]. destruct (Z.ltb_spec (cH c) 32); [lia|].
    cbn [isg]. unfold fits, min_of, max_of. cbn [isg iw].
    destruct (Z.leb_spec (2 ^ (cH c - 1) - 1 + 1) (2 ^ (cH c - 1) - 1)); [lia|]. rewrite andb_false_r. reflexivity. }
  assert (G : forall n i m, - maxreal c <= i -> i + Z.of_nat n = maxreal c -> (n < m)%nat -> lp_signed_from c m i = Some (UB SignedOverflow)).
  { induction n as [|n IH]; intros i m A B C; destruct m as [|m]; try lia; cbn [lp_signed_from].
    - replace i with (maxreal c) by lia. rewrite LAST. reflexivity.
    - rewrite lp_incr_ok by (try assumption; lia). rewrite P_MAXPOS_val by assumption. destruct (Z.ltb_spec i (maxreal c)); [|lia].
      rewrite (IH (i + 1) m) by lia. reflexivity. }
  exists (S (Z.to_nat (2 * maxreal c))). intros m M. unfold lp_signed. rewrite P_MINNEG_val by assumption.
  apply (G (Z.to_nat (2 * maxreal c))); lia.
Qed.

(** Unsigned order. *)
Definition sext (N j : Z) : Z := if j <? 2 ^ (N - 1) then j else j - 2 ^ N.
Lemma lor_neg k r : 0 <= k -> 0 <= r < 2 ^ k -> Z.lor (2 ^ k + r) (- 2 ^ k) = - 2 ^ k + r.
Proof.
  intros K R.
  replace (2 ^ k + r) with (Z.lor (1 * 2 ^ k) r) by (rewrite lor_split by assumption; ring).
  rewrite <- Z.lor_assoc, (Z.lor_comm r), Z.lor_assoc.
  replace (- 2 ^ k) with ((-1) * 2 ^ k) by ring.
  assert (Z.lor (1 * 2 ^ k) (-1 * 2 ^ k) = -1 * 2 ^ k) as ->.
  { rewrite <- !Z.shiftl_mul_pow2 by assumption. rewrite <- Z.shiftl_lor. reflexivity. }
  apply lor_split; assumption.
Qed.
Lemma pow_N c : valid_cfg c -> 2 ^ cN c = 2 * 2 ^ (cN c - 1).
Proof. intros V. vcb V. rewrite <- Z.pow_succ_r by lia. f_equal. lia. Qed.
Lemma shl_one n : 0 <= n <= 30 -> cshl c_int 1 n = Ok (2 ^ n).
Proof.
  intros B. unfold cshl, c_int, sint. cbn [iw isg]. destruct (Z.ltb_spec n 0), (Z.leb_spec 32 n); try lia. cbn [orb].
  rewrite Z.mul_1_l. pose proof (pow2_mono n 30 ltac:(lia)). change (2 ^ 30) with 1073741824 in *. pow_pos 2 n.
  destruct (Z.leb_spec (2 ^ 32) (2 ^ n)) as [X|X]; [change (2 ^ 32) with 4294967296 in X; lia|].
  change (1 <? 0) with false. cbv iota. f_equal. change (wraps 32 (2 ^ n)) with (cast (sint 32) (2 ^ n)). apply cast_s_small; [lia|].
  change (2 ^ (32 - 1)) with 2147483648. lia.
Qed.
Lemma signex_ok t N j : 1 <= N <= 30 -> 0 <= j < 2 ^ N -> SIGNEX t j (N - 1) = Ok (sext N j).
Proof.
  intros B J. unfold SIGNEX, sext. rewrite shl_one by lia. cbn [bind].
  assert (P : 2 ^ N = 2 * 2 ^ (N - 1)) by (rewrite <- Z.pow_succ_r by lia; f_equal; lia).
  pow_pos 2 (N - 1). unfold cand. destruct (Z.ltb_spec j (2 ^ (N - 1))) as [L|L].
  - assert (Z.land j (2 ^ (N - 1)) = 0) as ->.
    { apply Z.bits_inj'. intros n Hn. rewrite Z.land_spec, Z.bits_0, Z.pow2_bits_eqb by lia.
      destruct (Z.eqb_spec (N - 1) n) as [<-|]; [|apply andb_false_r].
      rewrite <- (Z.mod_small j (2 ^ (N - 1))) by lia. rewrite Z.mod_pow2_bits_high by lia. reflexivity. }
    cbn. f_equal. unfold cor. apply Z.lor_0_r.
  - assert (Z.land j (2 ^ (N - 1)) <> 0).
    { intros Z0. assert (T : Z.testbit (Z.land j (2 ^ (N - 1))) (N - 1) = false) by (rewrite Z0; apply Z.bits_0).
      rewrite Z.land_spec, Z.pow2_bits_true, andb_true_r in T by lia.
      rewrite Z.testbit_false in T by lia.
      assert (j / 2 ^ (N - 1) = 1) as D by (symmetry; apply (Z.div_unique j (2 ^ (N - 1)) 1 (j - 2 ^ (N - 1))); lia).
      rewrite D in T. discriminate. }
    destruct (Z.eqb_spec (Z.land j (2 ^ (N - 1))) 0); [contradiction|].
    pose proof (pow2_mono (N - 1) 29 ltac:(lia)). change (2 ^ 29) with 536870912 in *.
    unfold csub, arith, fits, min_of, max_of, c_int, sint. cbn [isg iw]. change (32 - 1) with 31.
    destruct (Z.leb_spec (- 2 ^ 31) (2 ^ (N - 1) - 1)), (Z.leb_spec (2 ^ (N - 1) - 1) (2 ^ 31 - 1)); try lia.
    cbn [andb bind]. unfold cnot. cbn [isg]. f_equal. unfold cor.
    replace (Z.lnot (2 ^ (N - 1) - 1)) with (- 2 ^ (N - 1)) by (unfold Z.lnot; lia).
    replace j with (2 ^ (N - 1) + (j - 2 ^ (N - 1))) at 1 by ring. rewrite lor_neg by lia. lia.
Qed.
Lemma lp_unsigned_zup c : valid_cfg c -> cH c < 64 -> cN c <= 30 -> forall n j m, 0 <= j -> j + Z.of_nat n = 2 ^ cN c -> (n < m)%nat ->
  lp_unsigned_from c m j = Some (Ok (map (sext (cN c)) (zup j n))).
Proof.
  intros V H64 N30. vcb V. pose proof (pow_N c V) as PN. pow_pos 2 (cN c - 1).
  pose proof (pow2_mono (cN c) 30 ltac:(lia)) as P30. change (2 ^ 30) with 1073741824 in P30.
  induction n as [|n IH]; intros j m A B C; destruct m as [|m]; try lia; cbn [lp_unsigned_from]; rewrite shl_one by lia.
  - destruct (Z.ltb_spec j (2 ^ cN c)); [lia|]. reflexivity.
  - destruct (Z.ltb_spec j (2 ^ cN c)); [|lia]. rewrite signex_ok by lia.
    assert (PM : 2 ^ cN c < 2 ^ (2 * cH c - 1)) by (apply Z.pow_lt_mono_r; lia).
    assert ((let! s := cadd (prom (tNT c)) j 1 in Ok (cast (tNT c) s)) = Ok (j + 1)) as ->.
    { unfold cadd, arith, prom, tNT, sint. cbn [iw].
      destruct (Z.ltb_spec (2 * cH c) 32) as [L|L]; cbn [isg c_int sint]; unfold fits, min_of, max_of; cbn [isg iw c_int sint].
      - change (32 - 1) with 31.
        destruct (Z.leb_spec (- 2 ^ 31) (j + 1)), (Z.leb_spec (j + 1) (2 ^ 31 - 1)); try lia. cbn [andb bind].
        f_equal. apply cast_s_small; lia.
      - destruct (Z.leb_spec (- 2 ^ (2 * cH c - 1)) (j + 1)), (Z.leb_spec (j + 1) (2 ^ (2 * cH c - 1) - 1)); try lia. cbn [andb bind].
        f_equal. apply cast_s_small; lia. }
    rewrite (IH (j + 1) m) by lia. cbn [zup map].
    assert (SB : - 2 ^ (cN c - 1) <= sext (cN c) j < 2 ^ (cN c - 1)).
    { unfold sext. destruct (Z.ltb_spec j (2 ^ (cN c - 1))); lia. }
    replace (cast (tS c) (sext (cN c) j)) with (sext (cN c) j) by (symmetry; exact (deep_pattern c _ V SB)).
    rewrite deep_pattern by assumption. reflexivity.
Qed.
Lemma sext_mod N j : 1 <= N -> 0 <= j < 2 ^ N -> sext N j mod 2 ^ N = j.
Proof.
  intros B J. unfold sext. destruct (Z.ltb_spec j (2 ^ (N - 1))); [apply Z.mod_small; lia|].
  symmetry. apply (Z.mod_unique _ _ (-1)); lia.
Qed.
Lemma lp_unsigned_ok c : valid_cfg c -> cH c < 64 -> cN c <= 30 -> exists n l, (forall m, (n <= m)%nat -> lp_unsigned c m = Some (Ok l)) /\
  (forall v, In v l <-> pattern c v) /\ StronglySorted (fun a b => a mod 2 ^ cN c < b mod 2 ^ cN c) l.
Proof.
  intros V H64 N30. vcb V. pose proof (pow_N c V) as PN. pow_pos 2 (cN c - 1).
  set (k := Z.to_nat (2 ^ cN c)). exists (S k), (map (sext (cN c)) (zup 0 k)). split; [|split].
  - intros m M. apply lp_unsigned_zup; try assumption; unfold k in *; lia.
  - intros v. rewrite in_map_iff. unfold pattern. split.
    + intros (j & <- & J). apply zup_in in J. unfold k, sext in *. destruct (Z.ltb_spec j (2 ^ (cN c - 1))); lia.
    + intros B. exists (v mod 2 ^ cN c). rewrite zup_in. pose proof (Z.mod_pos_bound v (2 ^ cN c) ltac:(lia)) as MB.
      split; [|unfold k; lia]. unfold sext. destruct (Z_lt_le_dec v 0) as [L|L].
      * assert (v mod 2 ^ cN c = v + 2 ^ cN c) as -> by (symmetry; apply (Z.mod_unique _ _ (-1)); lia).
        destruct (Z.ltb_spec (v + 2 ^ cN c) (2 ^ (cN c - 1))); lia.
      * rewrite Z.mod_small by lia. destruct (Z.ltb_spec v (2 ^ (cN c - 1))); lia.
  - apply sorted_map. eapply sorted_weaken; [apply zup_sorted|]. intros a b A B L. apply zup_in in A, B. unfold k in *.
    rewrite !sext_mod by lia. assumption.
Qed.
Lemma lp_unsigned_31 c : cN c = 31 -> forall m, lp_unsigned c (S m) = Some (Ok []).
Proof. intros E m. unfold lp_unsigned. cbn [lp_unsigned_from]. rewrite E. reflexivity. Qed.
Lemma lp_unsigned_32 c : 32 <= cN c -> forall m, lp_unsigned c (S m) = Some (UB ShiftCount).
Proof.
  intros E m. unfold lp_unsigned. cbn [lp_unsigned_from]. unfold cshl at 1. cbn [iw c_int sint].
  destruct (Z.ltb_spec (cN c) 0), (Z.leb_spec 32 (cN c)); try lia. reflexivity.
Qed.

(** numeric_limits. *)
Lemma nl_inf c : valid_cfg c ->
  (csp c <> WithNan -> is_inf c (nl_infinity c)) /\ (csp c = WithNan -> is_nan c (nl_infinity c)).
Proof.
  intros V. unfold nl_infinity. destruct (constants c V) as (_ & _ & _ & _ & _ & _ & _ & _ & _ & _ & _ & _ & _ & _ & _ & _ & -> & _).
  unfold is_inf, is_pinf, is_ninf, is_uinf, is_nan, inf_of. destruct (csp c); split; intros; try tauto; try congruence; repeat split; congruence.
Qed.
Lemma nl_nan c : valid_cfg c -> (nl_has_quiet_NaN c = true <-> exists v, is_nan c v) /\
  (nl_has_quiet_NaN c = true -> is_nan c (nl_quiet_NaN c)).
Proof.
  intros V. unfold nl_quiet_NaN. destruct (constants c V) as (_ & _ & _ & _ & _ & _ & _ & _ & _ & _ & _ & _ & _ & _ & -> & _).
  unfold nl_has_quiet_NaN, is_nan, exceptional. destruct (csp c); cbn [spec_eqb negb]; (split; [split|]);
    try (intros; eauto; fail); try congruence; try (intros; repeat split; congruence); intros; try (eexists; repeat split; congruence).
  destruct H. tauto.
Qed.
