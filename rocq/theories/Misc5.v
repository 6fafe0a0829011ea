(** pseudosoftplus and urDeltaPs. *)
From Coq Require Import ZArith QArith Qabs Lia Lqa Bool.
From Verif Require Import Res CInt Bits Cfg Spec Posit Unpacked Traits QPow Core SpecLemmas Arith DecodeProof EncodeProof UOps UAdd Ops OpsUnary Room Laws Configs Final1 Final2 Final4 Misc1.
Open Scope Z_scope.

Lemma softplus_run c v : valid_cfg c -> 0 <= v < 2 ^ (cN c - 1) -> p_pseudosoftplus c v = Ok (2 ^ (cN c - 2) + v / 2).
Proof.
  intros V B. vcb V. unfold p_pseudosoftplus, SIGNBIT.
  assert (L : 2 ^ (cN c - 1) <= 2 ^ (cH c - 1)) by (apply pow2_mono; lia).
  assert (HH : 2 ^ cH c = 2 * 2 ^ (cH c - 1)) by (replace (cH c) with (cH c - 1 + 1) at 1 by lia; apply pow2_S; lia).
  assert (T : common (tS c) (tU c) = c_int /\ cH c < 32 \/ common (tS c) (tU c) = uint (cH c)).
  { unfold common, tU, tS, uint, sint. destruct (vc_H c V) as [E|[E|[E|E]]]; rewrite E; cbn; [left|left|right|right]; repeat split; lia. }
  assert (X : cxor v (2 ^ (cN c - 1)) = 2 ^ (cN c - 1) + v).
  { unfold cxor. rewrite Z.lxor_comm.
    rewrite Z.add_nocarry_lxor; [reflexivity|]. apply Z.bits_inj'. intros i I. rewrite Z.land_spec, Z.bits_0, Z.pow2_bits_eqb by lia.
    destruct (Z.eqb_spec (cN c - 1) i) as [<-|NE]; [|reflexivity]. cbn. rewrite testbit_div by lia. rewrite Z.div_small by lia. reflexivity. }
  assert (C1 : cast (common (tS c) (tU c)) v = v).
  { destruct T as [[-> T]| ->]; [|apply cast_u_small; lia]. assert (2 ^ (cH c - 1) <= 2 ^ 31) by (apply pow2_mono; lia). apply (cast_s_small 32); change (2 ^ (32 - 1)) with (2 ^ 31); lia. }
  rewrite C1, X.
  assert (S2 : cshr (common (tS c) (tU c)) (2 ^ (cN c - 1) + v) 1 = Ok ((2 ^ (cN c - 1) + v) / 2 ^ 1)).
  { destruct T as [[-> T]| ->]; apply cshr_ok; cbn; lia. }
  rewrite S2. cbn [bind]. f_equal. change (2 ^ 1) with 2.
  assert (P1 : 2 ^ (cN c - 1) = 2 ^ (cN c - 2) * 2) by (replace (cN c - 1) with (cN c - 2 + 1) by lia; rewrite Z.pow_add_r by lia; lia).
  rewrite P1, Z.add_comm, Z.div_add, Z.add_comm by lia.
  unfold deep, tS. apply cast_s_small; [lia|]. assert (0 <= v / 2 < 2 ^ (cN c - 2)) by (split; [apply Z.div_pos; lia|apply Z.div_lt_upper_bound; lia]). pow_pos 2 (cN c - 2). lia.
Qed.
Lemma softplus c v : valid_cfg c -> real c v -> (0 <= value c v)%Q -> csp c <> WithNanInf \/ (value c v < value c (maxreal c))%Q ->
  exists r, p_pseudosoftplus c v = Ok r /\ real c r /\ (1 <= value c r)%Q /\ (value c v <= value c r)%Q /\
    (v = 0 -> (value c r == 1)%Q) /\
    (forall w s, real c w -> real c s -> (value c v <= value c w)%Q -> p_pseudosoftplus c w = Ok s -> (value c r <= value c s)%Q).
Proof.
  intros V R P NI. vcb V. pose proof (real_bounds c BN Bes v R) as RB. pose proof (maxreal_bounds c BN Bes) as MB.
  assert (P1 : 2 ^ (cN c - 1) = 2 ^ (cN c - 2) * 2) by (replace (cN c - 1) with (cN c - 2 + 1) by lia; rewrite Z.pow_add_r by lia; lia).
  assert (V0 : 0 <= v) by (apply (value_le_inv c BN Bes); [pow_pos 2 (cN c - 1); lia|lia|exact P]).
  assert (D : forall w, 0 <= w < 2 ^ (cN c - 1) -> 0 <= w / 2 < 2 ^ (cN c - 2)) by (intros w W; split; [apply Z.div_pos; lia|apply Z.div_lt_upper_bound; lia]).
  pose proof (D v ltac:(lia)) as Dv. pow_pos 2 (cN c - 2).
  assert (RR : real c (2 ^ (cN c - 2) + v / 2)).
  { assert (H' : 2 ^ (cN c - 2) + v / 2 <= maxreal c); [|unfold real; lia].
    unfold maxreal in *. destruct (csp c) eqn:EC; try lia. destruct NI as [NI|NI]; [contradiction|].
    apply (value_lt_inv c BN Bes) in NI; [|lia|lia]. assert (v / 2 < 2 ^ (cN c - 2) - 1) by (apply Z.div_lt_upper_bound; lia). lia. }
  exists (2 ^ (cN c - 2) + v / 2). split; [apply softplus_run; [assumption|lia]|]. split; [exact RR|].
  pose proof (real_bounds c BN Bes _ RR) as RRB. assert (HV : v <= 2 ^ (cN c - 2) + v / 2) by (pose proof (Z.div_mod v 2 ltac:(lia)); pose proof (Z.mod_pos_bound v 2 ltac:(lia)); lia).
  split; [|split; [|split]].
  - rewrite <- (value_one c V). apply (value_le c BN Bes); lia.
  - apply (value_le c BN Bes); lia.
  - intros ->. change (0 / 2) with 0. rewrite Z.add_0_r. apply (value_one c V).
  - intros w s Rw Rs L E. pose proof (real_bounds c BN Bes w Rw) as RBw. apply (value_le_inv c BN Bes) in L; [|lia|lia].
    rewrite softplus_run in E by (try assumption; lia). injection E as <-. pose proof (real_bounds c BN Bes _ Rs).
    apply (value_le c BN Bes); try lia. apply Zplus_le_compat_l. apply Z.div_le_mono; lia.
Qed.
(** The largest number of a format with infinities. *)
Lemma softplus_inf c : valid_cfg c -> csp c = WithNanInf -> p_pseudosoftplus c (maxreal c) = Ok (inf_of c false).
Proof.
  intros V I. vcb V. unfold maxreal, inf_of. rewrite I. 
  assert (P1 : 2 ^ (cN c - 1) = 2 ^ (cN c - 2) * 2) by (replace (cN c - 1) with (cN c - 2 + 1) by lia; rewrite Z.pow_add_r by lia; lia). pow_pos 2 (cN c - 2).
  rewrite softplus_run by (try assumption; lia). f_equal. replace (2 ^ (cN c - 1) - 2) with ((2 ^ (cN c - 2) - 1) * 2) by lia. rewrite Z.div_mul by lia. lia.
Qed.
Lemma softplus_32 c v : valid_cfg c -> cH c = 32 -> cN c = 32 -> - 2 ^ 31 <= v < 2 ^ 31 -> p_pseudosoftplus c v = Ok ((v + 2 ^ 31) / 2).
Proof.
  intros V EH EN B. unfold p_pseudosoftplus, SIGNBIT, common, tU, tS, uint, sint. rewrite EH, EN. cbn [iw isg prom Z.ltb Z.compare Pos.compare Pos.compare_cont Z.leb Z.eqb Pos.eqb].
  change (32 - 1) with 31.
  assert (C1 : cast {| iw := 32; isg := false |} v = v mod 2 ^ 32) by apply (cast_u 32).
  assert (X : cxor (v mod 2 ^ 32) (2 ^ 31) = v + 2 ^ 31).
  { change (2 ^ 32) with 4294967296. assert (E31 : 2 ^ 31 = 2147483648) by reflexivity. unfold cxor. destruct (Z_lt_ge_dec v 0).
    - assert (M : v mod 4294967296 = v + 2147483648 + 2 ^ 31) by (symmetry; apply (Z.mod_unique _ _ (-1)); lia). rewrite M.
      rewrite xor_low by lia. lia.
    - rewrite Z.mod_small by lia. rewrite <- Z.add_nocarry_lxor; [lia|]. apply Z.bits_inj'. intros i I. rewrite Z.land_spec, Z.bits_0, Z.pow2_bits_eqb by lia.
      destruct (Z.eqb_spec 31 i) as [<-|NE]; [|apply andb_false_r]. rewrite testbit_div by lia. rewrite Z.div_small by lia. reflexivity. }
  match goal with |- bind (cshr ?t _ _) _ = _ => change t with (uint 32) end.
  change {| iw := 32; isg := false |} with (uint 32) in *. rewrite C1, X, cshr_ok by (cbn; lia). cbn [bind]. f_equal. unfold deep, tS. rewrite EH. change (2 ^ 1) with 2.
  apply (cast_s_small 32); [lia|]. change (2 ^ (32 - 1)) with 2147483648. change (2 ^ 31) with 2147483648 in *.
  assert (0 <= (v + 2147483648) / 2) by (apply Z.div_pos; lia). assert ((v + 2147483648) / 2 < 2147483648) by (apply Z.div_lt_upper_bound; lia). lia.
Qed.
Lemma softplus_below c v : valid_cfg c -> cH c = 32 -> cN c = 32 -> real c v -> (value c v <= 0)%Q ->
  exists r, p_pseudosoftplus c v = Ok r /\ real c r /\ (0 <= value c r <= 1)%Q /\
    (forall w s, real c w -> real c s -> (value c v <= value c w)%Q -> p_pseudosoftplus c w = Ok s -> (value c r <= value c s)%Q).
Proof.
  intros V EH EN R L0. vcb V. pose proof (one_real c V) as OR. pose proof (value_one c V) as V1.
  assert (RB : forall w, real c w -> - 2147483648 < w < 2147483648) by (intros w W; pose proof (real_bounds c BN Bes w W) as Q; rewrite EN in Q; exact Q).
  pose proof (RB v R) as Bv. assert (PB : 2 ^ (cN c - 1) = 2147483648) by (rewrite EN; reflexivity).
  assert (V0 : v <= 0) by (apply (value_le_inv c BN Bes); [lia|lia|exact L0]).
  rewrite EN in V1, OR. change (2 ^ (32 - 2)) with (2 ^ 30) in *. assert (E30 : 2 ^ 30 = 1073741824) by reflexivity.
  assert (SR : forall w, real c w -> p_pseudosoftplus c w = Ok ((w + 2147483648) / 2)).
  { intros w W. specialize (RB w W). apply softplus_32; try assumption. change (2 ^ 31) with 2147483648. lia. }
  assert (Dv : 0 <= (v + 2147483648) / 2 <= 1073741824) by (split; [apply Z.div_pos; lia|apply Z.div_le_upper_bound; lia]).
  exists ((v + 2147483648) / 2). split; [apply SR; assumption|]. assert (RR : real c ((v + 2147483648) / 2)) by (unfold real in *; lia). split; [exact RR|]. split.
  - set (r := (v + 2147483648) / 2) in *. assert (A1 : (value c 0 <= value c r)%Q) by (apply (value_le c BN Bes); lia).
    assert (B1 : (value c r <= value c (2 ^ 30))%Q) by (apply (value_le c BN Bes); lia). rewrite V1 in B1. split; assumption.
  - intros w s W S L E. rewrite SR in E by assumption. injection E as <-. pose proof (RB w W). pose proof (RB _ S).
    apply (value_le_inv c BN Bes) in L; [|lia|lia]. apply (value_le c BN Bes); try lia. apply Z.div_le_mono; lia.
Qed.
Lemma softplus_negative c v : valid_cfg c -> real c v -> v < 0 -> ~ (cH c = 32 /\ cN c = 32) ->
  exists r, p_pseudosoftplus c v = Ok r /\ ~ (real c r /\ (0 <= value c r)%Q).
Proof.
  intros V R Vn NH. vcb V. pose proof (real_bounds c BN Bes v R) as RB. pow_pos 2 (cN c - 2).
  assert (P1 : 2 ^ (cN c - 1) = 2 ^ (cN c - 2) * 2) by (replace (cN c - 1) with (cN c - 2 + 1) by lia; rewrite Z.pow_add_r by lia; lia).
  assert (P0 : 2 ^ (cN c) = 2 ^ (cN c - 2) * 4) by (replace (cN c) with (cN c - 2 + 2) at 1 by lia; rewrite Z.pow_add_r by lia; lia).
  assert (LH : 2 ^ (cN c - 1) <= 2 ^ (cH c - 1)) by (apply pow2_mono; lia).
  assert (K : forall r, r < 0 \/ 2 ^ (cN c - 1) <= r -> ~ (real c r /\ (0 <= value c r)%Q)).
  { intros r C [Rr B1]. pose proof (real_bounds c BN Bes r Rr).
    assert (A1 : (value c 0 <= value c r)%Q) by exact B1. apply (value_le_inv c BN Bes) in A1; lia. }
  unfold p_pseudosoftplus, SIGNBIT.
  assert (XV : forall h, Z.lxor (h * 2 ^ cN c + (v + 2 ^ cN c)) (2 ^ (cN c - 1)) = h * 2 ^ cN c + v + 2 ^ (cN c - 1)).
  { intros h. pose proof (xor_high h v (cN c - 1) ltac:(lia) ltac:(lia)) as X. replace (cN c - 1 + 1) with (cN c) in X by lia. exact X. }
  destruct (Z_lt_ge_dec (cH c) 32) as [S|S].
  - assert (T : common (tS c) (tU c) = c_int) by (unfold common, tU, tS, uint, sint; destruct (vc_H c V) as [E|[E|[E|E]]]; rewrite E in *; cbn; try lia; reflexivity).
    rewrite T. assert (L31 : 2 ^ (cH c - 1) <= 2 ^ 31) by (apply pow2_mono; lia).
    replace (cast c_int v) with v by (symmetry; apply (cast_s_small 32); change (2 ^ (32 - 1)) with (2 ^ 31); lia).
    pose proof (XV (-1)) as X. replace (-1 * 2 ^ cN c + (v + 2 ^ cN c)) with v in X by ring.
    unfold cxor. rewrite X. rewrite cshr_ok by (cbn; lia). cbn [bind]. eexists. split; [reflexivity|].
    assert (B : - 2 ^ (cN c - 1) <= (-1 * 2 ^ cN c + v + 2 ^ (cN c - 1)) / 2 ^ 1 < 0).
    { change (2 ^ 1) with 2. split; [apply Z.div_le_lower_bound; lia|apply Z.div_lt_upper_bound; lia]. }
    apply K. left. unfold deep, tS. rewrite cast_s_small by lia. lia.
  - assert (T : common (tS c) (tU c) = uint (cH c)) by (unfold common, tU, tS, uint, sint; destruct (vc_H c V) as [E|[E|[E|E]]]; rewrite E in *; cbn; try lia; reflexivity).
    assert (NL : cN c < cH c).
    { destruct (vc_H c V) as [E|[E|[E|E]]]; try lia. pose proof (vc_64 c V E). lia. }
    assert (HN : 2 ^ cH c = 2 ^ (cH c - cN c) * 2 ^ cN c) by (rewrite <- Z.pow_add_r by lia; f_equal; lia).
    assert (H2 : 2 <= 2 ^ (cH c - cN c)) by (change 2 with (2 ^ 1) at 1; apply pow2_mono; lia).
    rewrite T, cast_u. assert (M : v mod 2 ^ cH c = (2 ^ (cH c - cN c) - 1) * 2 ^ cN c + (v + 2 ^ cN c)).
    { symmetry. apply (Z.mod_unique _ _ (-1)); [left|]; nia. }
    rewrite M. unfold cxor. rewrite XV. rewrite cshr_ok by (cbn; lia). cbn [bind]. eexists. split; [reflexivity|].
    set (X := (2 ^ (cH c - cN c) - 1) * 2 ^ cN c + v + 2 ^ (cN c - 1)).
    assert (BX : 2 ^ cN c + v + 2 ^ (cN c - 1) <= X < 2 ^ cH c) by (unfold X; split; nia).
    assert (EH : 2 ^ cH c = 2 * 2 ^ (cH c - 1)) by (replace (cH c) with (cH c - 1 + 1) at 1 by lia; apply pow2_S; lia).
    assert (B : 2 ^ (cN c - 1) <= X / 2 /\ X / 2 < 2 ^ (cH c - 1)).
    { split; [apply Z.div_le_lower_bound; lia|apply Z.div_lt_upper_bound; lia]. }
    apply K. right. change (2 ^ 1) with 2. unfold deep, tS. rewrite cast_s_small by lia. lia.
Qed.


(** ** What pseudosoftplus computes: 1+x up to 1 when es=0, useed*x above 1. *)
Lemma value_useed c u : valid_cfg c -> 2 ^ (cN c - 2) <= 2 * u < 2 ^ (cN c - 1) ->
  (value c (2 ^ (cN c - 2) + u) == value c (2 * u) * pow2 (2 ^ ces c))%Q.
Proof.
  intros V B. vcb V. pow_pos 2 (cN c - 2).
  assert (P1 : 2 ^ (cN c - 1) = 2 * 2 ^ (cN c - 2)) by (replace (cN c - 1) with (cN c - 2 + 1) by lia; apply pow2_S; lia).
  rewrite !value_pos_lval by (try assumption; lia).
  destruct (reg_spec (cN c) BN (2 * u) ltac:(lia)) as [R RB].
  assert (K0 : 0 <= reg (cN c) (2 * u)).
  { destruct (Z_lt_le_dec (reg (cN c) (2 * u)) 0) as [L|]; [|assumption]. pose proof (base_lt (cN c) BN _ 0 R ltac:(unfold inreg; lia) L) as Q. rewrite (base_0 (cN c)) in Q by assumption. lia. }
  assert (K1 : reg (cN c) (2 * u) <= cN c - 3).
  { destruct (Z.eq_dec (reg (cN c) (2 * u)) (cN c - 2)) as [E|]; [|unfold inreg in R; lia]. rewrite E in RB. rewrite (base_last (cN c)) in RB by assumption. lia. }
  set (k := reg (cN c) (2 * u)) in *.
  assert (BK : base (cN c) k = 2 ^ (cN c - 1) - 2 * 2 ^ (cN c - 3 - k)).
  { unfold base. destruct (Z.leb_spec 0 k); [|lia]. replace (cN c - 2 - k) with (cN c - 3 - k + 1) by lia. rewrite pow2_S by lia. reflexivity. }
  assert (BK1 : base (cN c) (k + 1) = 2 ^ (cN c - 1) - 2 ^ (cN c - 3 - k)).
  { unfold base. destruct (Z.leb_spec 0 (k + 1)); [|lia]. do 2 f_equal. lia. }
  assert (CK : cnt (cN c) k = 2 ^ (cN c - 3 - k)).
  { unfold cnt, sft. destruct (Z.eqb_spec k (cN c - 2)); [lia|]. destruct (Z.leb_spec 0 k); [reflexivity|lia]. }
  pow_pos 2 (cN c - 3 - k).
  assert (CK1 : base (cN c) (k + 1) <= 2 ^ (cN c - 2) + u < base (cN c) (k + 1) + cnt (cN c) (k + 1)).
  { rewrite BK1. split; [lia|]. unfold cnt, sft. destruct (Z.eqb_spec (k + 1) (cN c - 2)) as [E|NE].
    - replace (cN c - 3 - k) with 0 in * by lia. change (2 ^ 0) with 1 in *. lia.
    - destruct (Z.leb_spec 0 (k + 1)); [|lia]. assert (E2 : 2 ^ (cN c - 3 - k) = 2 * 2 ^ (cN c - 3 - (k + 1))) by (replace (cN c - 3 - k) with (cN c - 3 - (k + 1) + 1) by lia; apply pow2_S; lia). lia. }
  assert (R1 : reg (cN c) (2 ^ (cN c - 2) + u) = k + 1) by (apply reg_unique; [assumption|unfold inreg; lia|exact CK1]).
  assert (PD : pdec (cN c) (2 ^ (cN c - 2) + u) = pdec (cN c) (2 * u) + 2 ^ (cN c - 3)).
  { unfold pdec. rewrite R1. fold k. rewrite BK, BK1. unfold sft. destruct (Z.leb_spec 0 k), (Z.leb_spec 0 (k + 1)); try lia. rewrite pow2_S by lia. rewrite P1. ring. }
  rewrite PD. replace (2 ^ (cN c - 3)) with (2 ^ ces c * 2 ^ gran c) by (unfold gran; rewrite <- Z.pow_add_r by lia; f_equal; lia).
  apply lval_shift. unfold gran; lia.
Qed.
Lemma value_onetwo c u : valid_cfg c -> ces c = 0 -> 0 <= 2 * u <= 2 ^ (cN c - 2) ->
  (value c (2 ^ (cN c - 2) + u) == 1 + value c (2 * u))%Q.
Proof.
  intros V Z0 B. vcb V. pow_pos 2 (cN c - 3).
  assert (P1 : 2 ^ (cN c - 1) = 2 * 2 ^ (cN c - 2)) by (replace (cN c - 1) with (cN c - 2 + 1) by lia; apply pow2_S; lia).
  assert (P2 : 2 ^ (cN c - 2) = 2 * 2 ^ (cN c - 3)) by (replace (cN c - 2) with (cN c - 3 + 1) by lia; apply pow2_S; lia).
  destruct (Z.eq_dec (2 * u) (2 ^ (cN c - 2))) as [E|NE].
  - rewrite value_useed by (try assumption; lia). rewrite E, value_one by assumption. rewrite Z0. reflexivity.
  - rewrite (unit_value c (2 * u)) by (try assumption; lia). rewrite value_pos_lval by (try assumption; lia).
    assert (R : reg (cN c) (2 ^ (cN c - 2) + u) = 0).
    { apply reg_unique; [assumption|unfold inreg; lia|]. rewrite (base_0 (cN c)) by assumption. unfold cnt, sft. cbn [Z.leb Z.compare]. destruct (Z.eqb_spec 0 (cN c - 2)); [lia|]. rewrite Z.sub_0_r. lia. }
    unfold pdec. rewrite R, (base_0 (cN c)) by assumption. unfold sft, gran. cbn [Z.leb Z.compare]. rewrite Z0, Z.sub_0_r. change (2 ^ 0) with 1.
    replace (2 ^ (cN c - 2) + u - 2 ^ (cN c - 2)) with u by lia. rewrite Z.mul_1_r, lval_ef by lia.
    replace (0 - (cN c - 3)) with (2 - cN c + 1) by lia. rewrite <- dy_pow by lia. change (2 ^ 1) with 2. rewrite Z.mul_add_distr_r.
    unfold dy. rewrite inject_Z_plus. replace (2 ^ (cN c - 3) * 2) with (2 ^ (cN c - 2)) by lia. rewrite Qmult_plus_distr_l, <- pow2_Z by lia. rewrite <- pow2_plus. replace (cN c - 2 + (2 - cN c)) with 0 by lia. rewrite (Z.mul_comm u 2). reflexivity.
Qed.

Lemma softplus_round c v x : valid_cfg c -> 0 < v <= maxreal c -> csp c <> WithNanInf \/ v < maxreal c -> (0 < x)%Q ->
  (value c (2 ^ (cN c - 2) + v / 2) <= x)%Q -> (2 ^ (cN c - 2) + v / 2 + 1 < 2 ^ (cN c - 1) -> (x < value c (2 ^ (cN c - 2) + v / 2 + 1))%Q) ->
  rounds_tz c x (2 ^ (cN c - 2) + v / 2).
Proof.
  intros V B NI X0 L U. vcb V. pose proof (maxreal_bounds c BN Bes) as MB. pow_pos 2 (cN c - 2).
  assert (P1 : 2 ^ (cN c - 1) = 2 ^ (cN c - 2) * 2) by (replace (cN c - 1) with (cN c - 2 + 1) by lia; rewrite Z.pow_add_r by lia; lia).
  right; left. split; [assumption|]. pose proof (Z.div_mod v 2 ltac:(lia)) as DM. pose proof (Z.mod_pos_bound v 2 ltac:(lia)) as MM.
  assert (RR : 2 ^ (cN c - 2) + v / 2 <= maxreal c) by (unfold maxreal in *; destruct (csp c); try (destruct NI as [NI|NI]; [contradiction|]); lia).
  apply (down_pos_intro c BN Bes); [lia|left; assumption|].
  destruct (Z.eq_dec (2 ^ (cN c - 2) + v / 2) (maxreal c)) as [E|NE]; [left; exact E|right]. apply U.
  unfold maxreal in *. destruct (csp c); lia.
Qed.
Lemma softplus_above c v : valid_cfg c -> real c v -> (1 <= value c v)%Q -> csp c <> WithNanInf \/ (value c v < value c (maxreal c))%Q ->
  exists r, p_pseudosoftplus c v = Ok r /\ rounds_tz c (value c v * pow2 (2 ^ ces c)) r.
Proof.
  intros V R B NI. vcb V. pose proof (real_bounds c BN Bes v R) as RB. pose proof (maxreal_bounds c BN Bes) as MB. pow_pos 2 (cN c - 3).
  assert (P1 : 2 ^ (cN c - 1) = 2 * 2 ^ (cN c - 2)) by (replace (cN c - 1) with (cN c - 2 + 1) by lia; apply pow2_S; lia).
  assert (P2 : 2 ^ (cN c - 2) = 2 * 2 ^ (cN c - 3)) by (replace (cN c - 2) with (cN c - 3 + 1) by lia; apply pow2_S; lia).
  assert (V1 : 2 ^ (cN c - 2) <= v) by (apply (value_le_inv c BN Bes); [lia|lia|rewrite value_one by assumption; apply B]).
  pose proof (Z.div_mod v 2 ltac:(lia)) as DM. pose proof (Z.mod_pos_bound v 2 ltac:(lia)) as MM. pose proof (pow2_pos (2 ^ ces c)) as PP.
  exists (2 ^ (cN c - 2) + v / 2). split; [apply softplus_run; [assumption|lia]|].
  apply softplus_round; [assumption|unfold real in R; lia| | | |].
  - destruct NI as [NI|NI]; [left; exact NI|right]. apply (value_lt_inv c BN Bes) in NI; lia.
  - apply Qmult_lt_0_compat; lra.
  - rewrite value_useed by (try assumption; lia). apply Qmult_le_compat_r; [|lra]. apply (value_le c BN Bes); lia.
  - intros L. replace (2 ^ (cN c - 2) + v / 2 + 1) with (2 ^ (cN c - 2) + (v / 2 + 1)) by lia. rewrite (value_useed c (v / 2 + 1)) by (try assumption; lia). apply Qmult_lt_r; [exact PP|]. apply (value_lt c BN Bes); lia.
Qed.
Lemma softplus_unit c v : valid_cfg c -> ces c = 0 -> real c v -> (0 <= value c v <= 1)%Q -> csp c <> WithNanInf \/ (value c v < value c (maxreal c))%Q ->
  exists r, p_pseudosoftplus c v = Ok r /\ rounds_tz c (1 + value c v) r.
Proof.
  intros V Z0 R B NI. vcb V. pose proof (real_bounds c BN Bes v R) as RB. pose proof (maxreal_bounds c BN Bes) as MB. pow_pos 2 (cN c - 3).
  assert (P1 : 2 ^ (cN c - 1) = 2 * 2 ^ (cN c - 2)) by (replace (cN c - 1) with (cN c - 2 + 1) by lia; apply pow2_S; lia).
  assert (P2 : 2 ^ (cN c - 2) = 2 * 2 ^ (cN c - 3)) by (replace (cN c - 2) with (cN c - 3 + 1) by lia; apply pow2_S; lia).
  pose proof (one_real c V) as OR. pose proof (real_bounds c BN Bes _ OR) as ORB.
  assert (V0 : 0 <= v) by (apply (value_le_inv c BN Bes); [lia|lia|apply B]).
  assert (V1 : v <= 2 ^ (cN c - 2)) by (apply (value_le_inv c BN Bes); [lia|lia|rewrite value_one by assumption; apply B]).
  destruct (Z.eq_dec v (2 ^ (cN c - 2))) as [E1|N1].
  { destruct (softplus_above c v V R) as (r & E & T); [rewrite E1, value_one by assumption; lra|exact NI|]. exists r. split; [exact E|]. eapply rounds_tz_comp; [assumption|assumption| |exact T].
    rewrite Z0, E1, value_one by assumption. reflexivity. }
  exists (2 ^ (cN c - 2) + v / 2). split; [apply softplus_run; [assumption|lia]|].
  destruct (Z.eq_dec v 0) as [->|NZ].
  - change (0 / 2) with 0. rewrite Z.add_0_r. eapply rounds_tz_comp; [assumption|assumption| |apply rounds_tz_exact; [assumption|assumption|exact OR]]. rewrite value_one by assumption. change (value c 0) with 0%Q. ring.
  - pose proof (Z.div_mod v 2 ltac:(lia)) as DM. pose proof (Z.mod_pos_bound v 2 ltac:(lia)) as MM.
    apply softplus_round; [assumption|unfold real in R; lia| |lra| |].
    + destruct NI as [NI|NI]; [left; exact NI|right]. apply (value_lt_inv c BN Bes) in NI; lia.
    + rewrite (value_onetwo c (v / 2)) by (try assumption; lia). apply Qplus_le_r. apply (value_le c BN Bes); lia.
    + intros _. replace (2 ^ (cN c - 2) + v / 2 + 1) with (2 ^ (cN c - 2) + (v / 2 + 1)) by lia. rewrite (value_onetwo c (v / 2 + 1)) by (try assumption; lia). apply Qplus_lt_r. apply (value_lt c BN Bes); lia.
Qed.

(** x(1-x). *)
Lemma delta c v : valid_cfg c -> exp_ok c -> mul_fits c -> ces c = 0 -> real c v -> (0 <= value c v <= 1)%Q ->
  (room c (value c v * (1 - value c v)) -> exists r, p_urDeltaPs c v = Ok r /\ rounds_tz c (value c v * (1 - value c v)) r) /\
  (~ room c (value c v * (1 - value c v)) -> p_urDeltaPs c v = UB ShiftCount).
Proof.
  intros V X MF Z0 R B. vcb V. destruct (one_minus c v V Z0 R B) as (w & O & RW & VW). unfold p_urDeltaPs. rewrite O. cbn [bind].
  destruct (mul_total c v w V X MF R RW) as [A1 A2]. assert (E : (value c v * value c w == value c v * (1 - value c v))%Q) by (rewrite VW; reflexivity). split.
  - intros RM. destruct A1 as (r & P & H); [eapply room_comp; [symmetry; exact E|exact RM]|]. exists r. split; [exact P|]. eapply rounds_tz_comp; [assumption|assumption|exact E|exact H].
  - intros NR. apply A2. intros RM. apply NR. eapply room_comp; [exact E|exact RM].
Qed.

Lemma sign_tests c v : valid_cfg c -> real c v ->
  (iszero v = true <-> (value c v == 0)%Q) /\ (isone c v = true <-> (value c v == 1)%Q) /\ (isnegative v = true <-> (value c v < 0)%Q).
Proof.
  intros V R. vcb V. pose proof (real_bounds c BN Bes v R) as RB. pose proof (one_real c V) as OR. pose proof (real_bounds c BN Bes _ OR) as ORB.
  assert (P0 : 0 < 2 ^ (cN c - 1)) by (pow_pos 2 (cN c - 1); lia).
  unfold iszero, isone, isnegative. rewrite P_ONE_val by assumption. rewrite !Z.eqb_eq, Z.ltb_lt. repeat split.
  - intros ->. reflexivity.
  - intros E. destruct (Z.lt_trichotomy v 0) as [L|[L|L]]; [|exact L|]; apply (value_lt c BN Bes) in L; try lia; change (value c 0) with 0%Q in L; lra.
  - intros ->. apply value_one. assumption.
  - intros E. pose proof (value_one c V). destruct (Z.lt_trichotomy v (2 ^ (cN c - 2))) as [L|[L|L]]; [|exact L|]; apply (value_lt c BN Bes) in L; try lia; lra.
  - intros L. apply (value_lt c BN Bes) in L; try lia. exact L.
  - intros L. apply (value_lt_inv c BN Bes); try lia. exact L.
Qed.
Lemma delta_bad c : valid_cfg c -> 0 < ces c -> let v := 2 ^ (cN c - 3) in
  real c v /\ (0 <= value c v <= 1)%Q /\ p_urDeltaPs c v = p_mul c v v /\ ~ (value c v == 1 - value c v)%Q.
Proof.
  intros V E v. destruct (one_minus_bad c V E) as (R & U & VV & O & NE). fold v in R, U, VV, O, NE.
  assert (PT : pattern c v) by (vcb V; pose proof (real_bounds c BN Bes v R); unfold pattern; lia).
  split; [exact R|]. split; [apply (unit_range c v V PT), U|]. split; [|exact NE]. unfold p_urDeltaPs. rewrite O. reflexivity.
Qed.
