(** Level-1 tricks (unit range, pseudosigmoid), std:: functions, and operations of Unpacked. *)
From Coq Require Import ZArith QArith Qabs Lia Lqa Bool.
From Verif Require Import Res CInt Bits Cfg Spec Posit Unpacked Traits QPow Core SpecLemmas Arith DecodeProof EncodeProof UOps UAdd Ops Laws Configs Final1 Final2 Final4.
Open Scope Z_scope.

(** With es = 0 the posits of [0,1] are equally spaced. *)
Lemma unit_value c v : valid_cfg c -> ces c = 0 -> 0 <= v <= 2 ^ (cN c - 2) ->
  (value c v == dy v (2 - cN c))%Q.
Proof.
  intros V Z0 B. vcb V. destruct (Z.eq_dec v 0) as [->|NZ]; [symmetry; apply dy_0|].
  assert (P1 : 2 ^ (cN c - 1) = 2 * 2 ^ (cN c - 2)) by (replace (cN c - 1) with (cN c - 2 + 1) by lia; apply pow2_S; lia).
  pow_pos 2 (cN c - 2).
  rewrite value_pos_lval by (try assumption; lia). unfold gran. rewrite Z0, Z.sub_0_r.
  destruct (Z.eq_dec v (2 ^ (cN c - 2))) as [->|NE].
  - unfold pdec. rewrite (reg_unique (cN c) BN _ 0).
    + rewrite (base_0 (cN c)) by assumption. rewrite Z.sub_diag, !Z.mul_0_l, Z.add_0_r.
      replace 0 with (0 * 2 ^ (cN c - 3) + 0) at 1 by lia. rewrite lval_ef by (pow_pos 2 (cN c - 3); lia).
      rewrite Z.add_0_r. rewrite <- (Z.mul_1_l (2 ^ (cN c - 3))), <- (Z.mul_1_l (2 ^ (cN c - 2))), !dy_pow by lia.
      replace (0 - (cN c - 3) + (cN c - 3)) with 0 by lia. replace (2 - cN c + (cN c - 2)) with 0 by lia. reflexivity.
    + unfold inreg. lia.
    + rewrite (base_0 (cN c)) by assumption. unfold cnt, sft. cbn [Z.leb Z.compare].
      destruct (Z.eqb_spec 0 (cN c - 2)); [lia|]. pow_pos 2 (cN c - 3 - 0). lia.
  - unfold pdec, reg. destruct (Z.ltb_spec v (2 ^ (cN c - 2))); [|lia].
    destruct (Z.log2_spec v ltac:(lia)) as [L1 L2]. set (l := Z.log2 v) in *. assert (L0 : 0 <= l) by apply Z.log2_nonneg.
    assert (LN : l < cN c - 2) by (apply Z.log2_lt_pow2; lia).
    set (k := l - (cN c - 2)). unfold base, sft. destruct (Z.leb_spec 0 k); [lia|].
    replace (cN c - 2 + k) with l by (unfold k; lia).
    assert (E3 : 2 ^ (cN c - 3) = 2 ^ l * 2 ^ (- k - 1)) by (rewrite <- Z.pow_add_r by (unfold k; lia); f_equal; unfold k; lia).
    pow_pos 2 (- k - 1). rewrite Z.pow_succ_r in L2 by lia.
    rewrite lval_ef by (rewrite E3; nia).
    rewrite E3, <- Z.mul_add_distr_r. replace (2 ^ l + (v - 2 ^ l)) with v by lia.
    rewrite dy_pow by (unfold k; lia). replace (k - (cN c - 3) + (- k - 1)) with (2 - cN c) by lia. reflexivity.
Qed.
Lemma value_one c : valid_cfg c -> (value c (2 ^ (cN c - 2)) == 1)%Q.
Proof.
  intros V. pose proof (constants c V) as C. rewrite <- (proj1 (proj2 C)). unfold p_one. rewrite P_ONE_val by assumption.
  vcb V. unfold deep, tS. assert (2 ^ (cN c - 2) < 2 ^ (cH c - 1)) by (apply Z.pow_lt_mono_r; lia). pow_pos 2 (cN c - 2). rewrite cast_s_small by lia. reflexivity.
Qed.
Lemma one_real c : valid_cfg c -> real c (2 ^ (cN c - 2)).
Proof.
  intros V. vcb V. pow_pos 2 (cN c - 3).
  assert (P1 : 2 ^ (cN c - 1) = 2 * 2 ^ (cN c - 2)) by (replace (cN c - 1) with (cN c - 2 + 1) by lia; apply pow2_S; lia).
  assert (P2 : 2 ^ (cN c - 2) = 2 * 2 ^ (cN c - 3)) by (replace (cN c - 2) with (cN c - 3 + 1) by lia; apply pow2_S; lia).
  unfold real, maxreal. destruct (csp c); lia.
Qed.

Lemma unit_range c v : valid_cfg c -> pattern c v ->
  (p_isUnitRange c v = true <-> real c v /\ (0 <= value c v <= 1)%Q).
Proof.
  intros V P. vcb V. unfold p_isUnitRange. rewrite P_ONE_val by assumption. rewrite andb_true_iff, Z.geb_leb, !Z.leb_le.
  pose proof (one_real c V) as OR. pow_pos 2 (cN c - 2).
  assert (P1 : 2 ^ (cN c - 1) = 2 * 2 ^ (cN c - 2)) by (replace (cN c - 1) with (cN c - 2 + 1) by lia; apply pow2_S; lia).
  split.
  - intros [A B]. assert (R : real c v) by (unfold real in *; lia). split; [assumption|].
    assert (A1 := value_le c BN Bes 0 v ltac:(lia) ltac:(lia) ltac:(lia)). assert (B1 := value_le c BN Bes v _ ltac:(lia) B ltac:(lia)).
    rewrite (value_one c V) in B1. split; assumption.
  - intros [R [A B]]. assert (A1 : (value c 0 <= value c v)%Q) by exact A. assert (B1 : (value c v <= value c (2 ^ (cN c - 2)))%Q) by (rewrite (value_one c V); exact B).
    pose proof (real_bounds c BN Bes v R).
    apply (value_le_inv c BN Bes) in A1; [|lia|lia]. apply (value_le_inv c BN Bes) in B1; lia.
Qed.

Lemma one_minus_run c v : valid_cfg c -> 0 <= v <= 2 ^ (cN c - 2) -> p_urOneMinus c v = Ok (2 ^ (cN c - 2) - v).
Proof.
  intros V B. vcb V. unfold p_urOneMinus, INVERTBIT, csub.
  assert (L : 2 ^ (cN c - 2) < 2 ^ (cH c - 1)) by (apply Z.pow_lt_mono_r; lia).
  assert (M : 2 ^ (cH c - 1) <= 2 ^ (cH c)) by (apply pow2_mono; lia).
  set (t := 2 ^ (cN c - 2)) in *.
  assert (K : forall ty, (ty = c_int \/ ty = uint (cH c)) -> (ty = c_int -> cH c < 32) -> cast ty v = v /\ arith ty (t - v) = Ok (t - v)).
  { intros ty [->| ->] Hs.
    - specialize (Hs eq_refl). assert (2 ^ (cH c - 1) <= 2 ^ 31) by (apply pow2_mono; lia). change (2 ^ 31) with 2147483648 in *.
      split; [apply (cast_s_small 32); change (2 ^ (32 - 1)) with 2147483648; lia|]. apply (arith_s 32); [lia|]. change (2 ^ (32 - 1)) with 2147483648. lia.
    - split; [apply cast_u_small; lia|]. unfold arith, uint, isg, iw. f_equal. apply Z.mod_small. lia. }
  assert (T : common (tU c) (tS c) = c_int /\ cH c < 32 \/ common (tU c) (tS c) = uint (cH c)).
  { unfold common, tU, tS, uint, sint. destruct (vc_H c V) as [E|[E|[E|E]]]; rewrite E; cbn; [left|left|right|right]; repeat split; lia. }
  assert (G : cast (common (tU c) (tS c)) v = v /\ arith (common (tU c) (tS c)) (t - v) = Ok (t - v)).
  { destruct T as [[-> T]| ->]; apply K; auto. intros E. exfalso. discriminate E. }
  destruct G as [G1 G2]. rewrite G1, G2. cbn [bind]. f_equal. unfold deep, tS. apply cast_s_small; lia.
Qed.
Lemma one_minus c v : valid_cfg c -> ces c = 0 -> real c v -> (0 <= value c v <= 1)%Q ->
  exists r, p_urOneMinus c v = Ok r /\ real c r /\ (value c r == 1 - value c v)%Q.
Proof.
  intros V Z0 R B. vcb V.
  assert (P : pattern c v) by (pose proof (real_bounds c BN Bes v R); unfold pattern; lia).
  assert (U := proj2 (unit_range c v V P) (conj R B)). unfold p_isUnitRange in U. rewrite P_ONE_val in U by assumption.
  rewrite andb_true_iff, Z.geb_leb, !Z.leb_le in U. 
  exists (2 ^ (cN c - 2) - v). split; [apply one_minus_run; assumption|].
  pose proof (one_real c V) as OR. split; [unfold real in *; lia|].
  rewrite !unit_value by (try assumption; lia). rewrite <- (value_one c V), unit_value by (try assumption; lia).
  unfold dy. unfold Z.sub. rewrite inject_Z_plus, inject_Z_opp. ring.
Qed.
(** For every es > 0 it fails at the pattern 0010..0. *)
Lemma one_minus_bad c : valid_cfg c -> 0 < ces c ->
  let v := 2 ^ (cN c - 3) in
  real c v /\ p_isUnitRange c v = true /\ (value c v == pow2 (- 2 ^ ces c))%Q /\ p_urOneMinus c v = Ok v /\ ~ (value c v == 1 - value c v)%Q.
Proof.
  intros V E v. vcb V.
  assert (P2 : 2 ^ (cN c - 2) = 2 * v) by (unfold v; replace (cN c - 2) with (cN c - 3 + 1) by lia; apply pow2_S; lia).
  assert (V0 : 0 < v) by (unfold v; apply Z.pow_pos_nonneg; lia).
  assert (P1 : 2 ^ (cN c - 1) = 4 * v) by (replace (cN c - 1) with (cN c - 3 + 2) by lia; unfold v; rewrite Z.pow_add_r by lia; lia).
  pose proof (one_real c V) as OR. assert (R : real c v) by (unfold real in *; lia).
  assert (VV : (value c v == pow2 (- 2 ^ ces c))%Q).
  { rewrite value_pos_lval by (try assumption; lia). unfold pdec. rewrite (reg_unique (cN c) BN _ (-1)).
    - unfold base, sft. cbn [Z.leb Z.compare]. replace (cN c - 2 + -1) with (cN c - 3) by lia. fold v. rewrite Z.sub_diag, Z.mul_0_l.
      assert (G : v = 2 ^ ces c * 2 ^ (gran c)) by (unfold v, gran; rewrite <- Z.pow_add_r by lia; f_equal; lia).
      fold v. rewrite G. replace (-1 * (2 ^ ces c * 2 ^ gran c) + 0) with ((- 2 ^ ces c) * 2 ^ gran c + 0) by ring.
      pose proof (gran_nonneg c BN Bes). rewrite lval_ef by (pow_pos 2 (gran c); lia). rewrite Z.add_0_r, <- (Z.mul_1_l (2 ^ gran c)), dy_pow by lia.
      replace (- 2 ^ ces c - gran c + gran c) with (- 2 ^ ces c) by lia. unfold dy. ring.
    - unfold inreg. lia.
    - unfold base, cnt, sft. cbn [Z.leb Z.compare]. replace (cN c - 2 + -1) with (cN c - 3) by lia. fold v.
      destruct (Z.eqb_spec (-1) (cN c - 2)); [lia|]. replace (cN c - 3 - (- -1 - 1)) with (cN c - 3) by lia. fold v. lia. }
  split; [assumption|]. split.
  { unfold p_isUnitRange. rewrite P_ONE_val by assumption. rewrite andb_true_iff, Z.geb_leb, !Z.leb_le. lia. }
  split; [assumption|]. split.
  { rewrite one_minus_run by (try assumption; lia). f_equal. lia. }
  intros A. rewrite VV in A. assert (2 <= 2 ^ ces c) by (change 2 with (2 ^ 1) at 1; apply pow2_mono; lia).
  assert (pow2 (- 2 ^ ces c) <= pow2 (-2))%Q by (apply pow2_le; lia). change (pow2 (-2)) with (1 # 4) in *. lra.
Qed.

(** pseudosigmoid. *)
Lemma sigmoid_run c v : valid_cfg c -> 0 <= v < 2 ^ (cN c - 1) ->
  p_pseudosigmoid c v = Ok (2 ^ (cN c - 3) + v / 4).
Proof.
  intros V B. vcb V. unfold p_pseudosigmoid, SIGNBIT.
  assert (L : 2 ^ (cN c - 1) <= 2 ^ (cH c - 1)) by (apply pow2_mono; lia).
  assert (HH : 2 ^ cH c = 2 * 2 ^ (cH c - 1)) by (replace (cH c) with (cH c - 1 + 1) at 1 by lia; apply pow2_S; lia).
  assert (T : common (tS c) (tU c) = c_int /\ cH c < 32 \/ common (tS c) (tU c) = uint (cH c)).
  { unfold common, tU, tS, uint, sint. destruct (vc_H c V) as [E|[E|[E|E]]]; rewrite E; cbn; [left|left|right|right]; repeat split; lia. }
  assert (X : cxor v (2 ^ (cN c - 1)) = 2 ^ (cN c - 1) + v).
  { unfold cxor. rewrite Z.lxor_comm.
    rewrite Z.add_nocarry_lxor; [reflexivity|]. apply Z.bits_inj'. intros i I. rewrite Z.land_spec, Z.bits_0, Z.pow2_bits_eqb by lia.
    destruct (Z.eqb_spec (cN c - 1) i) as [<-|NE]; [|reflexivity]. cbn. rewrite testbit_div by lia. rewrite Z.div_small by lia. reflexivity. }
  assert (C1 : cast (common (tS c) (tU c)) v = v).
  { destruct T as [[-> T]| ->]; [|apply cast_u_small; lia]. assert (2 ^ (cH c - 1) <= 2 ^ 31) by (apply pow2_mono; lia). apply (cast_s_small 32); change (2 ^ (32 - 1)) with (2 ^ 31); lia. }
  rewrite C1, X.
  assert (S2 : cshr (common (tS c) (tU c)) (2 ^ (cN c - 1) + v) 2 = Ok ((2 ^ (cN c - 1) + v) / 2 ^ 2)).
  { destruct T as [[-> T]| ->]; apply cshr_ok; cbn; lia. }
  rewrite S2. cbn [bind]. f_equal. change (2 ^ 2) with 4.
  assert (P1 : 2 ^ (cN c - 1) = 2 ^ (cN c - 3) * 4) by (replace (cN c - 1) with (cN c - 3 + 2) by lia; rewrite Z.pow_add_r by lia; lia).
  rewrite P1, Z.add_comm, Z.div_add, Z.add_comm by lia.
  unfold deep, tS. apply cast_s_small; [lia|]. assert (0 <= v / 4 < 2 ^ (cN c - 3)) by (split; [apply Z.div_pos; lia|apply Z.div_lt_upper_bound; lia]). pow_pos 2 (cN c - 3). lia.
Qed.
Lemma sigmoid c v : valid_cfg c -> ces c = 0 -> real c v -> (0 <= value c v)%Q ->
  exists r, p_pseudosigmoid c v = Ok r /\ real c r /\ (1 # 2 <= value c r < 1)%Q /\
    (v = 0 -> (value c r == 1 # 2)%Q) /\
    (forall w s, real c w -> (value c v <= value c w)%Q -> p_pseudosigmoid c w = Ok s -> (value c r <= value c s)%Q).
Proof.
  intros V Z0 R P. vcb V. pose proof (real_bounds c BN Bes v R) as RB. 
  assert (P1 : 2 ^ (cN c - 1) = 2 ^ (cN c - 3) * 4) by (replace (cN c - 1) with (cN c - 3 + 2) by lia; rewrite Z.pow_add_r by lia; lia).
  assert (P2 : 2 ^ (cN c - 2) = 2 ^ (cN c - 3) * 2) by (replace (cN c - 2) with (cN c - 3 + 1) by lia; rewrite Z.pow_add_r by lia; lia).
  assert (V0 : 0 <= v).
  { apply (value_le_inv c BN Bes); [pow_pos 2 (cN c - 1); lia|lia|]. exact P. }
  assert (D : forall w, 0 <= w < 2 ^ (cN c - 1) -> 0 <= w / 4 < 2 ^ (cN c - 3)) by (intros w W; split; [apply Z.div_pos; lia|apply Z.div_lt_upper_bound; lia]).
  pose proof (D v ltac:(lia)) as Dv. pose proof (one_real c V) as OR. pow_pos 2 (cN c - 3).
  exists (2 ^ (cN c - 3) + v / 4). split; [apply sigmoid_run; [assumption|lia]|].
  split; [unfold real in *; lia|].
  assert (H2 : (value c (2 ^ (cN c - 3)) == 1 # 2)%Q).
  { rewrite unit_value by (try assumption; lia). rewrite <- (Z.mul_1_l (2 ^ (cN c - 3))), dy_pow by lia.
    replace (2 - cN c + (cN c - 3)) with (-1) by lia. reflexivity. }
  split; [|split].
  - rewrite <- H2, <- (value_one c V). split; [apply (value_le c BN Bes); try assumption; lia|apply (value_lt c BN Bes); try assumption; lia].
  - intros ->. change (0 / 4) with 0. rewrite Z.add_0_r. exact H2.
  - intros w s Rw L E. pose proof (real_bounds c BN Bes w Rw) as RBw. apply (value_le_inv c BN Bes) in L; [|lia|lia].
    rewrite sigmoid_run in E by (try assumption; lia). injection E as <-. pose proof (D w ltac:(lia)).
    apply (value_le c BN Bes); try assumption; try lia. apply Zplus_le_compat_l. apply Z.div_le_mono; lia.
Qed.
(** With T = int32_t and totalbits = 32 it also works below zero. *)
Lemma sigmoid_32 c v : valid_cfg c -> cH c = 32 -> cN c = 32 -> - 2 ^ 31 <= v < 2 ^ 31 ->
  p_pseudosigmoid c v = Ok ((v + 2 ^ 31) / 4).
Proof.
  intros V EH EN B. unfold p_pseudosigmoid, SIGNBIT, common, tU, tS, uint, sint. rewrite EH, EN. cbn [iw isg prom Z.ltb Z.compare Pos.compare Pos.compare_cont Z.leb Z.eqb Pos.eqb].
  change (32 - 1) with 31.
  assert (C1 : cast {| iw := 32; isg := false |} v = v mod 2 ^ 32) by apply (cast_u 32).
  assert (X : cxor (v mod 2 ^ 32) (2 ^ 31) = v + 2 ^ 31).
  { change (2 ^ 32) with 4294967296. assert (E31 : 2 ^ 31 = 2147483648) by reflexivity. unfold cxor. destruct (Z_lt_ge_dec v 0).
    - assert (M : v mod 4294967296 = v + 2147483648 + 2 ^ 31) by (symmetry; apply (Z.mod_unique _ _ (-1)); lia). rewrite M.
      assert (A : v + 2147483648 + 2 ^ 31 = Z.lxor (v + 2147483648) (2 ^ 31)).
      { rewrite Z.add_nocarry_lxor; [reflexivity|]. apply Z.bits_inj'. intros i I. rewrite Z.land_spec, Z.bits_0, Z.pow2_bits_eqb by lia.
        destruct (Z.eqb_spec 31 i) as [<-|NE]; [|apply andb_false_r]. rewrite testbit_div by lia. rewrite Z.div_small by lia. reflexivity. }
      rewrite A, Z.lxor_assoc, Z.lxor_nilpotent, Z.lxor_0_r. lia.
    - rewrite Z.mod_small by lia. rewrite <- Z.add_nocarry_lxor; [lia|]. apply Z.bits_inj'. intros i I. rewrite Z.land_spec, Z.bits_0, Z.pow2_bits_eqb by lia.
      destruct (Z.eqb_spec 31 i) as [<-|NE]; [|apply andb_false_r]. rewrite testbit_div by lia. rewrite Z.div_small by lia. reflexivity. }
  match goal with |- bind (cshr ?t _ _) _ = _ => change t with (uint 32) end.
  change {| iw := 32; isg := false |} with (uint 32) in *. rewrite C1, X, cshr_ok by (cbn; lia). cbn [bind]. f_equal. unfold deep, tS. rewrite EH. change (2 ^ 2) with 4.
  apply (cast_s_small 32); [lia|]. change (2 ^ (32 - 1)) with 2147483648. change (2 ^ 31) with 2147483648 in *.
  assert (0 <= (v + 2147483648) / 4) by (apply Z.div_pos; lia). assert ((v + 2147483648) / 4 < 2147483648) by (apply Z.div_lt_upper_bound; lia). lia.
Qed.
Lemma sigmoid_bad :
  (valid_cfg p8 /\ ces p8 = 0 /\ real p8 (-64) /\ (value p8 (-64) == -1)%Q /\
     p_pseudosigmoid p8 (-64) = Ok (-48) /\ (value p8 (-48) < 0)%Q) /\
  (valid_cfg p10 /\ ces p10 = 0 /\ real p10 (-64) /\ exists r, p_pseudosigmoid p10 (-64) = Ok r /\ (~ real p10 r \/ (value p10 r < 0)%Q)).
Proof.
  split.
  - split; [exact valid_p8|]. vm_compute. repeat split; discriminate.
  - split; [exact valid_p10|]. split; [reflexivity|]. split; [vm_compute; split; discriminate|].
    eexists. split; [vm_compute; reflexivity|]. right. reflexivity.
Qed.
Lemma sigmoid_int32 c v : valid_cfg c -> ces c = 0 -> cH c = 32 -> cN c = 32 -> real c v ->
  exists r, p_pseudosigmoid c v = Ok r /\ real c r /\ (0 <= value c r < 1)%Q /\
    (v = 0 -> (value c r == 1 # 2)%Q) /\
    (forall w s, real c w -> (value c v <= value c w)%Q -> p_pseudosigmoid c w = Ok s -> (value c r <= value c s)%Q).
Proof.
  intros V Z0 EH EN R. vcb V. pose proof (one_real c V) as OR. pose proof (value_one c V) as V1.
  assert (RB : forall w, real c w -> - 2147483648 < w < 2147483648) by (intros w W; pose proof (real_bounds c BN Bes w W) as Q; rewrite EN in Q; exact Q).
  assert (D : forall w, real c w -> 0 <= (w + 2 ^ 31) / 4 < 2 ^ 30).
  { intros w W. specialize (RB w W). change (2 ^ 31) with 2147483648. change (2 ^ 30) with 1073741824.
    split; [apply Z.div_pos; lia|apply Z.div_lt_upper_bound; lia]. }
  rewrite EN in V1, OR. change (2 ^ (32 - 2)) with (2 ^ 30) in *.
  assert (SR : forall w, real c w -> p_pseudosigmoid c w = Ok ((w + 2 ^ 31) / 4)).
  { intros w W. specialize (RB w W). apply sigmoid_32; try assumption. change (2 ^ 31) with 2147483648. lia. }
  assert (PB : 2 ^ (cN c - 1) = 2147483648) by (rewrite EN; reflexivity).
  assert (E30 : 2 ^ 30 = 1073741824) by reflexivity.
  exists ((v + 2 ^ 31) / 4). split; [apply SR; assumption|]. pose proof (D v R) as Dv. split; [unfold real in *; lia|].
  split; [|split].
  - set (r := (v + 2 ^ 31) / 4) in *. assert (A1 : (value c 0 <= value c r)%Q) by (apply (value_le c BN Bes); lia).
    assert (B1 : (value c r < value c (2 ^ 30))%Q) by (apply (value_lt c BN Bes); lia). rewrite V1 in B1. split; assumption.
  - intros ->. rewrite unit_value; [|assumption|assumption|rewrite EN; vm_compute; split; discriminate]. rewrite EN. reflexivity.
  - intros w s W L E. rewrite SR in E by assumption. injection E as <-. pose proof (D w W). pose proof (RB w W). pose proof (RB v R).
    apply (value_le_inv c BN Bes) in L; [|lia|lia]. apply (value_le c BN Bes); try lia. apply Z.div_le_mono; lia.
Qed.

(** Toggling the sign bit of a negative number. *)
Lemma xor_low u n : 0 <= n -> 2 ^ n <= u -> u < 2 ^ n + 2 ^ n -> Z.lxor u (2 ^ n) = u - 2 ^ n.
Proof.
  intros N L U. pow_pos 2 n.
  assert (A : u = Z.lxor (u - 2 ^ n) (2 ^ n)).
  { rewrite <- Z.add_nocarry_lxor; [lia|]. apply Z.bits_inj'. intros i I. rewrite Z.land_spec, Z.bits_0, Z.pow2_bits_eqb by lia.
    destruct (Z.eqb_spec n i) as [<-|NE]; [|apply andb_false_r]. rewrite testbit_div by lia. rewrite Z.div_small by lia. reflexivity. }
  rewrite A at 1. rewrite Z.lxor_assoc, Z.lxor_nilpotent. apply Z.lxor_0_r.
Qed.
Lemma xor_high h v n : 0 <= n -> - 2 ^ n <= v < 0 -> Z.lxor (h * 2 ^ (n + 1) + (v + 2 ^ (n + 1))) (2 ^ n) = h * 2 ^ (n + 1) + v + 2 ^ n.
Proof.
  intros N B. pow_pos 2 n. rewrite pow2_S in * by lia.
  assert (D : forall x, 0 <= x < 2 * 2 ^ n -> h * (2 * 2 ^ n) + x = Z.lxor (h * (2 * 2 ^ n)) x).
  { intros x X. rewrite <- Z.add_nocarry_lxor; [reflexivity|]. apply Z.bits_inj'. intros i I. rewrite Z.land_spec, Z.bits_0.
    rewrite <- pow2_S by lia. destruct (Z_lt_ge_dec i (n + 1)).
    - rewrite Z.mul_pow2_bits_low by lia. reflexivity.
    - rewrite (testbit_div x i) by lia. rewrite Z.div_small; [apply andb_false_r|]. split; [lia|]. rewrite <- pow2_S in X by lia.
      apply Z.lt_le_trans with (2 ^ (n + 1)); [lia|]. apply pow2_mono. lia. }
  rewrite D by lia. rewrite Z.lxor_assoc. rewrite xor_low by lia. rewrite <- D by lia. lia.
Qed.
Lemma sigmoid_negative c v : valid_cfg c -> real c v -> v < 0 -> ~ (cH c = 32 /\ cN c = 32) ->
  exists r, p_pseudosigmoid c v = Ok r /\ ~ (real c r /\ (0 <= value c r < 1)%Q).
Proof.
  intros V R Vn NH. vcb V. pose proof (real_bounds c BN Bes v R) as RB. pow_pos 2 (cN c - 3).
  assert (P1 : 2 ^ (cN c - 1) = 2 ^ (cN c - 3) * 4) by (replace (cN c - 1) with (cN c - 3 + 2) by lia; rewrite Z.pow_add_r by lia; lia).
  assert (P2 : 2 ^ (cN c - 2) = 2 ^ (cN c - 3) * 2) by (replace (cN c - 2) with (cN c - 3 + 1) by lia; rewrite Z.pow_add_r by lia; lia).
  assert (P0 : 2 ^ (cN c) = 2 ^ (cN c - 3) * 8) by (replace (cN c) with (cN c - 3 + 3) at 1 by lia; rewrite Z.pow_add_r by lia; lia).
  assert (LH : 2 ^ (cN c - 1) <= 2 ^ (cH c - 1)) by (apply pow2_mono; lia).
  assert (K : forall r, r < 0 \/ 2 ^ (cN c - 2) <= r -> ~ (real c r /\ (0 <= value c r < 1)%Q)).
  { intros r C [Rr [B1 B2]]. pose proof (real_bounds c BN Bes r Rr).
    assert (A1 : (value c 0 <= value c r)%Q) by exact B1. assert (A2 : (value c r < value c (2 ^ (cN c - 2)))%Q) by (rewrite (value_one c V); exact B2).
    apply (value_le_inv c BN Bes) in A1; [|lia|lia]. apply (value_lt_inv c BN Bes) in A2; lia. }
  unfold p_pseudosigmoid, SIGNBIT.
  assert (XV : forall h, Z.lxor (h * 2 ^ cN c + (v + 2 ^ cN c)) (2 ^ (cN c - 1)) = h * 2 ^ cN c + v + 2 ^ (cN c - 1)).
  { intros h. pose proof (xor_high h v (cN c - 1) ltac:(lia) ltac:(lia)) as X. replace (cN c - 1 + 1) with (cN c) in X by lia. exact X. }
  destruct (Z_lt_ge_dec (cH c) 32) as [S|S].
  - assert (T : common (tS c) (tU c) = c_int) by (unfold common, tU, tS, uint, sint; destruct (vc_H c V) as [E|[E|[E|E]]]; rewrite E in *; cbn; try lia; reflexivity).
    rewrite T. assert (L31 : 2 ^ (cH c - 1) <= 2 ^ 31) by (apply pow2_mono; lia).
    replace (cast c_int v) with v by (symmetry; apply (cast_s_small 32); change (2 ^ (32 - 1)) with (2 ^ 31); lia).
    pose proof (XV (-1)) as X. replace (-1 * 2 ^ cN c + (v + 2 ^ cN c)) with v in X by ring.
    unfold cxor. rewrite X. rewrite cshr_ok by (cbn; lia). cbn [bind]. eexists. split; [reflexivity|].
    assert (B : - 2 ^ (cN c - 2) <= (-1 * 2 ^ cN c + v + 2 ^ (cN c - 1)) / 2 ^ 2 < 0).
    { change (2 ^ 2) with 4. split; [apply Z.div_le_lower_bound; lia|apply Z.div_lt_upper_bound; lia]. }
    apply K. left. unfold deep, tS. rewrite cast_s_small by lia. lia.
  - assert (T : common (tS c) (tU c) = uint (cH c)) by (unfold common, tU, tS, uint, sint; destruct (vc_H c V) as [E|[E|[E|E]]]; rewrite E in *; cbn; try lia; reflexivity).
    assert (NL : cN c < cH c).
    { destruct (vc_H c V) as [E|[E|[E|E]]]; try lia. pose proof (vc_64 c V E). lia. }
    assert (HN : 2 ^ cH c = 2 ^ (cH c - cN c) * 2 ^ cN c) by (rewrite <- Z.pow_add_r by lia; f_equal; lia).
    assert (H2 : 2 <= 2 ^ (cH c - cN c)) by (change 2 with (2 ^ 1) at 1; apply pow2_mono; lia).
    rewrite T, cast_u. assert (M : v mod 2 ^ cH c = (2 ^ (cH c - cN c) - 1) * 2 ^ cN c + (v + 2 ^ cN c)).
    { symmetry. apply (Z.mod_unique _ _ (-1)); [left|]; nia. }
    rewrite M. unfold cxor. rewrite XV. rewrite cshr_ok by (cbn; lia). cbn [bind]. eexists. split; [reflexivity|].
    set (X := (2 ^ (cH c - cN c) - 1) * 2 ^ cN c + v + 2 ^ (cN c - 1)).
    assert (BX : 2 ^ cN c + v + 2 ^ (cN c - 1) <= X < 2 ^ cH c) by (unfold X; split; nia).
    assert (EH : 2 ^ cH c = 2 * 2 ^ (cH c - 1)) by (replace (cH c) with (cH c - 1 + 1) at 1 by lia; apply pow2_S; lia).
    assert (B : 2 ^ (cN c - 3) * 2 <= X / 4 /\ X / 4 < 2 ^ (cH c - 1)).
    { split; [apply Z.div_le_lower_bound; lia|apply Z.div_lt_upper_bound; lia]. }
    apply K. right. change (2 ^ 2) with 4. unfold deep, tS. rewrite cast_s_small by lia. lia.
Qed.
