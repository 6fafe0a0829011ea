(** Conversion between posits and int. *)
From Coq Require Import ZArith QArith Qabs Lia Lqa List Bool.
From Verif Require Import Res CInt Bits Traits Cfg Spec Unpacked Posit QPow Core SpecLemmas Arith DecodeProof EncodeProof UOps UAdd Ops
  OpsAdd Room Laws Configs Final1 Conv1 Conv2.
Open Scope Z_scope.

Lemma unpack_int F E i : is_width F -> is_width E -> - 2 ^ 31 < i < 2 ^ 31 -> i <> 0 ->
  exists f, u_unpack_xfixed F E int_trait i = Ok (U Regular (i <? 0) (Z.log2 (Z.abs i)) f) /\
    0 <= f < 2 ^ F /\ cell F (Z.log2 (Z.abs i)) f 0 (inject_Z (Z.abs i)) /\
    (32 <= F -> (uvalue F (i <? 0) (Z.log2 (Z.abs i)) f == inject_Z i)%Q).
Proof.
  intros WF WE B NZ. pose proof (is_width_pos F WF). pose proof (is_width_pos E WE). unfold u_unpack_xfixed.
  destruct (Z.eqb_spec i 0); [contradiction|]. cbn [negb int_trait x_w x_total x_frac]. cbn zeta.
  assert (PC : pcabs 32 i = Ok (Z.abs i)).
  { unfold pcabs. destruct (Z.ltb_spec i 0).
    - unfold cneg. change (prom (sint 32)) with (sint 32). rewrite arith_s by lia. cbn [bind].
      rewrite cast_s_small by lia. f_equal. lia.
    - f_equal. lia. }
  rewrite PC. cbn [bind]. set (a := Z.abs i). assert (A : 0 < a < 2 ^ 31) by (unfold a; lia).
  change (2 ^ 31) with 2147483648 in *.
  rewrite (cast_u_small 32 a) by (change (2 ^ 32) with 4294967296; lia).
  rewrite clz_spec; [|right; right; left; reflexivity|change (2 ^ 32) with 4294967296; lia]. cbn [bind].
  replace (32 - (32 - 1 - Z.log2 a) - 1) with (Z.log2 a) by lia.
  pose proof (Z.log2_spec a ltac:(lia)) as LS. set (p := Z.log2 a) in *.
  assert (P : 0 <= p < 31) by (split; [apply Z.log2_nonneg|apply Z.log2_lt_pow2; lia]).
  rewrite Z.pow_succ_r in LS by lia. pow_pos 2 p. pow_pos 2 F. pow_pos 2 (32 - p).
  assert (E32 : 2 ^ 32 = 2 ^ p * 2 ^ (32 - p)) by (rewrite <- Z.pow_add_r by lia; f_equal; lia).
  assert (UX : (if p =? 0 then Ok 0 else let! r := cshl (prom (uint 32)) a (32 - p) in Ok (cast (uint 32) r)) = Ok ((a - 2 ^ p) * 2 ^ (32 - p))).
  { destruct (Z.eqb_spec p 0) as [P0|P0].
    - rewrite P0 in LS |- *. change (2 ^ 0) with 1 in LS |- *. replace a with 1 by lia. reflexivity.
    - destruct (cshl_u 32 a (32 - p)) as (r & R1 & R2); [right; right; left; reflexivity|change (2 ^ 32) with 4294967296; lia|lia|unfold pw; lia|].
      rewrite R1. cbn [bind]. rewrite R2. f_equal.
      replace (a * 2 ^ (32 - p)) with ((a - 2 ^ p) * 2 ^ (32 - p) + 1 * 2 ^ 32) by (rewrite E32; ring).
      rewrite Z.mod_add by lia. apply Z.mod_small. rewrite E32. nia. }
  rewrite UX. cbn [bind].
  assert (UB0 : 0 <= (a - 2 ^ p) * 2 ^ (32 - p) < 2 ^ 32) by (rewrite E32; nia).
  destruct (crl_spec 32 32 F ((a - 2 ^ p) * 2 ^ (32 - p))) as (f & C1 & C2 & C3);
    [right; right; left; reflexivity|assumption|lia|lia|assumption|].
  rewrite C1. cbn [bind]. rewrite (Z.mod_small _ (2 ^ 32)) in C2 by assumption.
  assert (C4 : f = (a - 2 ^ p) * 2 ^ F / 2 ^ p).
  { rewrite C2, E32. rewrite <- (Z.div_mul_cancel_r ((a - 2 ^ p) * 2 ^ F) (2 ^ p) (2 ^ (32 - p))) by lia. f_equal. ring. }
  clear C1 C2 UB0 UX. rewrite Z.sub_0_r.
  assert (PE : - 2 ^ (E - 1) <= p < 2 ^ (E - 1)).
  { assert (2 ^ 7 <= 2 ^ (E - 1)) by (apply pow2_mono; lia). change (2 ^ 7) with 128 in *. lia. }
  rewrite cast_s_small by lia. exists f. split; [reflexivity|]. split; [assumption|].
  assert (DM : f * 2 ^ p <= (a - 2 ^ p) * 2 ^ F < (f + 1) * 2 ^ p).
  { pose proof (Z.div_mod ((a - 2 ^ p) * 2 ^ F) (2 ^ p) ltac:(lia)).
    pose proof (Z.mod_pos_bound ((a - 2 ^ p) * 2 ^ F) (2 ^ p) ltac:(lia)). nia. }
  assert (AV : (inject_Z a == dy (a * 2 ^ F) (- F))%Q).
  { rewrite dy_pow by lia. replace (- F + F) with 0 by lia. unfold dy. rewrite pow2_0. ring. }
  assert (UV : forall m, (dy m (p - F) == dy (m * 2 ^ p) (- F))%Q).
  { intros m. rewrite dy_pow by lia. replace (- F + p) with (p - F) by lia. reflexivity. }
  split.
  - unfold cell, uabs. split; [assumption|]. split; [lia|]. split; [apply Z.mod_1_r|].
    rewrite AV, !UV. change (2 ^ 0) with 1. split; [apply dy_le; nia|apply dy_lt; nia].
  - intros WFF.
    assert (EX : f * 2 ^ p = (a - 2 ^ p) * 2 ^ F).
    { assert (EF : 2 ^ F = 2 ^ (F - p) * 2 ^ p) by (rewrite <- Z.pow_add_r by lia; f_equal; lia).
      rewrite C4, EF, Z.mul_assoc, Z.div_mul by lia. reflexivity. }
    rewrite uvalue_dy by lia. rewrite UV.
    replace ((2 ^ F + f) * 2 ^ p) with (a * 2 ^ F) by nia. rewrite <- AV.
    unfold sgn1, a. destruct (Z.ltb_spec i 0).
    + rewrite Z.abs_neq, inject_Z_opp by lia. ring.
    + rewrite Z.abs_eq by lia. ring.
Qed.

Lemma of_int c i : valid_cfg c -> exp_ok c -> frac_fits c \/ 32 <= cF c -> - 2 ^ 31 < i < 2 ^ 31 ->
  (room c (inject_Z i) -> exists r, p_of_int c i = Ok r /\ rounds_tz c (inject_Z i) r) /\
  (~ room c (inject_Z i) -> p_of_int c i = UB ShiftCount).
Proof.
  intros V X FF B. vcb V. unfold p_of_int. destruct (Z.eq_dec i 0) as [->|NZ].
  - cbn [u_unpack_xfixed Z.eqb negb bind]. split.
    + intros _. exists 0. split; [apply pack_specials; assumption|]. left. split; reflexivity.
    + intros R. exfalso. apply R. left. reflexivity.
  - destruct (unpack_int (cF c) (c_E c) i (vc_F c V) (c_E_width c V) B NZ) as (f & U0 & Hf & C & Ex).
    rewrite U0. cbn [bind]. destruct FF as [FF|FF].
    + assert (Q : (inject_Z i == sgq (i <? 0) (inject_Z (Z.abs i)))%Q).
      { unfold sgq. destruct (Z.ltb_spec i 0).
        - rewrite Z.abs_neq, inject_Z_opp by lia. ring.
        - rewrite Z.abs_eq by lia. ring. }
      destruct (cell_outcome c _ (i <? 0) _ f 0 _ _ V X ltac:(lia) ltac:(lia) eq_refl C Q) as [A Bb].
      split; [|exact Bb]. intros Rm. destruct (A Rm) as [r Er]. exists r. split; [assumption|].
      symmetry in Q. apply (rounds_tz_comp c BN Bes _ _ _ Q). eapply cell_rounds; try eassumption.
      unfold frac_fits, gran in *. lia.
    + apply reg_outcome; auto.
Qed.
Lemma of_int_min c : p_of_int c (- 2 ^ 31) = UB SignedOverflow.
Proof. reflexivity. Qed.

(** pack_xfixed to int. *)
Lemma fbe_pack_spec F bw bb f : is_width F -> is_width bw -> 0 < bb <= bw -> 0 <= f < 2 ^ F ->
  exists r, fbe_pack F bw bb f = Ok r /\ r = f * 2 ^ bb / 2 ^ F /\ 0 <= r < 2 ^ bb.
Proof.
  intros WF WB B Hf. pose proof (is_width_pos F WF). pose proof (is_width_pos bw WB). unfold fbe_pack.
  pow_pos 2 F. pow_pos 2 bb.
  assert (RB : 0 <= f * 2 ^ bb / 2 ^ F < 2 ^ bb) by (split; [apply Z.div_pos; nia|apply Z.div_lt_upper_bound; nia]).
  assert (LE : 2 ^ bb <= 2 ^ bw) by (apply pow2_mono; lia).
  rewrite Z.gtb_ltb. destruct (Z.ltb_spec bb F).
  - rewrite bitset_get_spec by (try assumption; unfold pw; lia). cbn [bind].
    assert (ES : 2 ^ F = 2 ^ (F - bb) * 2 ^ bb) by (rewrite <- Z.pow_add_r by lia; f_equal; lia).
    pow_pos 2 (F - bb).
    assert (EQ : f * 2 ^ bb / 2 ^ F = f / 2 ^ (F - bb)) by (rewrite ES; apply Z.div_mul_cancel_r; lia).
    rewrite <- EQ, Z.mod_small by assumption. rewrite cast_u_small by lia. eauto.
  - assert (ES : 2 ^ bb = 2 ^ (bb - F) * 2 ^ F) by (rewrite <- Z.pow_add_r by lia; f_equal; lia).
    pow_pos 2 (bb - F).
    assert (EQ : f * 2 ^ bb / 2 ^ F = f * 2 ^ (bb - F)) by (rewrite ES, Z.mul_assoc, Z.div_mul; lia).
    rewrite (cast_u_small bw f) by nia.
    destruct (cshl_u_exact bw f (bb - F)) as (r & R1 & R2); try assumption; try (unfold pw; lia); try nia.
    rewrite R1. cbn [bind]. rewrite R2, EQ in *. eauto.
Qed.

Definition ifrac (F e f : Z) : Z := f * 2 ^ e / 2 ^ F.
Lemma pack_int F E n e f : is_width F -> 0 <= f < 2 ^ F ->
  let o := u_pack_xfixed F E int_trait (U Regular n e f) in
  let t := 2 ^ e + ifrac F e f in
  (e < 0 -> o = Ok 0) /\
  (e = 0 -> o = UB ShiftCount) /\
  (1 <= e <= 30 -> o = Ok (if n then - t else t)) /\
  (e = 31 -> if n then (if t =? 2 ^ 31 then o = UB SignedOverflow else o = Ok (2 ^ 32 - t)) else o = Ok (t - 2 ^ 32)) /\
  (32 <= e -> o = Ok (if n then - 2 ^ 31 else 2 ^ 31 - 1)) /\
  (0 <= e -> 2 ^ e <= t < 2 ^ (e + 1)).
Proof.
  intros WF Hf. cbn zeta. unfold u_pack_xfixed. cbn [utyp uexp ufrac uneg int_trait x_w x_total x_frac].
  cbn zeta. rewrite Z.sub_0_r, Z.geb_leb. pose proof (is_width_pos F WF). pow_pos 2 F.
  assert (TB : 0 <= e -> 2 ^ e <= 2 ^ e + ifrac F e f < 2 ^ (e + 1)).
  { intros E0. rewrite Z.pow_add_r by lia. change (2 ^ 1) with 2. unfold ifrac. pow_pos 2 e.
    assert (0 <= f * 2 ^ e / 2 ^ F < 2 ^ e); [|lia].
    split; [apply Z.div_pos; nia|apply Z.div_lt_upper_bound; nia]. }
  split; [|split; [|split; [|split; [|split; [|exact TB]]]]].
  - intros L. destruct (Z.leb_spec 32 e); [lia|]. destruct (Z.ltb_spec e (- 0)); [reflexivity|lia].
  - intros ->. cbn [Z.leb Z.compare Z.ltb Z.opp].
    destruct (fbe_pack_spec F 32 32 f WF) as (r & R1 & _); [right; right; left; reflexivity|lia|assumption|].
    rewrite R1. reflexivity.
  - intros L. destruct (Z.leb_spec 32 e); [lia|]. destruct (Z.ltb_spec e (- 0)); [lia|].
    destruct (fbe_pack_spec F 32 32 f WF) as (r & R1 & R2 & R3); [right; right; left; reflexivity|lia|assumption|].
    rewrite R1. cbn [bind]. rewrite Z.add_0_r.
    assert (PE : 2 ^ e <= 2 ^ 30) by (apply pow2_mono; lia). pow_pos 2 e. change (2 ^ 30) with 1073741824 in PE.
    assert (C1 : cshl (prom (sint 32)) 1 e = Ok (2 ^ e)).
    { unfold cshl. cbn [prom sint iw isg Z.ltb Z.compare Pos.compare Pos.compare_cont c_int].
      destruct (Z.ltb_spec e 0), (Z.leb_spec 32 e); try lia. cbn [orb].
      rewrite Z.mul_1_l. change (2 ^ 32) with 4294967296. destruct (Z.leb_spec 4294967296 (2 ^ e)); [lia|].
      f_equal. apply wraps_small; [lia|]. change (2 ^ (32 - 1)) with 2147483648. lia. }
    rewrite C1. cbn [bind]. rewrite cshr_ok by (change (iw (prom (uint 32))) with 32; lia). cbn [bind].
    pow_pos 2 (32 - e).
    assert (E32 : 2 ^ 32 = 2 ^ e * 2 ^ (32 - e)) by (rewrite <- Z.pow_add_r by lia; f_equal; lia).
    assert (G : r / 2 ^ (32 - e) = ifrac F e f).
    { unfold ifrac. rewrite R2. rewrite Z.div_div by lia. rewrite E32, Z.mul_assoc. apply Z.div_mul_cancel_r; lia. }
    rewrite G. assert (GB : 0 <= ifrac F e f < 2 ^ e) by (rewrite Z.pow_add_r in TB by lia; change (2 ^ 1) with 2 in TB; lia).
    assert (I31 : 2 ^ (32 - 1) = 2147483648) by reflexivity.
    rewrite (cast_s_small 32 (ifrac F e f)) by (rewrite ?I31; lia).
    unfold cor.
    assert (LO : Z.lor (2 ^ e) (ifrac F e f) = 2 ^ e + ifrac F e f).
    { pose proof (lor_add (ifrac F e f) 1 e ltac:(lia) GB) as LA. rewrite Z.mul_1_l in LA. rewrite Z.lor_comm, LA. lia. }
    rewrite LO.
    rewrite cast_s_small by (rewrite ?I31; lia). destruct n.
    + unfold cneg. change (prom (sint 32)) with (sint 32). rewrite arith_s by (rewrite ?I31; lia). cbn [bind].
      rewrite cast_s_small by (rewrite ?I31; lia). reflexivity.
    + reflexivity.
  - intros ->. cbn [Z.leb Z.compare Pos.compare Pos.compare_cont Z.ltb Z.opp].
    destruct (fbe_pack_spec F 32 32 f WF) as (r & R1 & R2 & R3); [right; right; left; reflexivity|lia|assumption|].
    rewrite R1. cbn [bind]. change (31 + 0) with 31. change (cshl (prom (sint 32)) 1 31) with (@Ok Z (- 2147483648)).
    cbn [bind]. rewrite cshr_ok by (change (iw (prom (uint 32))) with 32; lia). cbn [bind].
    change (2 ^ (32 - 31)) with 2.
    assert (G : r / 2 = ifrac F 31 f).
    { unfold ifrac. rewrite R2. rewrite Z.div_div by lia.
      replace (f * 2 ^ 32) with (f * 2 ^ 31 * 2) by (change (2 ^ 32) with (2 ^ 31 * 2); ring).
      apply Z.div_mul_cancel_r; lia. }
    rewrite G. specialize (TB ltac:(lia)). change (2 ^ 31) with 2147483648 in *. change (2 ^ (31 + 1)) with 4294967296 in *.
    change (2 ^ 32) with 4294967296 in *.
    rewrite (cast_s_small 32 (ifrac F 31 f)) by (change (2 ^ (32 - 1)) with 2147483648; lia).
    unfold cor. change (-2147483648) with (-1 * 2 ^ 31). rewrite Z.lor_comm, lor_add by (change (2 ^ 31) with 2147483648; lia).
    change (2 ^ 31) with 2147483648.
    assert (I31 : 2 ^ (32 - 1) = 2147483648) by reflexivity.
    rewrite cast_s_small by (rewrite ?I31; lia). destruct n.
    + unfold cneg. change (prom (sint 32)) with (sint 32). destruct (Z.eqb_spec (2147483648 + ifrac F 31 f) 2147483648) as [Q|Q].
      * rewrite arith_s_ub by (rewrite ?I31; lia). reflexivity.
      * rewrite arith_s by (rewrite ?I31; lia). cbn [bind]. rewrite cast_s_small by (rewrite ?I31; lia). f_equal. lia.
    + f_equal. lia.
  - intros L. destruct (Z.leb_spec 32 e); [|lia]. destruct n; reflexivity.
Qed.

Lemma uabs_scale F e f : 0 <= F -> 0 <= f < 2 ^ F -> (pow2 e <= uabs F e f)%Q /\ (uabs F e f < pow2 (e + 1))%Q.
Proof.
  intros HF Hf. unfold uabs.
  assert (A : (pow2 e == dy (2 ^ F) (e - F))%Q).
  { rewrite <- (Z.mul_1_l (2 ^ F)), dy_pow by lia. replace (e - F + F) with e by lia. unfold dy. change (inject_Z 1) with 1%Q. ring. }
  assert (B : (pow2 (e + 1) == dy (2 ^ F + 2 ^ F) (e - F))%Q).
  { rewrite <- dy_add, <- A, pow2_plus. change (pow2 1) with 2%Q. ring. }
  rewrite A, B. split; [apply dy_le; lia|apply dy_lt; lia].
Qed.
Lemma uabs_floor F e f : 0 <= F -> 0 <= f < 2 ^ F -> 0 <= e ->
  (inject_Z (2 ^ e + ifrac F e f) <= uabs F e f)%Q /\ (uabs F e f < inject_Z (2 ^ e + ifrac F e f + 1))%Q.
Proof.
  intros HF Hf He. unfold uabs. pow_pos 2 F. pow_pos 2 e.
  assert (AV : forall m, (inject_Z m == dy (m * 2 ^ F) (- F))%Q).
  { intros m. rewrite dy_pow by lia. replace (- F + F) with 0 by lia. unfold dy. rewrite pow2_0. ring. }
  assert (UV : (dy (2 ^ F + f) (e - F) == dy ((2 ^ F + f) * 2 ^ e) (- F))%Q).
  { rewrite dy_pow by lia. replace (- F + e) with (e - F) by lia. reflexivity. }
  rewrite UV, !AV. unfold ifrac.
  pose proof (Z.div_mod (f * 2 ^ e) (2 ^ F) ltac:(lia)). pose proof (Z.mod_pos_bound (f * 2 ^ e) (2 ^ F) ltac:(lia)).
  split; [apply dy_le; nia|apply dy_lt; nia].
Qed.

Lemma pow2_31 : (pow2 31 == 2147483648)%Q. Proof. reflexivity. Qed.
Lemma pow2_32 : (pow2 32 == 4294967296)%Q. Proof. reflexivity. Qed.

Lemma to_int c v : valid_cfg c -> frac_fits c -> real c v ->
  let x := value c v in
  ((Qabs x < 1)%Q -> p_to_int c v = Ok 0) /\
  ((1 <= Qabs x)%Q -> (Qabs x < 2)%Q -> p_to_int c v = UB ShiftCount) /\
  ((2 <= Qabs x)%Q -> (Qabs x < pow2 31)%Q -> exists z, p_to_int c v = Ok z /\ truncated x z) /\
  ((pow2 31 <= x)%Q -> (x < pow2 32)%Q -> exists z, p_to_int c v = Ok z /\ z < 0 /\ truncated x (z + 2 ^ 32)) /\
  ((pow2 31 + 1 <= - x)%Q -> (- x < pow2 32)%Q -> exists z, p_to_int c v = Ok z /\ 0 < z /\ truncated x (z - 2 ^ 32)) /\
  ((pow2 31 <= - x)%Q -> (- x < pow2 31 + 1)%Q -> p_to_int c v = UB SignedOverflow) /\
  ((pow2 32 <= Qabs x)%Q -> p_to_int c v = Ok (if v <? 0 then - 2 ^ 31 else 2 ^ 31 - 1)).
Proof.
  intros V FF R. cbn zeta. vcb V. unfold p_to_int.
  destruct (Z.eq_dec v 0) as [->|NZ].
  { assert (V0 : (value c 0 == 0)%Q) by reflexivity.
    assert (P : forall y, (y <= Qabs (value c 0))%Q -> (y <= 0)%Q) by (intros y; rewrite V0; auto).
    pose proof pow2_31. pose proof pow2_32.
    destruct (classify c 0 V) as [[_ U0]|[[N _]|[[N _]|[_ [N _]]]]].
    - unfold pattern. pow_pos 2 (cN c - 1). lia.
    - rewrite U0. cbn [bind]. repeat match goal with |- _ /\ _ => split end; intros.
      + reflexivity.
      + exfalso. apply P in H1. lra.
      + exfalso. apply P in H1. lra.
      + exfalso. rewrite V0 in H1. lra.
      + exfalso. rewrite V0 in H1. lra.
      + exfalso. rewrite V0 in H1. lra.
      + exfalso. apply P in H1. lra.
    - exfalso. destruct (kinds_disjoint c 0 V) as (_ & K & _). tauto.
    - exfalso. destruct (kinds_disjoint c 0 V) as (_ & _ & K & _). tauto.
    - contradiction. }
  destruct (decode_value c v V FF R NZ) as (n & e & f & U0 & Hf & E).
  assert (SN : n = (v <? 0)).
  { destruct (classify c v V) as [[Z _]|[[N _]|[[N _]|(_ & _ & e' & f' & U1)]]].
    - apply (real_bounds c BN Bes) in R. unfold pattern. lia.
    - contradiction.
    - exfalso. destruct (kinds_disjoint c v V) as (_ & K & _). tauto.
    - exfalso. destruct (kinds_disjoint c v V) as (_ & _ & K & _). tauto.
    - congruence. }
  rewrite U0. cbn [bind].
  destruct (pack_int (cF c) (c_E c) n e f (vc_F c V) Hf) as (P1 & P2 & P3 & P4 & P5 & P6).
  set (o := u_pack_xfixed (cF c) (c_E c) int_trait (U Regular n e f)) in *. clearbody o.
  set (t := 2 ^ e + ifrac (cF c) e f) in *.
  rewrite uvalue_uval in E by lia.
  destruct (uabs_scale (cF c) e f ltac:(lia) Hf) as [S1 S2].
  assert (T : 0 <= e -> (inject_Z t <= uabs (cF c) e f)%Q /\ (uabs (cF c) e f < inject_Z (t + 1))%Q)
    by (intros; apply uabs_floor; lia).
  clearbody t. set (a := uabs (cF c) e f) in *.
  assert (AP : (0 < a)%Q) by (pose proof (pow2_pos e); lra).
  assert (AX : (Qabs (value c v) == a)%Q).
  { rewrite E. unfold uval. fold a. destruct n; [rewrite Qabs_neg by lra|rewrite Qabs_pos by lra]; ring. }
  assert (XS : if n then (value c v == - a)%Q else (value c v == a)%Q) by (unfold uval in E; fold a in E; destruct n; exact E).
  clear E. clearbody a.
  assert (L0 : (a < 1)%Q -> e < 0) by (intros; apply pow2_lt_inv; rewrite pow2_0; lra).
  assert (G0 : (1 <= a)%Q -> 0 <= e) by (intros; enough (0 < e + 1) by lia; apply pow2_lt_inv; rewrite pow2_0; lra).
  assert (L1 : (a < 2)%Q -> e < 1) by (intros; apply pow2_lt_inv; change (pow2 1) with 2%Q; lra).
  assert (G1 : (2 <= a)%Q -> 1 <= e) by (intros; enough (1 < e + 1) by lia; apply pow2_lt_inv; change (pow2 1) with 2%Q; lra).
  assert (L31 : (a < pow2 31)%Q -> e < 31) by (intros; apply pow2_lt_inv; lra).
  assert (G31 : (pow2 31 <= a)%Q -> 31 <= e) by (intros; enough (31 < e + 1) by lia; apply pow2_lt_inv; lra).
  assert (L32 : (a < pow2 32)%Q -> e < 32) by (intros; apply pow2_lt_inv; lra).
  assert (G32 : (pow2 32 <= a)%Q -> 32 <= e) by (intros; enough (32 < e + 1) by lia; apply pow2_lt_inv; lra).
  assert (TR : 0 <= e -> truncated (value c v) (if n then - t else t)).
  { intros He. destruct (T He) as [T1 T2]. specialize (P6 He). pow_pos 2 e.
    unfold truncated. rewrite AX. replace (Z.abs (if n then - t else t)) with t by (destruct n; lia).
    split; [assumption|]. split; [assumption|].
    assert (TP : (0 <= inject_Z t)%Q) by (change 0%Q with (inject_Z 0); apply inj_le; lia).
    destruct n; rewrite XS, ?inject_Z_opp; nra. }
  pose proof pow2_31 as Q31. pose proof pow2_32 as Q32.
  repeat match goal with |- _ /\ _ => split end.
  - rewrite AX. auto.
  - rewrite AX. intros A B. apply P2. specialize (G0 A). specialize (L1 B). lia.
  - rewrite AX. intros A B. specialize (G1 A). specialize (L31 B). eexists. split; [apply P3; lia|]. apply TR. lia.
  - destruct n; [intros A; exfalso; rewrite XS in A; lra|]. rewrite XS. intros A B.
    specialize (G31 A). specialize (L32 B). assert (E31 : e = 31) by lia. specialize (P4 E31). cbn iota in P4.
    exists (t - 2 ^ 32). split; [assumption|]. specialize (P6 ltac:(lia)). rewrite E31 in P6. change (2 ^ (31 + 1)) with (2 ^ 32) in P6.
    split; [lia|]. replace (t - 2 ^ 32 + 2 ^ 32) with t by lia. apply TR. lia.
  - destruct n; [|intros A; exfalso; rewrite XS in A; lra].
    assert (XO : (- value c v == a)%Q) by (rewrite XS; ring). rewrite XO. intros A B.
    specialize (G31 ltac:(lra)). specialize (L32 B). assert (E31 : e = 31) by lia. specialize (P4 E31). cbn iota in P4.
    destruct (T ltac:(lia)) as [T1 T2]. specialize (P6 ltac:(lia)). rewrite E31 in P6. change (2 ^ (31 + 1)) with (2 ^ 32) in P6.
    destruct (Z.eqb_spec t (2 ^ 31)) as [Q|Q].
    + exfalso. rewrite Q in T2. rewrite inject_Z_plus in T2. change (inject_Z (2 ^ 31)) with 2147483648%Q in T2.
      change (inject_Z 1) with 1%Q in T2. lra.
    + exists (2 ^ 32 - t). split; [assumption|]. split; [lia|].
      replace (2 ^ 32 - t - 2 ^ 32) with (- t) by lia. apply TR. lia.
  - destruct n; [|intros A; exfalso; rewrite XS in A; lra].
    assert (XO : (- value c v == a)%Q) by (rewrite XS; ring). rewrite XO. intros A B.
    specialize (G31 A). assert (L : e < 32) by (apply L32; lra). assert (E31 : e = 31) by lia. specialize (P4 E31). cbn iota in P4.
    destruct (T ltac:(lia)) as [T1 T2]. specialize (P6 ltac:(lia)). rewrite E31 in P6. change (2 ^ (31 + 1)) with (2 ^ 32) in P6.
    destruct (Z.eqb_spec t (2 ^ 31)) as [Q|Q]; [assumption|exfalso].
    assert (Z1 : (inject_Z (2 ^ 31 + 1) <= inject_Z t)%Q) by (apply inj_le; lia).
    change (inject_Z (2 ^ 31 + 1)) with 2147483649%Q in Z1. lra.
  - rewrite AX. intros A. rewrite <- SN. apply P5. auto.
Qed.
Lemma to_int_special c v : valid_cfg c -> is_nan c v \/ is_inf c v -> p_to_int c v = Ok 0.
Proof.
  intros V S. vcb V. destruct (kinds_disjoint c v V) as (_ & K1 & K2 & _). unfold p_to_int.
  assert (P : pattern c v).
  { unfold pattern. pow_pos 2 (cN c - 2). assert (2 ^ (cN c - 1) = 2 * 2 ^ (cN c - 2)) by (rewrite <- Z.pow_succ_r by lia; f_equal; lia).
    destruct S as [[_ ->]|[[_ ->]|[[_ ->]|[_ ->]]]]; lia. }
  destruct (classify c v V P) as [[Z U0]|[[N U0]|[[N U0]|[N _]]]]; try (rewrite U0; reflexivity).
  tauto.
Qed.
