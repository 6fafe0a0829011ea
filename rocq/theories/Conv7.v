(** Packing below the normal range of a format declared without denormals. *)
From Coq Require Import ZArith QArith Qabs Lia Lqa List Bool.
From Verif Require Import Res CInt Bits Traits Cfg Spec Unpacked Posit QPow Core SpecLemmas Arith DecodeProof EncodeProof UOps UAdd Ops
  OpsAdd Room Laws Configs Final1 Conv1 Conv2 Conv3 Conv4 Conv5.
Open Scope Z_scope.

Lemma half_lor F f : 0 < F -> 0 <= f < 2 ^ F -> cor (FT_leftmost_bit F) (f / 2) = (2 ^ F + f) / 2 /\ 0 <= (2 ^ F + f) / 2 < 2 ^ F.
Proof.
  intros HF Hf. unfold FT_leftmost_bit, cor.
  assert (EF : 2 ^ F = 2 * 2 ^ (F - 1)) by (rewrite <- Z.pow_succ_r by lia; f_equal; lia). pow_pos 2 (F - 1).
  assert (HH2 : 0 <= f / 2 < 2 ^ (F - 1)) by (split; [apply Z.div_pos; lia|apply Z.div_lt_upper_bound; lia]).
  pose proof (lor_add (f / 2) 1 (F - 1) ltac:(lia) HH2) as LA. rewrite Z.mul_1_l in LA. rewrite Z.lor_comm, LA.
  assert (HE : (2 ^ F + f) / 2 = 2 ^ (F - 1) + f / 2) by (rewrite EF, (Z.mul_comm 2), Z.div_add_l by lia; reflexivity).
  rewrite HE. lia.
Qed.

(** The significand [M] at the place [k], cut at the place [k + s]. *)
Definition denorm_M (F fb f : Z) : Z := if fb <=? F then 2 ^ F + f else (2 ^ F + f) / 2 * 2 ^ (fb - F).
Definition denorm_s (F fb x : Z) : Z := if fb <=? F then F - fb + 1 - x else - x.

Lemma packdenorm_val F D fb f : is_width F -> is_width D -> 1 <= fb -> fb + 1 < D -> 0 <= f < 2 ^ F ->
  exists d, fbe_packdenorm F D fb f = Ok d /\ 0 <= d < 2 ^ fb /\ (forall x, x < 1 -> d / 2 ^ (- x) = denorm_M F fb f / 2 ^ denorm_s F fb x).
Proof.
  intros WF WD Hfb HD Hf. pose proof (is_width_pos F WF) as WFp. pose proof (is_width_pos D WD) as WDp.
  unfold fbe_packdenorm, pF. rewrite cshr_ok by (rewrite iw_prom_uint by assumption; unfold pw; lia). cbn [bind]. change (2 ^ 1) with 2.
  destruct (half_lor F f ltac:(lia) Hf) as [HL HB]. rewrite HL. set (h := (2 ^ F + f) / 2) in *.
  pow_pos 2 F. pow_pos 2 fb. assert (FD : 2 ^ fb <= 2 ^ D) by (apply pow2_mono; lia).
  rewrite Z.gtb_ltb. destruct (Z.ltb_spec fb F) as [LT|GE].
  - rewrite cshr_ok by (rewrite iw_prom_uint by assumption; unfold pw; lia). cbn [bind]. pow_pos 2 (F - fb).
    assert (B : 0 <= h / 2 ^ (F - fb) < 2 ^ fb).
    { split; [apply Z.div_pos; lia|]. apply Z.div_lt_upper_bound; [lia|]. rewrite <- Z.pow_add_r by lia. replace (F - fb + fb) with F by lia. lia. }
    rewrite cast_u_small by lia. eexists. split; [reflexivity|]. split; [exact B|].
    intros x Hx. pow_pos 2 (- x). unfold denorm_M, denorm_s. destruct (Z.leb_spec fb F); [|lia]. unfold h.
    rewrite !Z.div_div by lia. f_equal. rewrite <- (Z.pow_1_r 2) at 1. rewrite <- !Z.pow_add_r by lia. f_equal; lia.
  - assert (HF2 : 2 ^ F <= 2 ^ fb) by (apply pow2_mono; lia). pow_pos 2 (fb - F).
    assert (HM : 0 <= h * 2 ^ (fb - F) < 2 ^ fb).
    { split; [apply Z.mul_nonneg_nonneg; lia|]. replace (2 ^ fb) with (2 ^ F * 2 ^ (fb - F)) by (rewrite <- Z.pow_add_r by lia; f_equal; lia). nia. }
    rewrite (cast_u_small D h) by lia.
    destruct (cshl_u_exact D h (fb - F)) as (r & R1 & R2); try assumption; try (unfold pw; lia).
    rewrite R1. cbn [bind]. rewrite R2. eexists. split; [reflexivity|]. split; [exact HM|].
    intros x Hx. unfold denorm_M, denorm_s. destruct (Z.leb_spec fb F) as [EQ|_]; [|reflexivity].
    replace fb with F in * by lia. pow_pos 2 (- x). unfold h. rewrite Z.sub_diag, Z.pow_0_r, Z.mul_1_r.
    rewrite Z.div_div by lia. f_equal. rewrite <- (Z.pow_1_r 2) at 1. rewrite <- Z.pow_add_r by lia. f_equal; lia.
Qed.

Lemma pack_denorm_bits eb fb F E n e f : fmt_ok eb fb -> is_width F -> is_width E ->
  let L := Z.max E (least_bits eb) in let x := e + (2 ^ (eb - 1) - 1) in let D := eb + fb + 1 in
  eb < L -> 0 <= f < 2 ^ F -> - 2 ^ (L - 1) <= e -> x < 1 ->
  let o := u_pack_xfloati F E (any_floattrait eb fb false) (U Regular n e f) in
  let m := denorm_M F fb f / 2 ^ denorm_s F fb x in
  (pw D <= - x -> o = UB ShiftCount) /\
  (- x < pw D -> 0 <= m < 2 ^ fb /\ o = Ok (if n && (m =? 0) && (32 <=? D) then 2 ^ (eb + fb) + 1 else fbits eb fb n 0 m)).
Proof.
  intros FO WF WE L x D EL Hf B1 H. cbn zeta. pose proof (L_width eb fb E FO WE) as WL. fold L in WL. pose proof (is_width_pos L WL) as WLp.
  pose proof (is_width_pos F WF) as WFp. destruct (trait_max eb fb false FO) as (TM & TL & TS).
  pose proof FO as FO'. destruct FO' as [W [E1 E2] Hfb]. fold D in W. pose proof (is_width_pos D W) as WDp.
  assert (EB : 2 ^ eb <= 2 ^ (L - 1)) by (apply pow2_mono; lia).
  assert (EB1 : 2 ^ eb = 2 ^ (eb - 1) * 2) by (replace eb with (eb - 1 + 1) at 1 by lia; rewrite Z.pow_add_r by lia; ring).
  assert (P4 : 2 ^ 1 <= 2 ^ (eb - 1)) by (apply pow2_mono; lia). change (2 ^ 1) with 2 in P4.
  destruct (packdenorm_val F D fb f WF W Hfb ltac:(unfold D; lia) Hf) as (d & PD & DB & DX). specialize (DX x H).
  set (m := denorm_M F fb f / 2 ^ denorm_s F fb x) in *. clearbody m.
  unfold u_pack_xfloati. cbn [utyp uexp ufrac uneg]. rewrite TM, TL, TS.
  cbn [any_floattrait t_ebits t_hold t_bias t_emax t_emask t_fbits t_denorm]. cbn zeta. fold L. fold D.
  rewrite (cast_s_small L e) by lia. unfold cadd. rewrite (common_E L WL).
  rewrite arith_s; [|lia|].
  2: { pose proof (E_range L WL x ltac:(unfold x in *; lia)) as A. unfold x in A. assumption. }
  cbn [bind]. fold x. rewrite (cast_s_small L x) by (unfold x in *; lia).
  rewrite Z.gtb_ltb. destruct (Z.ltb_spec (2 ^ eb - 2) x); [lia|]. destruct (Z.ltb_spec x 1); [|lia]. cbn [andb bind].
  rewrite PD. cbn [bind]. unfold cneg. rewrite (prom_sint L WL). rewrite (arith_s (pw L) (- x)); [|unfold pw; lia|].
  2: { assert (2 ^ (L - 1) <= 2 ^ (pw L - 1)) by (apply pow2_mono; unfold pw; lia). unfold x in *; lia. }
  cbn [bind]. split; intros SH.
  { rewrite cshr_ub by (rewrite iw_prom_uint by assumption; lia). reflexivity. }
  rewrite cshr_ok by (rewrite iw_prom_uint by assumption; lia). cbn [bind]. rewrite DX.
  pow_pos 2 fb. pow_pos 2 (eb + fb). pow_pos 2 (- x).
  assert (MB : 0 <= m < 2 ^ fb) by (rewrite <- DX; split; [apply Z.div_pos; lia|apply Z.div_lt_upper_bound; nia]).
  split; [exact MB|].
  assert (ES : 2 ^ (eb + fb) = 2 ^ eb * 2 ^ fb) by (rewrite <- Z.pow_add_r by lia; reflexivity).
  assert (ED : 2 ^ D = 2 * 2 ^ (eb + fb)) by (unfold D; rewrite (Z.pow_add_r 2 (eb + fb) 1) by lia; ring).
  rewrite (cast_u_small D m) by (rewrite ED, ES; nia).
  assert (VV : cor (cor m 0) (if n then 2 ^ (eb + fb) else 0) = fbits eb fb n 0 m).
  { unfold fbits, cor. rewrite Z.lor_0_r. destruct n.
    - rewrite <- (Z.mul_1_l (2 ^ (eb + fb))) at 1. rewrite lor_add; [ring|lia|]. rewrite ES. nia.
    - rewrite Z.lor_0_r. ring. }
  rewrite VV. assert (VB : 0 <= fbits eb fb n 0 m < 2 ^ D) by (apply fbits_range; [exact FO|lia|lia]).
  rewrite cast_u_small by assumption. unfold prom. cbn [iw uint]. destruct (Z.ltb_spec D 32) as [D32|D32].
  - assert (D31 : 2 ^ D <= 2 ^ 16) by (apply pow2_mono; destruct W as [X|[X|[X|X]]]; lia). change (2 ^ 16) with 65536 in D31.
    assert (CS : cshl c_int (fbits eb fb n 0 m) 1 = Ok (2 * fbits eb fb n 0 m)).
    { unfold cshl. cbn [c_int sint iw isg]. change ((1 <? 0) || (32 <=? 1)) with false. cbn iota.
      destruct (Z.ltb_spec (fbits eb fb n 0 m) 0); [lia|]. change (2 ^ 1) with 2. change (2 ^ 32) with 4294967296.
      destruct (Z.leb_spec 4294967296 (fbits eb fb n 0 m * 2)); [lia|].
      f_equal. rewrite wraps_small; [ring|lia|]. change (2 ^ (32 - 1)) with 2147483648. lia. }
    rewrite CS. cbn [bind]. destruct (Z.leb_spec 32 D); [lia|]. rewrite andb_false_r.
    destruct (Z.eqb_spec (fbits eb fb n 0 m) 0); cbn [negb andb]; [reflexivity|].
    destruct (Z.eqb_spec (2 * fbits eb fb n 0 m) 0); [lia|reflexivity].
  - destruct (Z.leb_spec 32 D); [|lia]. rewrite andb_true_r.
    unfold cshl. cbn [uint iw isg]. change (1 <? 0) with false. destruct (Z.leb_spec D 1); [lia|]. cbn [orb].
    unfold wrapu. change (2 ^ 1) with 2. cbn [bind].
    clear VV. set (vv := fbits eb fb n 0 m) in *.
    assert (VE : vv = (if n then 2 ^ (eb + fb) else 0) + m) by (unfold vv, fbits; destruct n; ring). clearbody vv.
    destruct n; cbn [andb]; cbv iota in VE.
    + destruct (Z.eqb_spec vv 0); [lia|]. cbn [negb andb].
      assert (E3 : (vv * 2) mod 2 ^ D = m * 2).
      { replace (vv * 2) with (m * 2 + 1 * 2 ^ D) by (rewrite VE, ED; ring). rewrite Z.mod_add by lia. apply Z.mod_small. rewrite ED, ES; nia. }
      rewrite E3. destruct (Z.eqb_spec m 0) as [M0|M0].
      * destruct (Z.eqb_spec (m * 2) 0); [|lia]. rewrite cast_u_small by (rewrite ED; lia). f_equal. lia.
      * destruct (Z.eqb_spec (m * 2) 0); [lia|reflexivity].
    + rewrite Z.add_0_l in VE. subst vv. rewrite Z.mod_small by (rewrite ED, ES; nia). destruct (Z.eqb_spec m 0) as [M0|M0]; cbn [negb andb]; [reflexivity|].
      destruct (Z.eqb_spec (m * 2) 0); [lia|reflexivity].
Qed.

Lemma pack_denormal F E eb fb n e f x x' : is_width F -> is_width E -> fmt_ok eb fb ->
  let L := Z.max E (least_bits eb) in
  eb < L -> 0 <= f < 2 ^ F -> - 2 ^ (L - 1) <= e ->
  (x == uvalue F n e f)%Q -> (x' == uvalue F n e (if fb <=? F then f else f - f mod 2))%Q ->
  (Qabs x < pow2 (2 - 2 ^ (eb - 1)))%Q ->
  let o := u_pack_xfloati F E (any_floattrait eb fb false) (U Regular n e f) in
  let ulp := pow2 (2 - 2 ^ (eb - 1) - fb) in
  ((Qabs x < pow2 (2 - 2 ^ (eb - 1) - Z.max 32 (eb + fb + 1)))%Q -> o = UB ShiftCount) /\
  ((pow2 (2 - 2 ^ (eb - 1) - Z.max 32 (eb + fb + 1)) <= Qabs x)%Q ->
    (32 <= eb + fb + 1 -> (x < 0)%Q -> (Qabs x < ulp)%Q -> o = Ok (2 ^ (eb + fb) + 1)) /\
    (eb + fb + 1 < 32 \/ (0 < x)%Q \/ (ulp <= Qabs x)%Q -> exists b, o = Ok b /\ float_trunc eb fb x' b)).
Proof.
  intros WF WE FO L EL Hf B1 Vv Vc T. cbn zeta. pose proof (is_width_pos F WF) as WFp. pose proof (is_width_pos E WE) as WEp.
  pose proof FO as FO'. destruct FO' as [W [E1 E2] Hfb]. fold (pw (eb + fb + 1)). set (D := eb + fb + 1) in *.
  pow_pos 2 F. assert (E2F : 2 ^ F = 2 * 2 ^ (F - 1)) by (rewrite <- Z.pow_succ_r by lia; f_equal; lia). pow_pos 2 (F - 1).
  set (f' := if fb <=? F then f else f - f mod 2) in *.
  assert (Hf' : 0 <= f' < 2 ^ F) by (unfold f'; destruct (fb <=? F); [lia|pose proof (Z.mod_pos_bound f 2 ltac:(lia)); pose proof (Z.mod_le f 2 ltac:(lia) ltac:(lia)); lia]).
  rewrite uvalue_uval in Vv, Vc by lia.
  destruct (uabs_scale F e f ltac:(lia) Hf) as [S1 S2]. destruct (uabs_scale F e f' ltac:(lia) Hf') as [S1' S2'].
  pose proof (pow2_pos e) as PE.
  assert (VS : (x == sgq n (uabs F e f))%Q) by (rewrite Vv; unfold uval, sgq; destruct n; reflexivity).
  assert (VS' : (x' == sgq n (uabs F e f'))%Q) by (rewrite Vc; unfold uval, sgq; destruct n; reflexivity).
  assert (AX : (Qabs x == uabs F e f)%Q) by (rewrite VS; apply sgq_abs; lra).
  rewrite AX in *.
  assert (TE : e + (2 ^ (eb - 1) - 1) < 1) by (assert (e < 2 - 2 ^ (eb - 1)) by (apply pow2_lt_inv; lra); lia).
  destruct (pack_denorm_bits eb fb F E n e f FO WF WE EL Hf B1 TE) as [P1 P2]. fold D in P1, P2.
  set (o := u_pack_xfloati F E (any_floattrait eb fb false) (U Regular n e f)) in *. clearbody o.
  split; intros A.
  { apply P1. assert (e < 2 - 2 ^ (eb - 1) - pw D) by (apply pow2_lt_inv; lra). lia. }
  assert (SH : - (e + (2 ^ (eb - 1) - 1)) < pw D) by (assert (2 - 2 ^ (eb - 1) - pw D < e + 1) by (apply pow2_lt_inv; lra); lia).
  destruct (P2 SH) as [MB O]. clear P1 P2. set (bx := e + (2 ^ (eb - 1) - 1)) in *.
  set (M := denorm_M F fb f) in *. set (s := denorm_s F fb bx) in *. set (m := M / 2 ^ s) in *.
  assert (SP : 0 <= s) by (unfold s, denorm_s; destruct (Z.leb_spec fb F); lia). pow_pos 2 s.
  assert (MM : m * 2 ^ s <= M < (m + 1) * 2 ^ s).
  { unfold m. pose proof (Z.div_mod M (2 ^ s) ltac:(lia)). pose proof (Z.mod_pos_bound M (2 ^ s) ltac:(lia)). nia. }
  set (u := 2 - 2 ^ (eb - 1) - fb) in *.
  assert (UM : (uabs F e f' == dy M (u - s))%Q).
  { unfold uabs, f', M, s, denorm_M, denorm_s. destruct (Z.leb_spec fb F).
    - replace (e - F) with (u - (F - fb + 1 - bx)) by (unfold u, bx; lia). reflexivity.
    - assert (HE : 2 ^ F + (f - f mod 2) = (2 ^ F + f) / 2 * 2 ^ 1).
      { change (2 ^ 1) with 2. rewrite E2F, (Z.mul_comm 2), Z.div_add_l by lia. pose proof (Z.div_mod f 2 ltac:(lia)). lia. }
      rewrite HE, !dy_pow by lia. replace (e - F + 1) with (u - - bx + (fb - F)) by (unfold u, bx; lia). reflexivity. }
  assert (LO : (dy m u <= uabs F e f')%Q) by (rewrite UM; replace u with (u - s + s) at 1 by lia; rewrite <- dy_pow by lia; apply dy_le; lia).
  assert (HI : (uabs F e f' < dy (m + 1) u)%Q) by (rewrite UM; replace u with (u - s + s) at 2 by lia; rewrite <- dy_pow by lia; apply dy_lt; lia).
  assert (D1 : (dy 1 u == pow2 u)%Q) by (unfold dy; change (inject_Z 1) with 1%Q; ring).
  assert (M0 : m = 0 <-> (uabs F e f < pow2 u)%Q).
  { split; intros Q.
    - rewrite Q in HI. change (0 + 1) with 1 in HI. rewrite D1 in HI. assert (e < u) by (apply pow2_lt_inv; lra).
      eapply Qlt_le_trans; [exact S2|]. apply pow2_le. lia.
    - assert (e < u) by (apply pow2_lt_inv; lra). destruct (Z.eq_dec m 0) as [Z0|N]; [exact Z0|exfalso].
      assert (dy 1 u <= dy m u)%Q by (apply dy_le; lia). assert (pow2 (e + 1) <= pow2 u)%Q by (apply pow2_le; lia). lra. }
  assert (NX : n = true <-> (x < 0)%Q) by (rewrite VS; unfold sgq; destruct n; split; intros Q; try discriminate; lra).
  split.
  - intros D32 XN XT. rewrite O. rewrite (proj2 NX XN), (proj2 M0 XT). cbn [andb Z.eqb]. destruct (Z.leb_spec 32 D); [reflexivity|lia].
  - intros C. exists (fbits eb fb n 0 m). split.
    + rewrite O. f_equal. destruct (n && (m =? 0) && (32 <=? D)) eqn:Q; [exfalso|reflexivity].
      apply andb_prop in Q. destruct Q as [Q Q3]. apply andb_prop in Q. destruct Q as [Q1 Q2]. apply Z.leb_le in Q3. apply Z.eqb_eq in Q2.
      apply M0 in Q2. apply NX in Q1. destruct C as [C|[C|C]]; [lia|lra|lra].
    + eapply trunc_sub; try eassumption; replace (1 - (2 ^ (eb - 1) - 1) - fb) with u by (unfold u; lia); assumption.
Qed.

Lemma to_float_denormal c eb fb v : valid_cfg c -> fmt_ok eb fb -> pt_holds c eb -> frac_fits c ->
  fb <= cF c \/ cN c - 3 - ces c < cF c -> real c v ->
  let x := value c v in ~ (x == 0)%Q -> (Qabs x < pow2 (2 - 2 ^ (eb - 1)))%Q ->
  let o := p_to_float c (any_floattrait eb fb false) v in
  let ulp := pow2 (2 - 2 ^ (eb - 1) - fb) in
  ((Qabs x < pow2 (2 - 2 ^ (eb - 1) - Z.max 32 (eb + fb + 1)))%Q -> o = UB ShiftCount) /\
  ((pow2 (2 - 2 ^ (eb - 1) - Z.max 32 (eb + fb + 1)) <= Qabs x)%Q ->
    (32 <= eb + fb + 1 -> (x < 0)%Q -> (Qabs x < ulp)%Q -> o = Ok (2 ^ (eb + fb) + 1)) /\
    (eb + fb + 1 < 32 \/ (0 < x)%Q \/ (ulp <= Qabs x)%Q -> exists b, o = Ok b /\ float_trunc eb fb x b)).
Proof.
  intros V FO PT FF FB R. cbn zeta. vcb V. intros X0. unfold p_to_float.
  assert (NZ : v <> 0) by (intros ->; apply X0; reflexivity).
  set (j := if cN c - 3 - ces c <? cF c then 1 else 0).
  assert (Hj : 0 <= j <= 1) by (unfold j; destruct (_ <? _); lia).
  destruct (unpack_real c v j V ltac:(lia)) as (e & f & U0 & Hf & He & Gf & Vv); try assumption.
  { unfold frac_fits in FF. rewrite gran_val. unfold j. destruct (Z.ltb_spec (cN c - 3 - ces c) (cF c)); lia. }
  rewrite U0. cbn [bind]. set (n := v <? 0) in *. clearbody n.
  pose proof (pt_ok c eb fb V FO PT) as EL.
  destruct (emax_bound c V) as [M1 M2]. pose proof (is_width_pos _ (c_E_width c V)) as WEp.
  set (L := Z.max (c_E c) (least_bits eb)) in *.
  assert (EL2 : 2 ^ (c_E c - 1) <= 2 ^ (L - 1)) by (apply pow2_mono; lia).
  rewrite <- uvalue_uval in Vv by lia.
  assert (Vc : (value c v == uvalue (cF c) n e (if fb <=? cF c then f else f - f mod 2))%Q).
  { destruct (Z.leb_spec fb (cF c)); [exact Vv|]. assert (J1 : j = 1) by (unfold j; destruct (Z.ltb_spec (cN c - 3 - ces c) (cF c)); lia).
    rewrite J1 in Gf. change (2 ^ 1) with 2 in Gf. rewrite Gf, Z.sub_0_r. exact Vv. }
  intros T. exact (pack_denormal (cF c) (c_E c) eb fb n e f _ _ (vc_F c V) (c_E_width c V) FO EL Hf ltac:(fold L; lia) Vv Vc T).
Qed.

(** ** The fields of a float trait *)
Lemma trait_fields eb fb den b : fmt_ok eb fb -> 0 <= b < 2 ^ (eb + fb + 1) ->
  let t := any_floattrait eb fb den in
  let x := (b / 2 ^ t_fbits t) mod 2 ^ t_ebits t in
  0 <= x <= t_emask t /\
  (forall q, ieee_val eb fb b = FinVal q -> x <= t_emax t /\ (1 <= x -> scale q (x - t_bias t))) /\
  (x <= t_emax t -> exists q, ieee_val eb fb b = FinVal q) /\
  (b < t_signbit t -> 0 <= b + t_signbit t < 2 ^ (eb + fb + 1) /\
     forall q, ieee_val eb fb b = FinVal q -> exists q', ieee_val eb fb (b + t_signbit t) = FinVal q' /\ (q' == - q)%Q).
Proof.
  intros FO B. destruct (trait_max eb fb den FO) as (_ & _ & TS). cbn zeta. rewrite TS.
  cbn [any_floattrait t_fbits t_ebits t_emask t_emax t_bias]. fold (fexp_of eb fb b).
  destruct (ieee_cases eb fb FO b B) as (Bf & Be & C). pose proof FO as FO'. destruct FO' as [W [E1 E2] Hf].
  pow_pos 2 fb. pow_pos 2 eb. pow_pos 2 (eb + fb).
  assert (ED : 2 ^ (eb + fb + 1) = 2 * 2 ^ (eb + fb)) by (rewrite (Z.pow_add_r 2 (eb + fb) 1) by lia; ring).
  assert (ES : 2 ^ (eb + fb) = 2 ^ eb * 2 ^ fb) by (rewrite <- Z.pow_add_r by lia; f_equal; lia).
  split; [lia|]. split; [|split].
  - intros q Q. rewrite Q in C. destruct C as [C1 C]. split; [lia|]. intros X. destruct C as [[C2 _]|[_ C3]]; [lia|].
    set (x := fexp_of eb fb b) in *. set (f := ffrac_of fb b) in *. set (o := x - (2 ^ (eb - 1) - 1)) in *.
    assert (P0 : (0 < dy (2 ^ fb + f) (o - fb))%Q) by (apply dy_pos; lia).
    assert (A : (Qabs q == dy (2 ^ fb + f) (o - fb))%Q).
    { rewrite C3. unfold sgn1. destruct (fsign_of eb fb b); [rewrite Qabs_neg by lra|rewrite Qabs_pos by lra]; ring. }
    split; rewrite A.
    + replace o with (fb + (o - fb)) at 1 by lia. rewrite pow2_plus, pow2_Z by lia. apply dy_le. lia.
    + replace (o + 1) with (Z.succ fb + (o - fb)) by lia. rewrite pow2_plus, pow2_Z by lia. apply dy_lt. rewrite Z.pow_succ_r by lia. lia.
  - intros X. destruct (ieee_val eb fb b) as [q|s|]; [eauto|lia|lia].
  - intros L. split; [lia|]. intros q Q. rewrite Q in C.
    assert (B' : 0 <= b + 2 ^ (eb + fb) < 2 ^ (eb + fb + 1)) by lia.
    destruct (ieee_cases eb fb FO _ B') as (_ & _ & C').
    assert (X1 : fexp_of eb fb (b + 2 ^ (eb + fb)) = fexp_of eb fb b).
    { unfold fexp_of. rewrite ES, Z.div_add by lia. replace (b / 2 ^ fb + 2 ^ eb) with (b / 2 ^ fb + 1 * 2 ^ eb) by ring. apply Z.mod_add. lia. }
    assert (X2 : ffrac_of fb (b + 2 ^ (eb + fb)) = ffrac_of fb b) by (unfold ffrac_of; rewrite ES; apply Z.mod_add; lia).
    assert (X3 : fsign_of eb fb b = false) by (unfold fsign_of; rewrite (Z.add_comm fb), Z.div_small by lia; reflexivity).
    assert (X4 : fsign_of eb fb (b + 2 ^ (eb + fb)) = true).
    { unfold fsign_of. rewrite (Z.add_comm fb). replace (b + 2 ^ (eb + fb)) with (b + 1 * 2 ^ (eb + fb)) by ring. rewrite Z.div_add, Z.div_small by lia. reflexivity. }
    rewrite X1, X2, X4 in C'. rewrite X3 in C.
    destruct (ieee_val eb fb (b + 2 ^ (eb + fb))) as [q'|s|]; [|exfalso; lia|exfalso; lia].
    exists q'. split; [reflexivity|]. destruct C as [_ [[Y1 Y2]|[Y1 Y2]]], C' as [_ [[Z1 Z2]|[Z1 Z2]]]; try contradiction; rewrite Y2, Z2; unfold sgn1; ring.
Qed.
