(** Packing to float formats (pack_xfloati). *)
From Coq Require Import ZArith QArith Qabs Lia Lqa List Bool.
From Verif Require Import Res CInt Bits Traits Cfg Spec Unpacked Posit QPow Core SpecLemmas Arith DecodeProof EncodeProof UOps UAdd Ops
  OpsAdd Room Laws Configs Final1 Conv1 Conv2 Conv3.
Open Scope Z_scope.

Section build.
Variables eb fb : Z.
Hypothesis FO : fmt_ok eb fb.
Let bias := 2 ^ (eb - 1) - 1.
Let D : Z := eb + fb + 1.

Definition fbits (s : bool) (e m : Z) : Z := (if s then 1 else 0) * 2 ^ (eb + fb) + e * 2 ^ fb + m.

Lemma fbits_range s e m : 0 <= e < 2 ^ eb -> 0 <= m < 2 ^ fb -> 0 <= fbits s e m < 2 ^ D.
Proof using FO.
  intros He Hm. destruct FO as [W [E1 E2] Hf]. unfold fbits, D.
  rewrite (Z.pow_add_r 2 (eb + fb) 1), (Z.pow_add_r 2 eb fb) by lia. change (2 ^ 1) with 2.
  pow_pos 2 fb. pow_pos 2 eb. destruct s; nia.
Qed.
Lemma fbits_parts s e m : 0 <= e < 2 ^ eb -> 0 <= m < 2 ^ fb ->
  ffrac_of fb (fbits s e m) = m /\ fexp_of eb fb (fbits s e m) = e /\ fsign_of eb fb (fbits s e m) = s.
Proof using FO.
  intros He Hm. destruct FO as [W [E1 E2] Hf]. unfold ffrac_of, fexp_of, fsign_of, fbits. pow_pos 2 fb. pow_pos 2 eb.
  rewrite (Z.pow_add_r 2 eb fb) by lia. set (z := if s then 1 else 0).
  replace (z * (2 ^ eb * 2 ^ fb) + e * 2 ^ fb + m) with (m + (z * 2 ^ eb + e) * 2 ^ fb) by ring.
  assert (D1 : (m + (z * 2 ^ eb + e) * 2 ^ fb) / 2 ^ fb = z * 2 ^ eb + e)
    by (rewrite Z.div_add by lia; rewrite Z.div_small by lia; lia).
  split; [rewrite Z.mod_add by lia; apply Z.mod_small; lia|]. rewrite D1.
  split; [rewrite Z.add_comm, Z.mod_add by lia; apply Z.mod_small; lia|].
  rewrite (Z.pow_add_r 2 fb eb), <- Z.div_div, D1 by lia.
  rewrite Z.add_comm, Z.div_add, Z.div_small by lia. unfold z. destruct s; reflexivity.
Qed.
Lemma ieee_normal s e m : 1 <= e < 2 ^ eb - 1 -> 0 <= m < 2 ^ fb ->
  exists q, ieee_val eb fb (fbits s e m) = FinVal q /\ (q == sgq s (lval fb ((e - bias) * 2 ^ fb + m)))%Q.
Proof using FO.
  intros He Hm. assert (He' : 0 <= e < 2 ^ eb) by lia.
  destruct (ieee_cases eb fb FO _ (fbits_range s e m He' Hm)) as (_ & _ & C).
  destruct (fbits_parts s e m He' Hm) as (P1 & P2 & P3). rewrite P1, P2, P3 in C.
  destruct (ieee_val eb fb (fbits s e m)) as [q|n|]; [|lia|lia].
  destruct C as [_ [[C _]|[_ C]]]; [lia|]. exists q. split; [reflexivity|].
  rewrite C. fold bias. rewrite lval_ef by assumption. unfold sgn1, sgq. destruct s; ring.
Qed.
Lemma ieee_sub s m : 0 <= m < 2 ^ fb ->
  exists q, ieee_val eb fb (fbits s 0 m) = FinVal q /\ (q == sgq s (dy m (1 - bias - fb)))%Q.
Proof using FO.
  intros Hm. destruct FO as [W [E1 E2] Hf]. assert (P4 : 2 ^ 2 <= 2 ^ eb) by (apply pow2_mono; lia). change (2 ^ 2) with 4 in P4.
  assert (He' : 0 <= 0 < 2 ^ eb) by lia.
  destruct (ieee_cases eb fb FO _ (fbits_range s 0 m He' Hm)) as (_ & _ & C).
  destruct (fbits_parts s 0 m He' Hm) as (P1 & P2 & P3). rewrite P1, P2, P3 in C.
  destruct (ieee_val eb fb (fbits s 0 m)) as [q|n|]; [|lia|lia].
  destruct C as [_ [[_ C]|[C _]]]; [|lia]. exists q. split; [reflexivity|].
  rewrite C. fold bias. unfold sgn1, sgq. destruct s; ring.
Qed.
(** Every finite float is one of these. *)
Lemma ieee_inv b q : 0 <= b < 2 ^ D -> ieee_val eb fb b = FinVal q ->
  (exists e m, 1 <= e < 2 ^ eb - 1 /\ 0 <= m < 2 ^ fb /\ (Qabs q == lval fb ((e - bias) * 2 ^ fb + m))%Q) \/
  (exists m, 0 <= m < 2 ^ fb /\ (Qabs q == dy m (1 - bias - fb))%Q).
Proof using FO.
  intros B I. destruct FO as [W [E1 E2] Hf]. destruct (ieee_cases eb fb FO b B) as (Bf & Be & C). rewrite I in C.
  assert (S : forall s m x, 0 <= m -> (Qabs (sgn1 s * dy m x) == dy m x)%Q).
  { intros s m x M. assert (P : (0 <= dy m x)%Q) by (rewrite <- (dy_0 x); apply dy_le; lia). unfold sgn1. destruct s.
    - rewrite Qabs_neg by lra. ring.
    - rewrite Qabs_pos by lra. ring. }
  destruct C as [C1 [[C2 C3]|[C2 C3]]].
  - right. exists (ffrac_of fb b). split; [assumption|]. rewrite C3, S by lia. reflexivity.
  - left. exists (fexp_of eb fb b), (ffrac_of fb b). split; [lia|]. split; [assumption|]. pow_pos 2 fb.
    rewrite C3, S by lia. rewrite lval_ef by assumption. reflexivity.
Qed.
Lemma sub_below m : 0 <= m < 2 ^ fb -> (dy m (1 - bias - fb) < lval fb ((1 - bias) * 2 ^ fb))%Q.
Proof using FO.
  intros Hm. destruct FO as [W [E1 E2] Hf]. pow_pos 2 fb.
  replace ((1 - bias) * 2 ^ fb) with ((1 - bias) * 2 ^ fb + 0) by lia. rewrite lval_ef by lia.
  rewrite Z.add_0_r. apply dy_lt. lia.
Qed.

(** Truncation to a normal float, and saturation. *)
Lemma trunc_normal s e m x y : 1 <= e < 2 ^ eb - 1 -> 0 <= m < 2 ^ fb -> (y == sgq s x)%Q ->
  (lval fb ((e - bias) * 2 ^ fb + m) <= x)%Q ->
  (x < lval fb ((e - bias) * 2 ^ fb + m + 1))%Q \/ (e = 2 ^ eb - 2 /\ m = 2 ^ fb - 1) ->
  float_trunc eb fb y (fbits s e m).
Proof using FO.
  intros He Hm Y LO HI. destruct FO as [W [E1 E2] Hf]. pow_pos 2 fb.
  split; [apply fbits_range; lia|]. destruct (ieee_normal s e m He Hm) as (q & I & Q). exists q. split; [assumption|].
  set (l := lval fb ((e - bias) * 2 ^ fb + m)) in *.
  assert (LP : (0 < l)%Q) by (apply lval_pos; lia).
  assert (QA : (Qabs q == l)%Q) by (rewrite Q; destruct s; cbn [sgq]; [rewrite Qabs_neg by lra|rewrite Qabs_pos by lra]; ring).
  assert (YA : (Qabs y == x)%Q) by (rewrite Y; destruct s; cbn [sgq]; [rewrite Qabs_neg by lra|rewrite Qabs_pos by lra]; ring).
  rewrite QA, YA. split; [assumption|].
  split.
  { rewrite Q, Y. assert (P : (0 <= l * x)%Q) by (apply Qmult_le_0_compat; lra).
    destruct s; cbn [sgq]; [setoid_replace (- l * - x)%Q with (l * x)%Q by ring|]; assumption. }
  intros b' q' B' I'. rewrite YA, QA. intros LE.
  destruct (ieee_inv b' q' B' I') as [(e' & m' & He' & Hm' & Q')|(m' & Hm' & Q')]; rewrite Q' in *.
  - apply lval_le; [lia|]. destruct HI as [HI|[-> ->]].
    + assert (LL : (e' - bias) * 2 ^ fb + m' < (e - bias) * 2 ^ fb + m + 1) by (apply (lval_lt_inv fb); [lia|lra]). lia.
    + nia.
  - apply Qlt_le_weak. eapply Qlt_le_trans; [apply sub_below; assumption|]. apply lval_le; nia.
Qed.
(** Truncation to a denormal. *)
Lemma trunc_sub s m x y : 0 <= m < 2 ^ fb -> (y == sgq s x)%Q -> (dy m (1 - bias - fb) <= x)%Q ->
  (x < dy (m + 1) (1 - bias - fb))%Q -> float_trunc eb fb y (fbits s 0 m).
Proof using FO.
  intros Hm Y LO HI. destruct FO as [W [E1 E2] Hf]. pow_pos 2 fb. assert (P4 : 2 ^ 2 <= 2 ^ eb) by (apply pow2_mono; lia). change (2 ^ 2) with 4 in P4.
  split; [apply fbits_range; lia|]. destruct (ieee_sub s m Hm) as (q & I & Q). exists q. split; [assumption|].
  set (l := dy m (1 - bias - fb)) in *.
  assert (LP : (0 <= l)%Q) by (unfold l; rewrite <- (dy_0 (1 - bias - fb)); apply dy_le; lia).
  assert (QA : (Qabs q == l)%Q) by (rewrite Q; destruct s; cbn [sgq]; [rewrite Qabs_neg by lra|rewrite Qabs_pos by lra]; ring).
  assert (YA : (Qabs y == x)%Q) by (rewrite Y; destruct s; cbn [sgq]; [rewrite Qabs_neg by lra|rewrite Qabs_pos by lra]; ring).
  rewrite QA, YA. split; [assumption|].
  split.
  { rewrite Q, Y. assert (P : (0 <= l * x)%Q) by (apply Qmult_le_0_compat; lra).
    destruct s; cbn [sgq]; [setoid_replace (- l * - x)%Q with (l * x)%Q by ring|]; assumption. }
  intros b' q' B' I'. rewrite YA, QA. intros LE.
  destruct (ieee_inv b' q' B' I') as [(e' & m' & He' & Hm' & Q')|(m' & Hm' & Q')]; rewrite Q' in *.
  - exfalso. assert (A : (lval fb ((1 - bias) * 2 ^ fb) <= lval fb ((e' - bias) * 2 ^ fb + m'))%Q) by (apply lval_le; nia).
    assert (B : (dy (m + 1) (1 - bias - fb) <= lval fb ((1 - bias) * 2 ^ fb))%Q).
    { replace ((1 - bias) * 2 ^ fb) with ((1 - bias) * 2 ^ fb + 0) by lia. rewrite lval_ef by lia.
      apply dy_le. lia. }
    lra.
  - unfold l. apply dy_le. assert (m' < m + 1) by (apply (dy_lt_inv _ _ (1 - bias - fb)); lra). lia.
Qed.
End build.

Section packf.
Variables eb fb F E : Z.
Variable den : bool.
Hypothesis FO : fmt_ok eb fb.
Hypothesis WF : is_width F.
Hypothesis WE : is_width E.
Let L : Z := Z.max E (least_bits eb).
Hypothesis EL : eb < L.
Let bias : Z := 2 ^ (eb - 1) - 1.
Let D : Z := eb + fb + 1.

Lemma L_width : is_width L.
Proof using FO WE.
  clear EL. destruct FO as [_ He _]. unfold L, least_bits.
  destruct (Z.leb_spec eb 8); [|destruct (Z.leb_spec eb 16); [|lia]];
    destruct WE as [->|[->|[->| ->]]]; unfold is_width; cbn; lia.
Qed.

Lemma trait_max : t_max (any_floattrait eb fb den) = fbits eb fb false (2 ^ eb - 2) (2 ^ fb - 1) /\
  t_lowest (any_floattrait eb fb den) = fbits eb fb true (2 ^ eb - 2) (2 ^ fb - 1) /\
  t_signbit (any_floattrait eb fb den) = 2 ^ (eb + fb).
Proof using FO.
  clear EL. clear L WE WF bias. destruct FO as [W [E1 E2] Hf]. cbn [any_floattrait t_max t_lowest t_signbit]. fold D.
  replace (D - 1) with (eb + fb) by (unfold D; lia). pow_pos 2 (eb + fb). pow_pos 2 fb. pow_pos 2 (eb - 1).
  assert (ED : 2 ^ D = 2 * 2 ^ (eb + fb)) by (unfold D; rewrite (Z.pow_add_r 2 (eb + fb) 1) by lia; ring).
  assert (ES : 2 ^ (eb + fb) = 2 ^ (eb - 1) * 2 ^ (fb + 1)) by (rewrite <- Z.pow_add_r by lia; f_equal; lia).
  assert (EB : 2 ^ eb = 2 ^ (eb - 1) * 2) by (replace eb with (eb - 1 + 1) at 1 by lia; rewrite Z.pow_add_r by lia; ring).
  assert (EF : 2 ^ (fb + 1) = 2 ^ fb * 2) by (rewrite Z.pow_add_r by lia; ring).
  assert (M : cast (uint D) (cor (kmask (eb - 1) * 2 ^ (fb + 1)) (kmask fb)) = fbits eb fb false (2 ^ eb - 2) (2 ^ fb - 1)).
  { unfold cor, kmask. rewrite Z.lor_comm, lor_add by lia. rewrite cast_u_small by (rewrite ED, ES; nia).
    unfold fbits. rewrite EF, EB. ring. }
  rewrite M. split; [reflexivity|]. rewrite (cast_u_small D (2 ^ (eb + fb))) by lia. split; [|reflexivity].
  unfold cor. rewrite <- (Z.mul_1_l (2 ^ (eb + fb))). rewrite lor_add.
  - unfold fbits. ring.
  - lia.
  - unfold fbits. rewrite ES, EF, EB. nia.
Qed.

Lemma pack_float n e f : 0 <= f < 2 ^ F -> - 2 ^ (L - 1) <= e -> e + bias < 2 ^ (L - 1) ->
  let o := u_pack_xfloati F E (any_floattrait eb fb den) (U Regular n e f) in
  (2 ^ eb - 2 < e + bias -> o = Ok (fbits eb fb n (2 ^ eb - 2) (2 ^ fb - 1))) /\
  (1 <= e + bias <= 2 ^ eb - 2 -> o = Ok (fbits eb fb n (e + bias) (f * 2 ^ fb / 2 ^ F))) /\
  (e + bias < 1 -> den = true -> o = Ok 0) /\
  (e + bias < 1 -> den = false -> D < 32 -> fb < F -> - (e + bias) < 32 ->
     o = Ok (fbits eb fb n 0 ((2 ^ F + f) / 2 ^ (F - fb + 1 - (e + bias))))) /\
  (e + bias < 1 -> den = false -> D < 32 -> fb < F -> 32 <= - (e + bias) -> o = UB ShiftCount).
Proof using FO WF WE EL.
  intros Hf B1 B2. cbn zeta. pose proof L_width as WL. pose proof (is_width_pos L WL) as WLp. pose proof (is_width_pos F WF) as WFp.
  destruct trait_max as (TM & TL & TS). pose proof FO as FO'. destruct FO' as [W [E1 E2] Hfb]. fold D in W. pose proof (is_width_pos D W) as WDp.
  unfold u_pack_xfloati. cbn [utyp uexp ufrac uneg]. rewrite TM, TL, TS.
  cbn [any_floattrait t_ebits t_hold t_bias t_emax t_emask t_fbits t_denorm]. cbn zeta. fold L. fold D. fold bias.
  assert (EB : 2 ^ eb <= 2 ^ (L - 1)) by (apply pow2_mono; lia).
  assert (EB1 : 2 ^ eb = 2 ^ (eb - 1) * 2) by (replace eb with (eb - 1 + 1) at 1 by lia; rewrite Z.pow_add_r by lia; ring).
  assert (P4 : 2 ^ 1 <= 2 ^ (eb - 1)) by (apply pow2_mono; lia). change (2 ^ 1) with 2 in P4.
  assert (BP : 1 <= bias) by (unfold bias; lia).
  rewrite (cast_s_small L e) by lia. unfold cadd. rewrite (common_E L WL).
  rewrite arith_s; [|lia|].
  2: { pose proof (E_range L WL (e + bias) ltac:(lia)). assumption. }
  cbn [bind]. rewrite (cast_s_small L (e + bias)) by lia. set (x := e + bias) in *.
  rewrite Z.gtb_ltb.
  split; [|split; [|split; [|split]]].
  - intros H. destruct (Z.ltb_spec (2 ^ eb - 2) x); [|lia]. destruct n; reflexivity.
  - intros H. destruct (Z.ltb_spec (2 ^ eb - 2) x); [lia|]. destruct (Z.ltb_spec x 1); [lia|]. cbn [andb].
    unfold cand. rewrite land_ones', Z.mod_small by lia.
    pow_pos 2 fb. pow_pos 2 F. pow_pos 2 (eb + fb).
    assert (ED : 2 ^ D = 2 * 2 ^ (eb + fb)) by (unfold D; rewrite (Z.pow_add_r 2 (eb + fb) 1) by lia; ring).
    assert (ES : 2 ^ (eb + fb) = 2 ^ eb * 2 ^ fb) by (rewrite <- Z.pow_add_r by lia; reflexivity).
    rewrite (cast_u_small D x) by (rewrite ED, ES; nia).
    destruct (cshl_u_exact D x fb) as (r & R1 & R2); try assumption; try (unfold pw; unfold D in *; lia).
    { split; [lia|]. rewrite ED, ES; nia. }
    { rewrite ED, ES. nia. }
    rewrite R1. cbn [bind]. rewrite R2.
    destruct (fbe_pack_spec F D fb f WF W) as (g & G1 & G2 & G3); [unfold D; lia|assumption|].
    rewrite G1. cbn [bind]. rewrite <- G2. unfold cor. rewrite lor_add by lia.
    assert (VV : Z.lor (g + x * 2 ^ fb) (if n then 2 ^ (eb + fb) else 0) = fbits eb fb n x g).
    { unfold fbits. destruct n.
      - rewrite <- (Z.mul_1_l (2 ^ (eb + fb))) at 1. rewrite lor_add; [ring|lia|]. rewrite ES. nia.
      - rewrite Z.lor_0_r. ring. }
    rewrite VV. assert (VB : 0 <= fbits eb fb n x g < 2 ^ D) by (apply fbits_range; [exact FO|lia|lia]).
    rewrite cast_u_small by assumption.
    destruct (cshl_u D (fbits eb fb n x g) 1) as (d & D1 & D2); try assumption; try (unfold pw; lia).
    rewrite D1. cbn [bind].
    assert (DN : (d =? 0) = false).
    { apply Z.eqb_neq. intros ->. rewrite cast_u in D2. rewrite Z.mod_0_l in D2 by lia.
      symmetry in D2. apply Z.mod_divide in D2; [|lia]. destruct D2 as [k K]. change (2 ^ 1) with 2 in K.
      unfold fbits in *. rewrite ED in *. clear - K VB G3 H ES H0 H1 EB1.
      assert (k = 0 \/ k = 1) by nia. destruct n; nia. }
    rewrite DN, andb_false_r. reflexivity.
  - intros H ->. destruct (Z.ltb_spec (2 ^ eb - 2) x); [lia|]. destruct (Z.ltb_spec x 1); [|lia]. reflexivity.
  - intros H -> D32 FF SH. destruct (Z.ltb_spec (2 ^ eb - 2) x); [lia|]. destruct (Z.ltb_spec x 1); [|lia]. cbn [andb bind].
    assert (PD : fbe_packdenorm F D fb f = Ok ((2 ^ F + f) / 2 ^ (F - fb + 1))).
    { unfold fbe_packdenorm. unfold pF. rewrite cshr_ok by (rewrite iw_prom_uint by assumption; unfold pw; lia). cbn [bind].
      change (2 ^ 1) with 2. unfold FT_leftmost_bit, cor.
      assert (EF : 2 ^ F = 2 * 2 ^ (F - 1)) by (rewrite <- Z.pow_succ_r by lia; f_equal; lia). pow_pos 2 (F - 1).
      assert (HH2 : 0 <= f / 2 < 2 ^ (F - 1)) by (split; [apply Z.div_pos; lia|apply Z.div_lt_upper_bound; lia]).
      assert (LO : Z.lor (2 ^ (F - 1)) (f / 2) = (2 ^ F + f) / 2).
      { pose proof (lor_add (f / 2) 1 (F - 1) ltac:(lia) HH2) as LA. rewrite Z.mul_1_l in LA. rewrite Z.lor_comm, LA.
        rewrite EF, (Z.mul_comm 2), Z.div_add_l by lia. lia. }
      rewrite LO. rewrite Z.gtb_ltb. destruct (Z.ltb_spec fb F); [|lia].
      rewrite cshr_ok by (rewrite iw_prom_uint by assumption; unfold pw; lia). cbn [bind].
      pow_pos 2 (F - fb). rewrite Z.div_div by lia.
      replace (2 * 2 ^ (F - fb)) with (2 ^ (F - fb + 1)) by (rewrite Z.pow_add_r by lia; ring).
      f_equal. apply cast_u_small. pow_pos 2 (F - fb + 1). split; [apply Z.div_pos; lia|].
      apply Z.div_lt_upper_bound; [lia|]. rewrite <- Z.pow_add_r by lia.
      apply Z.lt_le_trans with (2 ^ (F + 1)); [rewrite Z.pow_add_r by lia; change (2 ^ 1) with 2; lia|].
      apply pow2_mono; unfold D; lia. }
    rewrite PD. cbn [bind]. unfold cneg. rewrite (prom_sint L WL).
    rewrite (arith_s (pw L) (- x)); [|unfold pw; lia|].
    2: { assert (2 ^ (L - 1) <= 2 ^ (pw L - 1)) by (apply pow2_mono; unfold pw; lia). lia. }
    cbn [bind].
    rewrite cshr_ok by (rewrite iw_prom_uint by assumption; unfold pw; lia). cbn [bind].
    pow_pos 2 (F - fb + 1). pow_pos 2 (- x). rewrite Z.div_div by lia. rewrite <- Z.pow_add_r by lia.
    replace (F - fb + 1 + - x) with (F - fb + 1 - x) by lia.
    set (m := (2 ^ F + f) / 2 ^ (F - fb + 1 - x)). pow_pos 2 fb. pow_pos 2 (eb + fb).
    assert (MB : 0 <= m < 2 ^ fb).
    { unfold m. pow_pos 2 (F - fb + 1 - x). split; [apply Z.div_pos; lia|].
      apply Z.div_lt_upper_bound; [lia|]. rewrite <- Z.pow_add_r by lia.
      apply Z.lt_le_trans with (2 ^ (F + 1)); [rewrite Z.pow_add_r by lia; change (2 ^ 1) with 2; lia|].
      apply pow2_mono; lia. }
    assert (ES : 2 ^ (eb + fb) = 2 ^ eb * 2 ^ fb) by (rewrite <- Z.pow_add_r by lia; reflexivity).
    assert (ED : 2 ^ D = 2 * 2 ^ (eb + fb)) by (unfold D; rewrite (Z.pow_add_r 2 (eb + fb) 1) by lia; ring).
    rewrite (cast_u_small D m) by (rewrite ED, ES; nia).
    assert (VV : cor (cor m 0) (if n then 2 ^ (eb + fb) else 0) = fbits eb fb n 0 m).
    { unfold fbits, cor. rewrite Z.lor_0_r. destruct n.
      - rewrite <- (Z.mul_1_l (2 ^ (eb + fb))) at 1. rewrite lor_add; [ring|lia|]. rewrite ES. nia.
      - rewrite Z.lor_0_r. ring. }
    rewrite VV. assert (VB : 0 <= fbits eb fb n 0 m < 2 ^ D) by (apply fbits_range; [exact FO|lia|lia]).
    rewrite cast_u_small by assumption.
    assert (PB : prom (uint D) = c_int) by (unfold prom; cbn [iw uint]; destruct (Z.ltb_spec D 32); [reflexivity|lia]).
    rewrite PB.
    assert (D31 : 2 ^ D <= 2 ^ 16) by (apply pow2_mono; destruct W as [X|[X|[X|X]]]; lia). change (2 ^ 16) with 65536 in D31.
    assert (CS : cshl c_int (fbits eb fb n 0 m) 1 = Ok (2 * fbits eb fb n 0 m)).
    { unfold cshl. cbn [c_int sint iw isg]. change ((1 <? 0) || (32 <=? 1)) with false. cbn iota.
      destruct (Z.ltb_spec (fbits eb fb n 0 m) 0); [lia|]. change (2 ^ 1) with 2. change (2 ^ 32) with 4294967296.
      destruct (Z.leb_spec 4294967296 (fbits eb fb n 0 m * 2)); [lia|].
      f_equal. rewrite wraps_small; [ring|lia|]. change (2 ^ (32 - 1)) with 2147483648. lia. }
    rewrite CS. cbn [bind].
    destruct (Z.eqb_spec (fbits eb fb n 0 m) 0); cbn [negb andb]; [reflexivity|].
    destruct (Z.eqb_spec (2 * fbits eb fb n 0 m) 0); [lia|reflexivity].
  - intros H -> D32 FF SH. destruct (Z.ltb_spec (2 ^ eb - 2) x); [lia|]. destruct (Z.ltb_spec x 1); [|lia]. cbn [andb bind].
    assert (PD : fbe_packdenorm F D fb f = Ok ((2 ^ F + f) / 2 ^ (F - fb + 1))).
    { unfold fbe_packdenorm. unfold pF. rewrite cshr_ok by (rewrite iw_prom_uint by assumption; unfold pw; lia). cbn [bind].
      change (2 ^ 1) with 2. unfold FT_leftmost_bit, cor.
      assert (EF : 2 ^ F = 2 * 2 ^ (F - 1)) by (rewrite <- Z.pow_succ_r by lia; f_equal; lia). pow_pos 2 (F - 1).
      assert (HH2 : 0 <= f / 2 < 2 ^ (F - 1)) by (split; [apply Z.div_pos; lia|apply Z.div_lt_upper_bound; lia]).
      assert (LO : Z.lor (2 ^ (F - 1)) (f / 2) = (2 ^ F + f) / 2).
      { pose proof (lor_add (f / 2) 1 (F - 1) ltac:(lia) HH2) as LA. rewrite Z.mul_1_l in LA. rewrite Z.lor_comm, LA.
        rewrite EF, (Z.mul_comm 2), Z.div_add_l by lia. lia. }
      rewrite LO. rewrite Z.gtb_ltb. destruct (Z.ltb_spec fb F); [|lia].
      rewrite cshr_ok by (rewrite iw_prom_uint by assumption; unfold pw; lia). cbn [bind].
      pow_pos 2 (F - fb). rewrite Z.div_div by lia.
      replace (2 * 2 ^ (F - fb)) with (2 ^ (F - fb + 1)) by (rewrite Z.pow_add_r by lia; ring).
      f_equal. apply cast_u_small. pow_pos 2 (F - fb + 1). split; [apply Z.div_pos; lia|].
      apply Z.div_lt_upper_bound; [lia|]. rewrite <- Z.pow_add_r by lia.
      apply Z.lt_le_trans with (2 ^ (F + 1)); [rewrite Z.pow_add_r by lia; change (2 ^ 1) with 2; lia|].
      apply pow2_mono; unfold D; lia. }
    rewrite PD. cbn [bind]. unfold cneg. rewrite (prom_sint L WL).
    rewrite (arith_s (pw L) (- x)); [|unfold pw; lia|].
    2: { assert (2 ^ (L - 1) <= 2 ^ (pw L - 1)) by (apply pow2_mono; unfold pw; lia). lia. }
    cbn [bind].
    rewrite cshr_ub by (rewrite iw_prom_uint by assumption; unfold pw; lia). reflexivity.
Qed.
End packf.
