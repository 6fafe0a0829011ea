(** The class posit10, and the conversions of the tabulated classes. *)
From Coq Require Import ZArith QArith Qabs Qpower Qminmax Lia Lqa Bool List.
From Verif Require Import Res CInt Bits Traits Unpacked Cfg Posit Spec SpecTab SpecFloat SpecAny SpecGen FloatOps QPow Core SpecLemmas Arith DecodeProof EncodeProof
  UOps UAdd Ops OpsAdd OpsUnary OpsUnary2 Specials Room Laws Configs Final1 Final2 Final3 Misc4 Conv1 Conv2 Conv3 Conv4 Conv5 Conv6 TabProof5 FloatProof FloatProof2 PositF PositFProof PositFProof2 PositFProof3 PositFProof4
  AnyProof AnyProof2 AnyProof3 AnyProof4 AnyProof5 AnyProof6 Tab TabProof TabProof2 TabProof3 TabProof4 Gen GenProof GenProof2 GenProof3 GenProof4.
Open Scope Z_scope.


(** ** Float to int *)
Lemma float_int b x : 0 <= b < 2 ^ 32 -> ieee_val 8 23 b = FinVal x -> exists i, truncated x i /\
  (- 2 ^ 31 <= i < 2 ^ 31 -> float_to_int b = Ok i) /\ (~ - 2 ^ 31 <= i < 2 ^ 31 -> float_to_int b = UB FloatToInt).
Proof.
  intros B I. destruct (ieee_cases 8 23 fmt23 b B) as (Bf & Be & C). rewrite I in C. destruct C as [C1 C2].
  set (e := fexp_of 8 23 b) in *. set (f := ffrac_of 23 b) in *. set (s := fsign_of 8 23 b) in *.
  assert (SG : s = negb (b <? 2 ^ 31)).
  { unfold s, fsign_of. destruct (Z.ltb_spec b (2 ^ 31)) as [L|L]; cbn [negb].
    - rewrite Z.div_small by (change (2 ^ (23 + 8)) with (2 ^ 31); lia). reflexivity.
    - replace (b / 2 ^ (23 + 8)) with 1; [reflexivity|]. change (2 ^ (23 + 8)) with (2 ^ 31). change (2 ^ 32) with (2 * 2 ^ 31) in B.
      apply Z.div_unique with (b - 2 ^ 31); lia. }
  set (a := if e <? 127 then 0 else if e <=? 150 then (2 ^ 23 + f) / 2 ^ (150 - e) else (2 ^ 23 + f) * 2 ^ (e - 150)).
  assert (A0 : 0 <= a).
  { unfold a. destruct (e <? 127); [lia|]. destruct (Z.leb_spec e 150); [apply Z.div_pos; [lia|apply Z.pow_pos_nonneg; lia]|]. pow_pos 2 (e - 150). nia. }
  assert (AX : exists y, (x == sgn1 s * y)%Q /\ (inject_Z a <= y)%Q /\ (y < inject_Z (a + 1))%Q).
  { destruct C2 as [[C2 C3]|[C2 C3]]; eexists; (split; [exact C3|]).
    - unfold a. rewrite C2. cbn [Z.ltb Z.compare]. split.
      + destruct (Z.eq_dec f 0) as [->|]; [rewrite dy_0; apply Qle_refl|]. apply Qlt_le_weak, dy_pos. lia.
      + apply Qlt_trans with (dy (2 ^ 23) (1 - (2 ^ (8 - 1) - 1) - 23)); [apply dy_lt; lia|vm_compute; reflexivity].
    - change (e - (2 ^ (8 - 1) - 1) - 23) with (e - 127 - 23). replace (e - 127 - 23) with (e - 150) by lia. unfold a. destruct (Z.ltb_spec e 127) as [L|L]; [|destruct (Z.leb_spec e 150) as [L'|L']].
      + split; [apply Qlt_le_weak, dy_pos; lia|]. apply Qlt_le_trans with (dy (2 ^ 24) (e - 150)); [apply dy_lt; change (2 ^ 24) with (2 * 2 ^ 23); lia|].
        replace (2 ^ 24) with (1 * 2 ^ 24) by reflexivity. rewrite dy_pow by lia. unfold dy. change (inject_Z 1) with 1%Q. rewrite Qmult_1_l.
        change (inject_Z (0 + 1)) with (pow2 0). apply pow2_le. lia.
      + set (k := 150 - e). assert (K : 0 <= k) by (unfold k; lia). pow_pos 2 k.
        assert (DI : forall z, (inject_Z z == dy (z * 2 ^ k) (e - 150))%Q).
        { intros z. rewrite dy_pow by exact K. replace (e - 150 + k) with 0 by (unfold k; lia). unfold dy. change (pow2 0) with 1%Q. ring. }
        rewrite !DI. pose proof (Z.div_mod (2 ^ 23 + f) (2 ^ k) ltac:(lia)) as DM. pose proof (Z.mod_pos_bound (2 ^ 23 + f) (2 ^ k) ltac:(lia)).
        split; [apply dy_le|apply dy_lt]; nia.
      + assert (E : (dy (2 ^ 23 + f) (e - 150) == inject_Z ((2 ^ 23 + f) * 2 ^ (e - 150)))%Q).
        { replace (e - 150) with (0 + (e - 150)) at 1 by lia. rewrite <- dy_pow by lia. unfold dy. change (pow2 0) with 1%Q. ring. }
        rewrite E, inject_Z_plus. change (inject_Z 1) with 1%Q. lra. }
  destruct AX as (y & X & Y1 & Y2).
  assert (YP : (0 <= y)%Q) by (apply Qle_trans with (inject_Z a); [change 0%Q with (inject_Z 0); rewrite <- Zle_Qle; lia|exact Y1]).
  exists (if s then - a else a). split.
  { unfold truncated. assert (QX : (Qabs x == y)%Q) by (rewrite X; unfold sgn1; destruct s; [rewrite Qabs_neg by lra|rewrite Qabs_pos by lra]; ring).
    assert (ZA : Z.abs (if s then - a else a) = a) by (destruct s; lia). rewrite ZA, QX. split; [exact Y1|]. split; [exact Y2|].
    rewrite X. assert (AP : (0 <= inject_Z a)%Q) by (change 0%Q with (inject_Z 0); rewrite <- Zle_Qle; lia).
    assert (P : (0 <= inject_Z a * y)%Q) by (apply Qmult_le_0_compat; assumption).
    unfold sgn1. destruct s; [rewrite inject_Z_opp|]; lra. }
  assert (E : float_to_int b = if ((- 2 ^ 31 <=? (if s then - a else a)) && ((if s then - a else a) <? 2 ^ 31))%bool then Ok (if s then - a else a) else UB FloatToInt).
  { unfold float_to_int. change ((b / 2 ^ 23) mod 2 ^ 8) with e. change (b mod 2 ^ 23) with f. cbv zeta. fold a.
    destruct (Z.eqb_spec e 255) as [E|_]; [destruct C1; exact E|]. cbn [orb]. rewrite SG.
    destruct (b <? 2 ^ 31); cbn [negb]; match goal with |- context [?r <? - 2 ^ 31] => destruct (Z.ltb_spec r (- 2 ^ 31)), (Z.leb_spec (2 ^ 31) r), (Z.leb_spec (- 2 ^ 31) r), (Z.ltb_spec r (2 ^ 31)) end;
      cbn [orb andb]; try reflexivity; exfalso; lia. }
  rewrite E. set (i := if s then - a else a). split; intros H; destruct (Z.leb_spec (- 2 ^ 31) i), (Z.ltb_spec i (2 ^ 31)); cbn [andb]; try reflexivity; exfalso; lia.
Qed.

(** ** Construction from a float, a double or an int *)
Lemma roomy_room c q : valid_cfg c -> roomy c -> ~ (q == 0)%Q -> room c q.
Proof. intros V R N. right. destruct (scale_exists q N) as (e & S). exists e. split; [exact S|]. apply roomy_pack_room; assumption. Qed.
Lemma of_special c eb fb b : valid_cfg c -> fmt_ok eb fb -> et_holds c eb -> csp c = WithNan ->
  0 <= b < 2 ^ (eb + fb + 1) -> (forall x, ieee_val eb fb b <> FinVal x) -> p_of_float c (any_floattrait eb fb true) b = Ok (exceptional c).
Proof.
  intros V FO ET SP B N. destruct (ieee_cases eb fb FO b B) as (_ & _ & C).
  assert (TE : fexp_of eb fb b = 2 ^ eb - 1) by (destruct (ieee_val eb fb b) as [x| |]; [destruct (N x eq_refl)|tauto|tauto]).
  destruct (unpack_float eb fb (cF c) (c_E c) true FO (vc_F c V) (c_E_width c V) (et_ok c eb fb V FO ET) b B) as [_ U].
  unfold p_of_float. rewrite U, TE, Z.eqb_refl. cbn [bind].
  assert (I : forall n, inf_of c n = exceptional c) by (intros n; unfold inf_of; rewrite SP; reflexivity).
  destruct (dec_frac fb (cF c) b =? 0).
  - etransitivity; [apply (pack_specials c _ _ _ V)|]. rewrite I. reflexivity.
  - apply (pack_specials c _ _ _ V).
Qed.
Lemma zero_patterns eb fb b q : fmt_ok eb fb -> 0 <= b < 2 ^ (eb + fb + 1) -> ieee_val eb fb b = FinVal q -> (q == 0)%Q -> b = 0 \/ b = 2 ^ (eb + fb).
Proof.
  intros FO B I Q. destruct (ieee_code_inv eb fb FO b q B I) as (s & g & G & -> & E). rewrite Q in E.
  assert (G0 : g = 0).
  { destruct (Z.eq_dec g 0) as [->|N]; [reflexivity|exfalso]. pose proof (mval_0 eb fb FO) as M0.
    pose proof (mval_lt eb fb FO 0 g ltac:(lia) ltac:(lia)) as L. destruct s; cbn [sgq] in E; lra. }
  subst g. destruct s; [right|left]; ring.
Qed.
(** Below the least posit all numbers of one sign round alike. *)
Lemma tiny_down c p q v : (forall w, real c w -> (0 < value c w)%Q -> (p < value c w)%Q /\ (q < value c w)%Q) -> down_pos c p v -> down_pos c q v.
Proof.
  intros M (A & B & C & D). split; [exact A|]. split; [exact B|]. split; [intros w W P L; destruct (M w W P); lra|].
  destruct D as [D|D]; [destruct (M v A B); lra|right; exact D].
Qed.
Lemma of_subnormal c (T : tabbed c) eb fb b q : fmt_ok eb fb -> et_holds c eb -> 8 <= eb -> cF c < 32 -> 0 <= b < 2 ^ (eb + fb + 1) -> ieee_val eb fb b = FinVal q ->
  ~ (q == 0)%Q -> (Qabs q < least_normal eb)%Q -> ((Qabs q < pow2 (2 - 2 ^ (eb - 1) - cF c))%Q -> p_of_float c (any_floattrait eb fb true) b = Ok 0) /\
  ((pow2 (2 - 2 ^ (eb - 1) - cF c) <= Qabs q)%Q -> exists r, p_of_float c (any_floattrait eb fb true) b = Ok r /\ rounds_tz c q r).
Proof.
  intros FO ET E8 F32 B IV NQ SM. pose proof (tb_valid c T) as V. pose proof (et_ok c eb fb V FO ET) as EE. vcb V.
  destruct (ieee_cases eb fb FO b B) as (Bf & Be & C). rewrite IV in C. pose proof FO as FO'. destruct FO' as [W [E1 E2] Hf].
  destruct (unpack_float eb fb (cF c) (c_E c) true FO (vc_F c V) (c_E_width c V) EE b B) as [Bd R].
  pow_pos 2 fb. pow_pos 2 (cF c).
  destruct C as [C1 [[C2 C3]|[C2 C3]]].
  2:{ exfalso. set (e := fexp_of eb fb b) in *. set (f := ffrac_of fb b) in *.
      assert (A : (Qabs q == dy (2 ^ fb + f) (e - (2 ^ (eb - 1) - 1) - fb))%Q).
      { rewrite C3. pose proof (dy_pos (2 ^ fb + f) (e - (2 ^ (eb - 1) - 1) - fb) ltac:(lia)). unfold sgn1. destruct (fsign_of eb fb b); [rewrite Qabs_neg by lra|rewrite Qabs_pos by lra]; ring. }
      rewrite A in SM. unfold least_normal in SM. apply (Qlt_not_le _ _ SM).
      apply Qle_trans with (dy (1 * 2 ^ fb) (e - (2 ^ (eb - 1) - 1) - fb)); [|apply dy_le; lia]. rewrite dy_pow by lia. unfold dy. change (inject_Z 1) with 1%Q. rewrite Qmult_1_l. apply pow2_le. lia. }
  unfold p_of_float. rewrite R. clear R. destruct (Z.eqb_spec (fexp_of eb fb b) (2 ^ eb - 1)); [contradiction|]. rewrite C2. cbn [Z.eqb negb orb].
  set (F := cF c) in *. set (d := dec_frac fb F b) in *. set (f := ffrac_of fb b) in *. set (s := fsign_of eb fb b) in *.
  assert (DZ : d = 0 <-> (Qabs q < pow2 (2 - 2 ^ (eb - 1) - F))%Q).
  { replace (1 - (2 ^ (eb - 1) - 1)) with (2 - 2 ^ (eb - 1)) in C3 by lia. set (o := 2 - 2 ^ (eb - 1)) in *.
    assert (P : (0 <= dy f (o - fb))%Q) by (rewrite <- (dy_0 (o - fb)); apply dy_le; lia). rewrite (sgn1_abs _ _ _ P C3).
    pose proof (is_width_pos _ (vc_F c V)) as WFp. destruct (dec_cut f fb F o ltac:(lia) ltac:(fold F in WFp; lia)) as [L1 L2].
    unfold d, dec_frac in *. fold f in Bd |- *. set (dd := f * 2 ^ F / 2 ^ fb) in *.
    assert (D1 : (dy 1 (o - F) == pow2 (o - F))%Q) by (unfold dy; change (inject_Z 1) with 1%Q; ring). split.
    - intros ->. rewrite <- D1. exact L2.
    - intros L. destruct (Z.eq_dec dd 0) as [E|N]; [exact E|exfalso]. assert (dy 1 (o - F) <= dy dd (o - F))%Q by (apply dy_le; lia). lra. }
  destruct (Z.eqb_spec d 0) as [D0|D0].
  { cbn [bind]. split; [intros _; apply (pack_specials c _ _ _ V)|intros L; exfalso; apply DZ in D0; lra]. }
  split; [intros L; exfalso; tauto|intros _].
  pose proof (Z.log2_spec d ltac:(lia)) as LS. set (l := Z.log2 d) in *. assert (L0 : 0 <= l) by apply Z.log2_nonneg.
  assert (LF : l < F) by (apply Z.log2_lt_pow2; lia).
  replace (F - l <? pw F) with true by (symmetry; apply Z.ltb_lt; unfold pw; lia). cbv zeta. cbn [bind].
  pow_pos 2 (F - l). set (g := (d * 2 ^ (F - l)) mod 2 ^ F). set (e := l + 1 - (2 ^ (eb - 1) - 1) - F).
  assert (Bg : 0 <= g < 2 ^ F) by (apply Z.mod_pos_bound; lia).
  assert (MV : 2 ^ F + g = d * 2 ^ (F - l)).
  { assert (PF : 2 ^ F = 2 ^ l * 2 ^ (F - l)) by (rewrite <- Z.pow_add_r by lia; f_equal; lia). rewrite Z.pow_succ_r in LS by lia. unfold g.
    replace ((d * 2 ^ (F - l)) mod 2 ^ F) with (d * 2 ^ (F - l) - 2 ^ F); [lia|]. apply Z.mod_unique with 1; [left; nia|lia]. }
  assert (UV : (uabs F e g == dy d (1 - (2 ^ (eb - 1) - 1) - F))%Q).
  { unfold uabs. rewrite MV, dy_pow by lia. replace (e - F + (F - l)) with (1 - (2 ^ (eb - 1) - 1) - F) by (unfold e; lia). reflexivity. }
  assert (AQ : (Qabs q == dy f (1 - (2 ^ (eb - 1) - 1) - fb))%Q /\ (q == sgn1 s * Qabs q)%Q).
  { assert (P : (0 <= dy f (1 - (2 ^ (eb - 1) - 1) - fb))%Q) by (rewrite <- (dy_0 (1 - (2 ^ (eb - 1) - 1) - fb)); apply dy_le; lia).
    assert (A : (Qabs q == dy f (1 - (2 ^ (eb - 1) - 1) - fb))%Q) by (rewrite C3; unfold sgn1; destruct s; [rewrite Qabs_neg by lra|rewrite Qabs_pos by lra]; ring).
    split; [exact A|rewrite A; exact C3]. }
  destruct AQ as [AQ SQ].
  assert (UL : (uabs F e g <= Qabs q)%Q).
  { rewrite UV, AQ. set (o := 1 - (2 ^ (eb - 1) - 1)). assert (DF : d * 2 ^ fb <= f * 2 ^ F).
    { unfold d, dec_frac. fold f. pose proof (Z.div_mod (f * 2 ^ F) (2 ^ fb) ltac:(lia)). pose proof (Z.mod_pos_bound (f * 2 ^ F) (2 ^ fb) ltac:(lia)). nia. }
    rewrite (dy_align d (o - F) (o - F - fb)), (dy_align f (o - fb) (o - F - fb)) by lia.
    replace (o - F - (o - F - fb)) with fb by lia. replace (o - fb - (o - F - fb)) with F by lia. apply dy_le. exact DF. }
  assert (UP : (0 < uabs F e g)%Q) by (unfold uabs; apply dy_pos; lia).
  assert (TINY : forall w, real c w -> (0 < value c w)%Q -> (uabs F e g < value c w)%Q /\ (Qabs q < value c w)%Q).
  { intros w Wr WP. destruct (v_nr c T w Wr) as [Z0|[Z1 _]]; [lra|]. rewrite Qabs_pos in Z1 by lra.
    assert (LN : (least_normal eb <= pow2 (-126))%Q) by (unfold least_normal; apply pow2_le; assert (2 ^ 7 <= 2 ^ (eb - 1)) by (apply pow2_mono; lia); change (2 ^ 7) with 128 in *; lia). lra. }
  set (y := sgq s (uabs F e g)).
  assert (NY : ~ (y == 0)%Q) by (unfold y, sgq; destruct s; lra).
  assert (CL : cell F e g 0 (uabs F e g)).
  { split; [exact Bg|]. split; [lia|]. split; [apply Z.mod_1_r|]. split; [apply Qle_refl|]. unfold uabs. apply dy_lt. change (2 ^ 0) with 1. lia. }
  destruct (cell_outcome c _ s e g 0 _ y V (tb_exp c T) ltac:(lia) ltac:(lia) eq_refl CL (Qeq_refl _)) as [A _].
  destruct (A (roomy_room c y V (tb_roomy c T) NY)) as (r & Er). exists r. split; [exact Er|].
  pose proof (pack_value c s e g r V (tb_exp c T) Bg Er) as HR.
  assert (HY : (uvalue F s e g == y)%Q) by (rewrite uvalue_uval by lia; unfold uval, y, sgq; destruct s; reflexivity).
  apply (rounds_tz_comp c BN Bes _ _ _ HY) in HR. unfold y, sgq in HR. apply (rounds_tz_comp c BN Bes _ _ _ (Qeq_sym _ _ SQ)).
  assert (QP : (0 < Qabs q)%Q) by lra. unfold sgn1.
  destruct s; destruct HR as [[HZ _]|[[HP HD]|[HP HD]]]; try lra.
  - right. right. split; [lra|]. apply (tiny_down c (- - uabs F e g) (- (-1 * Qabs q))); [|exact HD].
    intros w Wr WP. destruct (TINY w Wr WP). split; lra.
  - right. left. split; [lra|]. apply (tiny_down c (uabs F e g) (1 * Qabs q)); [|exact HD].
    intros w Wr WP. destruct (TINY w Wr WP). split; lra.
Qed.

Lemma reads_ok c (T : tabbed c) eb fb : fmt_ok eb fb -> et_holds c eb -> 8 <= eb -> cF c < 32 ->
  p_of_float c (any_floattrait eb fb true) 0 = Ok 0 -> p_of_float c (any_floattrait eb fb true) (2 ^ (eb + fb)) = Ok 0 ->
  reads_floats c eb fb (p_of_float c (any_floattrait eb fb true)).
Proof.
  intros FO ET E8 F32 Z1 Z2 b B. pose proof (tb_valid c T) as V. destruct (ieee_val eb fb b) as [q|s|] eqn:I.
  - cbv zeta. assert (KN : (pow2 (2 - 2 ^ (eb - 1) - cF c) <= least_normal eb)%Q) by (unfold least_normal; apply pow2_le; pose proof (is_width_pos _ (vc_F c V)); lia).
    pose proof (pow2_pos (2 - 2 ^ (eb - 1) - cF c)) as KP.
    destruct (Qeq_dec q 0) as [Q|NQ].
    { assert (Q0 : (Qabs q == 0)%Q) by (rewrite Q; reflexivity). split; [intros _|intros L; lra]. destruct (zero_patterns eb fb b q FO B I Q) as [->| ->]; assumption. }
    destruct (Qlt_le_dec (Qabs q) (least_normal eb)) as [L|L].
    + exact (of_subnormal c T eb fb b q FO ET E8 F32 B I NQ L).
    + split; [intros L2; lra|intros _].
      destruct (of_float_normal c eb fb true b q V (tb_exp c T) FO ET (tb_ff c T) B I L) as [O _]. apply O. apply roomy_room; [exact V|exact (tb_roomy c T)|exact NQ].
  - apply (of_special c eb fb b V FO ET (tb_sp c T) B). intros x. rewrite I. discriminate.
  - apply (of_special c eb fb b V FO ET (tb_sp c T) B). intros x. rewrite I. discriminate.
Qed.
Lemma reads_ext c eb fb f g : (forall b, 0 <= b < 2 ^ (eb + fb + 1) -> f b = g b) -> reads_floats c eb fb f -> reads_floats c eb fb g.
Proof. intros E H b B. rewrite <- (E b B). exact (H b B). Qed.
Lemma ct_same c one eb fb b : p_of_float c (any_floattrait eb fb true) 0 = Ok 0 -> p_of_float c (any_floattrait eb fb true) (2 ^ (eb + fb)) = Ok 0 ->
  p_of_float c (any_floattrait eb fb true) ((2 ^ (eb - 1) - 1) * 2 ^ fb) = Ok one ->
  ct_of_float c one (any_floattrait eb fb true) b = p_of_float c (any_floattrait eb fb true) b.
Proof.
  intros Z1 Z2 O. unfold ct_of_float. change (t_ebits (any_floattrait eb fb true)) with eb. change (t_fbits (any_floattrait eb fb true)) with fb.
  destruct (Z.eqb_spec b 0) as [->|]; [symmetry; exact Z1|]. destruct (Z.eqb_spec b (2 ^ (eb + fb))) as [->|]; [symmetry; exact Z2|]. cbn [orb].
  destruct (Z.eqb_spec b ((2 ^ (eb - 1) - 1) * 2 ^ fb)) as [->|]; [symmetry; exact O|reflexivity].
Qed.
Lemma reads_ints_ok c (T : tabbed c) : reads_ints c (p_of_int c).
Proof.
  intros i I. pose proof (tb_valid c T) as V. destruct (of_int c i V (tb_exp c T) (or_introl (tb_ff c T)) I) as [A _]. apply A.
  destruct (Z.eq_dec i 0) as [->|N]; [left; reflexivity|]. apply roomy_room; [exact V|exact (tb_roomy c T)|].
  intros Q. apply N. unfold Qeq in Q. cbn in Q. lia.
Qed.

Lemma t8_reads : reads_floats p8 8 23 t8_of_float /\ reads_floats p8 11 52 t8_of_double /\ reads_ints p8 t8_of_int.
Proof.
  split; [|split].
  - eapply reads_ext; [|apply (reads_ok p8 tab_p8 8 23 fmt23); try (vm_compute; reflexivity); try (cbn; lia); unfold et_holds; cbn; lia].
    intros b B. symmetry. apply (ct_same p8 64 8 23); vm_compute; reflexivity.
  - eapply reads_ext; [|apply (reads_ok p8 tab_p8 11 52 fmt_double); try (vm_compute; reflexivity); try (cbn; lia); unfold et_holds; cbn; lia].
    intros b B. symmetry. apply (ct_same p8 64 11 52); vm_compute; reflexivity.
  - intros i I. destruct (reads_ints_ok p8 tab_p8 i I) as (r & O & H). exists r. split; [|exact H]. unfold t8_of_int.
    destruct (Z.eqb_spec i 0) as [->|]; [rewrite <- O; vm_compute; reflexivity|]. destruct (Z.eqb_spec i 1) as [->|]; [rewrite <- O; vm_compute; reflexivity|exact O].
Qed.
Lemma t10_reads : reads_floats t10 8 23 t10_of_float /\ reads_floats t10 11 52 t10_of_double /\ reads_ints t10 t10_of_int.
Proof.
  split; [|split].
  - eapply reads_ext; [|apply (reads_ok t10 tab_t10 8 23 fmt23); try (vm_compute; reflexivity); try (cbn; lia); unfold et_holds; cbn; lia].
    intros b B. symmetry. apply (ct_same t10 256 8 23); vm_compute; reflexivity.
  - eapply reads_ext; [|apply (reads_ok t10 tab_t10 11 52 fmt_double); try (vm_compute; reflexivity); try (cbn; lia); unfold et_holds; cbn; lia].
    intros b B. symmetry. apply (ct_same t10 256 11 52); vm_compute; reflexivity.
  - intros i I. destruct (reads_ints_ok t10 tab_t10 i I) as (r & O & H). exists r. split; [|exact H]. unfold t10_of_int.
    destruct (Z.eqb_spec i 0) as [->|]; [rewrite <- O; vm_compute; reflexivity|]. destruct (Z.eqb_spec i 1) as [->|]; [rewrite <- O; vm_compute; reflexivity|exact O].
Qed.
Lemma t12_reads : reads_floats p12 8 23 t12_of_float /\ reads_ints p12 t12_of_int.
Proof.
  split.
  - apply (reads_ok p12 tab_p12 8 23 fmt23); try (vm_compute; reflexivity); try (cbn; lia). unfold et_holds; cbn; lia.
  - exact (reads_ints_ok p12 tab_p12).
Qed.

Lemma tab_int_min : t8_of_int (- 2 ^ 31) = UB SignedOverflow /\ t10_of_int (- 2 ^ 31) = UB SignedOverflow /\ t12_of_int (- 2 ^ 31) = UB SignedOverflow.
Proof. vm_compute. repeat split; reflexivity. Qed.

(** ** posit10 *)
Lemma t10_tab (f : Z -> res Z) v : pattern t10 v -> g_get 1024 (g_fill (g_index t10) f (g_loop t10) g_new) (t10_uu v) = f v.
Proof.
  intros P. rewrite t10_uu_index. pose proof (index_range t10 tab_t10 v) as R. change (2 ^ cN t10) with 1024 in R. unfold g_get.
  destruct (Z.ltb_spec (g_index t10 v) 0); [lia|]. destruct (Z.leb_spec 1024 (g_index t10 v)); [lia|]. cbn [orb]. apply (fill1 t10 tab_t10). exact P.
Qed.
Lemma t10_tab2 op a b : pattern t10 a -> pattern t10 b -> g_get (1024 * 1024) (g_pairs t10 op) (t10_uu a * 1024 + t10_uu b) = g_pair t10 op a b.
Proof.
  intros A B. rewrite (t10_uu_index a), (t10_uu_index b). pose proof (index_range t10 tab_t10 a) as Ra. pose proof (index_range t10 tab_t10 b) as Rb. change (2 ^ cN t10) with 1024 in Ra, Rb.
  unfold g_get. destruct (Z.ltb_spec (g_index t10 a * 1024 + g_index t10 b) 0); [lia|]. destruct (Z.leb_spec (1024 * 1024) (g_index t10 a * 1024 + g_index t10 b)); [lia|]. cbn [orb].
  exact (pairs_at t10 tab_t10 op a b A B).
Qed.
Lemma real_t10 v : real t10 v <-> -511 <= v <= 511.
Proof. unfold real. change (maxreal t10) with 511. lia. Qed.
Lemma pat_t10 v : pattern t10 v <-> -512 <= v < 512.
Proof. apply (pattern_range t10). Qed.
Lemma i16_small v : -32768 <= v < 32768 -> i16 v = v.
Proof.
  intros B. apply (cast_s_small 16); [lia|exact B].
Qed.
Lemma t10_neg_real v : real t10 v -> t10_neg v = - v.
Proof. rewrite real_t10. intros B. apply i16_small. lia. Qed.
(** The operators. *)
Section ops.
Context (rnd : Q -> Z) (RN : rounding 8 23 rnd).
Let T := tab_t10.
Let V := tb_valid t10 tab_t10.
Lemma t10_add_ok a b : real t10 a -> real t10 b -> exists r, t10_add rnd a b = Ok r /\ via_float t10 8 23 (value t10 a + value t10 b) r.
Proof using RN. intros A B. unfold t10_add, g_opadd. rewrite t10_tab2 by (apply (real_pat t10 T); assumption). apply (pair_add t10 T rnd RN); assumption. Qed.
Lemma t10_sub_ok a b : real t10 a -> real t10 b -> exists r, t10_sub rnd a b = Ok r /\ via_float t10 8 23 (value t10 a - value t10 b) r.
Proof using RN.
  intros A B. unfold t10_sub. rewrite (t10_neg_real b B). pose proof V as V'. vcb V'.
  destruct (t10_add_ok a (- b) A ltac:(apply real_opp; assumption)) as (r & O & H1 & H2). exists r. split; [exact O|].
  assert (E : (value t10 a + value t10 (- b) == value t10 a - value t10 b)%Q) by (rewrite value_opp by assumption; ring).
  split; [apply (faithful_comp t10 _ _ r E); exact H1|]. intros F. apply (rounds_tz_comp t10 BN Bes _ _ _ E). apply H2. apply (is_float_comp 8 23 _ _ (Qeq_sym _ _ E)). exact F.
Qed.
Lemma t10_mul_ok a b : real t10 a -> real t10 b -> exists r, t10_mul rnd a b = Ok r /\ rounds_tz t10 (value t10 a * value t10 b) r.
Proof using RN. intros A B. unfold t10_mul, g_opmul. rewrite t10_tab2 by (apply (real_pat t10 T); assumption). apply (pair_mul t10 T rnd RN); assumption. Qed.
Lemma t10_div_ok a b : real t10 a -> real t10 b -> b <> 0 -> exists r, t10_div rnd a b = Ok r /\ rounds_tz t10 (value t10 a / value t10 b) r.
Proof using RN. intros A B N. unfold t10_div, g_opdiv. rewrite t10_tab2 by (apply (real_pat t10 T); assumption). apply (pair_div t10 T rnd RN); assumption. Qed.
Lemma t10_div0 a : pattern t10 a -> t10_div rnd a 0 = Ok (exceptional t10).
Proof using. intros A. unfold t10_div, g_opdiv. rewrite t10_tab2; [apply (pair_div_zero t10 T rnd a A)|exact A|apply pat_t10; lia]. Qed.
Lemma t10_nan_ops a b : pattern t10 a -> pattern t10 b -> a = exceptional t10 \/ b = exceptional t10 ->
  t10_add rnd a b = Ok (exceptional t10) /\ t10_mul rnd a b = Ok (exceptional t10) /\ t10_div rnd a b = Ok (exceptional t10) /\ t10_sub rnd a b = Ok (exceptional t10).
Proof using.
  intros A B H. destruct (pair_nan t10 T rnd a b A B H) as (P1 & P2 & P3).
  unfold t10_add, t10_mul, t10_div, g_opadd, g_opmul, g_opdiv. rewrite !t10_tab2 by assumption. split; [exact P1|]. split; [exact P2|]. split; [exact P3|].
  unfold t10_sub, t10_add, g_opadd. destruct (Z.eq_dec b (-512)) as [->|NB].
  - change (t10_uu (t10_neg (-512))) with (t10_uu (-512)). rewrite t10_tab2 by assumption. apply (pair_nan t10 T rnd a (-512) A B). right. reflexivity.
  - assert (R : real t10 b) by (apply real_t10; pose proof (proj1 (pat_t10 b) B); lia). rewrite (t10_neg_real b R).
    assert (B' : pattern t10 (- b)) by (apply pat_t10; pose proof (proj1 (real_t10 b) R); lia).
    rewrite t10_tab2 by assumption. apply (pair_nan t10 T rnd a (- b) A B'). left. destruct H as [H|H]; [exact H|]. destruct NB. exact H.
Qed.
Lemma t10_inv_ok v : real t10 v -> v <> 0 -> exists r, t10_inv v = Ok r /\ rounds_tz t10 (/ value t10 v) r.
Proof using.
  intros R NZ. unfold t10_inv, g_opinv. rewrite t10_tab by (apply (real_pat t10 T); exact R). unfold g_inv.
  destruct (inv_total t10 v V (tb_exp t10 T) (tb_mf t10 T) (tb_roomy t10 T) R NZ) as (r & O & H & _); [intros (E & _); discriminate|]. exists r. auto.
Qed.
Lemma t10_half_ok v : real t10 v -> exists r, t10_half rnd v = Ok r /\ rounds_tz t10 (value t10 v / 2) r.
Proof using RN. intros R. unfold t10_half, g_ophalf. rewrite t10_tab by (apply (real_pat t10 T); exact R). apply (entry_half t10 T rnd RN v R). Qed.
Lemma t10_square_ok v : real t10 v -> exists r, t10_square rnd v = Ok r /\ rounds_tz t10 (value t10 v * value t10 v) r.
Proof using RN. intros R. unfold t10_square, g_opsquare. rewrite t10_tab by (apply (real_pat t10 T); exact R). apply (entry_square t10 T rnd RN v R). Qed.
Lemma t10_unary_nan ex (EX : exp2_float 8 23 ex) : t10_inv (exceptional t10) = Ok (exceptional t10) /\ t10_inv 0 = Ok 0 /\ t10_half rnd (exceptional t10) = Ok (exceptional t10) /\
  t10_square rnd (exceptional t10) = Ok (exceptional t10) /\ t10_exp2 ex (exceptional t10) = Ok (exceptional t10) /\ t10_twice (exceptional t10) = Ok (exceptional t10).
Proof using.
  assert (P : pattern t10 (exceptional t10)) by (apply (exc_pat t10 T)). assert (P0 : pattern t10 0) by (apply pat_t10; lia).
  unfold t10_inv, t10_half, t10_square, t10_exp2, g_opinv, g_ophalf, g_opsquare, g_opexp2. rewrite !t10_tab by assumption. destruct (entry_nan t10 T rnd) as (E1 & E2).
  split; [vm_compute; reflexivity|]. split; [vm_compute; reflexivity|]. split; [exact E2|]. split; [exact E1|]. split; [apply (entry_exp2_nan t10 T ex EX)|vm_compute; reflexivity].
Qed.
Lemma t10_exp2_ok ex (EX : exp2_float 8 23 ex) v : real t10 v -> (-126 <= value t10 v)%Q -> (value t10 v <= 127)%Q ->
  exists r, t10_exp2 ex v = Ok r /\ exp2_near t10 (value t10 v) r.
Proof using. intros R L U. unfold t10_exp2, g_opexp2. rewrite t10_tab by (apply (real_pat t10 T); exact R). apply (entry_exp2_near t10 T ex EX v R L U). Qed.
Lemma t10_twice_ok v : real t10 v -> exists r, t10_twice v = Ok r /\ rounds_tz t10 (2 * value t10 v) r.
Proof using.
  intros R. unfold t10_twice. assert (E : p_of_int t10 2 = Ok 288) by (vm_compute; reflexivity). rewrite E. cbn [bind].
  assert (R2 : real t10 288) by (apply real_t10; lia). assert (V2 : (value t10 288 == 2)%Q) by (vm_compute; reflexivity).
  destruct (mul_total t10 v 288 V (tb_exp t10 T) (tb_mf t10 T) R R2) as [A _]. destruct A as (r & O & H).
  { destruct (Z.eq_dec v 0) as [->|N]; [left; vm_compute; reflexivity|]. apply roomy_room; [exact V|exact (tb_roomy t10 T)|].
    rewrite V2. intros Q0. apply N. apply (GenProof2.value_zero t10 T v R). lra. }
  exists r. split; [exact O|]. pose proof V as V'. vcb V'. refine (rounds_tz_comp t10 BN Bes _ _ _ _ H). rewrite V2. ring.
Qed.
Lemma t10_eps : exists e, t10_epsilon rnd = Ok e /\ (value t10 e == value t10 t10_afterone - value t10 t10_one)%Q /\ (value t10 e == 1 # 32)%Q.
Proof using RN.
  destruct (t10_sub_ok t10_afterone t10_one) as (r & O & _ & H); [apply real_t10; unfold t10_afterone; lia|apply real_t10; unfold t10_one; lia|].
  assert (R : real t10 112) by (apply real_t10; lia). assert (E : (value t10 112 == value t10 t10_afterone - value t10 t10_one)%Q) by (vm_compute; reflexivity).
  pose proof V as V'. vcb V'. assert (r = 112) as ->.
  { apply (uniq t10 V (value t10 t10_afterone - value t10 t10_one)); [apply H; apply (is_float_comp 8 23 _ _ E); apply (posit_is_float t10 T); exact R|].
    apply (rounds_tz_comp t10 BN Bes _ _ _ E). apply rounds_tz_exact; assumption. }
  exists 112. split; [exact O|]. split; vm_compute; reflexivity.
Qed.
End ops.
Lemma t10_float v : real t10 v -> exists b x, t10_to_float v = Ok b /\ 0 <= b < 2 ^ 32 /\ ieee_val 8 23 b = FinVal x /\ (x == value t10 v)%Q /\ t10_of_float b = Ok v.
Proof.
  intros R. pose proof tab_t10 as T. pose proof (tb_valid t10 T) as V. unfold t10_to_float, g_op2float. rewrite t10_tab by (apply (real_pat t10 T); exact R).
  destruct (float_real t10 T v R) as (b & x & O & B & I & E). exists b, x. split; [exact O|]. split; [exact B|]. split; [exact I|]. split; [exact E|].
  unfold t10_of_float. rewrite (ct_same t10 256 8 23); [|vm_compute; reflexivity..].
  destruct (float_round_trip t10 8 23 true v V (tb_exp t10 T) fmt23 (tb_et t10 T) (tb_ff t10 T)) as (b' & O1 & O2); [split; cbn; lia|exact R| |].
  - destruct (Z.eq_dec v 0) as [->|N]; [left; reflexivity|]. apply roomy_room; [exact V|exact (tb_roomy t10 T)|]. intros Q0. apply N. apply (GenProof2.value_zero t10 T v R). exact Q0.
  - unfold g_float in O. change single_trait with (any_floattrait 8 23 true) in O. rewrite O in O1. injection O1 as <-. exact O2.
Qed.
Lemma t10_float_nan : exists b, t10_to_float (exceptional t10) = Ok b /\ ieee_val 8 23 b = NaNVal /\ t10_of_float b = Ok (exceptional t10).
Proof.
  pose proof tab_t10 as T. unfold t10_to_float, g_op2float. rewrite t10_tab by (apply (exc_pat t10 T)). exists 0x7fc00000. vm_compute. auto.
Qed.
Lemma t10_int v : real t10 v -> exists i, truncated (value t10 v) i /\
  (- 2 ^ 31 <= i < 2 ^ 31 -> t10_to_int v = Ok i) /\ (~ - 2 ^ 31 <= i < 2 ^ 31 -> t10_to_int v = UB FloatToInt).
Proof.
  intros R. destruct (t10_float v R) as (b & x & O & B & I & E & _). destruct (float_int b x B I) as (i & (T1 & T2 & T3) & H). exists i.
  unfold t10_to_int. rewrite O. cbn [bind]. split; [|exact H]. unfold truncated. rewrite <- E. auto.
Qed.
Lemma t12_int v : real p12 v -> exists i, truncated (value p12 v) i /\
  (- 2 ^ 31 <= i < 2 ^ 31 -> t12_to_int v = Ok i) /\ (~ - 2 ^ 31 <= i < 2 ^ 31 -> t12_to_int v = UB FloatToInt).
Proof.
  intros R. destruct (t12_float v R) as (b & x & O & B & I & E & _). destruct (float_int b x B I) as (i & (T1 & T2 & T3) & H). exists i.
  unfold t12_to_int. rewrite O. cbn [bind]. split; [|exact H]. unfold truncated. rewrite <- E. auto.
Qed.
Lemma t10_order a b : real t10 a -> real t10 b ->
  (t10_lt a b = true <-> (value t10 a < value t10 b)%Q) /\
  (t10_le a b = true <-> (value t10 a <= value t10 b)%Q) /\
  (t10_gt a b = true <-> (value t10 a > value t10 b)%Q) /\
  (t10_ge a b = true <-> (value t10 a >= value t10 b)%Q) /\
  (t10_eq a b = true <-> (value t10 a == value t10 b)%Q) /\
  (t10_ne a b = true <-> ~ (value t10 a == value t10 b)%Q).
Proof.
  intros A B. pose proof (compare_real t10 a b valid_t10 A B) as H. pose proof (proj1 (real_t10 a) A). pose proof (proj1 (real_t10 b) B).
  assert (NN : nan_any t10 a b = false).
  { unfold nan_any, isNaN. change (withnan t10) with true. change (P_NAN t10) with (-512). cbn [andb].
    rewrite (proj2 (Z.eqb_neq a (-512)) ltac:(lia)), (proj2 (Z.eqb_neq b (-512)) ltac:(lia)). reflexivity. }
  unfold p_lt, p_le, p_gt, p_ge, p_ne, p_eq in H. rewrite NN in H. exact H.
Qed.
Lemma t10_minmax a b : real t10 a -> real t10 b ->
  (value t10 (t10_stdmin a b) == Qmin (value t10 a) (value t10 b))%Q /\ (value t10 (t10_stdmax a b) == Qmax (value t10 a) (value t10 b))%Q.
Proof.
  intros A B. destruct (t10_order a b A B) as (_ & L & _ & G & _). unfold t10_stdmin, t10_stdmax. split.
  - destruct (t10_le a b) eqn:E; [symmetry; apply Q.min_l, L; reflexivity|]. symmetry. rewrite Q.min_r; [reflexivity|]. apply Qlt_le_weak, Qnot_le_lt. intros H. apply L in H. discriminate.
  - destruct (t10_ge a b) eqn:E; [symmetry; apply Q.max_l, G; reflexivity|]. symmetry. rewrite Q.max_r; [reflexivity|]. apply Qlt_le_weak, Qnot_le_lt. intros H. apply G in H. discriminate.
Qed.
Lemma t10_neg_abs v : real t10 v ->
  real t10 (t10_neg v) /\ (value t10 (t10_neg v) == - value t10 v)%Q /\ real t10 (t10_abs v) /\ (value t10 (t10_abs v) == Qabs (value t10 v))%Q.
Proof.
  intros R. pose proof valid_t10 as V. vcb V. rewrite (t10_neg_real v R).
  split; [apply real_opp; assumption|]. split; [apply value_opp; assumption|].
  assert (E : t10_abs v = if v <? 0 then - v else v) by (unfold t10_abs; apply i16_small; pose proof (proj1 (real_t10 v) R); destruct (v <? 0); lia). rewrite E.
  pose proof (real_bounds t10 BN Bes v R) as BV. pose proof (real_bounds t10 BN Bes 0 (zero_real t10 V)) as B0. change (value t10 0) with 0%Q.
  assert (V0 : (value t10 0 == 0)%Q) by reflexivity.
  destruct (Z.ltb_spec v 0) as [L|L].
  - split; [apply real_opp; assumption|]. rewrite value_opp by assumption. rewrite Qabs_neg; [reflexivity|]. rewrite <- V0. apply value_le; try assumption; lia.
  - split; [exact R|]. rewrite Qabs_pos; [reflexivity|]. rewrite <- V0. apply value_le; try assumption; lia.
Qed.
(** NaN: equal to itself, below everything; its negation is outside the format and is not recognised as NaN,
    though the operators still treat it as NaN. *)
Lemma t10_nan_refuted b : real t10 b ->
  t10_eq (exceptional t10) (exceptional t10) = true /\ t10_lt (exceptional t10) b = true /\
  t10_neg (exceptional t10) = 512 /\ ~ pattern t10 512 /\ t10_is_nan 512 = false /\ t10_gt 512 b = true.
Proof.
  intros R. pose proof (proj1 (real_t10 b) R). change (exceptional t10) with (-512). split; [reflexivity|]. split; [apply Z.ltb_lt; lia|]. split; [reflexivity|].
  split; [rewrite pat_t10; lia|]. split; [reflexivity|]. unfold t10_gt. rewrite Z.gtb_ltb. apply Z.ltb_lt. lia.
Qed.

(** ** posit12 sums *)
Lemma roomy_up c q : valid_cfg c -> roomy c -> room_up c q.
Proof.
  intros V R. destruct (Qeq_dec q 0) as [E|N]; [left; exact E|right]. destruct (scale_exists q N) as (e & S). exists e. split; [exact S|].
  split; apply roomy_pack_room; assumption.
Qed.
Lemma t12_add_ok a b : real p12 a -> real p12 b ->
  (near p12 (value p12 a) (value p12 b) \/ a = 0 \/ b = 0 -> exists r, t12_add a b = Ok r /\ faithful p12 (value p12 a + value p12 b) r /\ sign_ok (value p12 a + value p12 b) r) /\
  (~ near p12 (value p12 a) (value p12 b) -> t12_add a b = UB ShiftCount).
Proof.
  intros A B. destruct (add_total p12 a b valid_p12 exp_p12 add_p12 A B) as [H1 H2]. split; [|exact H2].
  intros H. apply H1. destruct H as [H|H]; [left; split; [exact H|apply roomy_up; [exact valid_p12|exact roomy_p12]]|right; exact H].
Qed.
Lemma real_t12 v : real p12 v <-> -2047 <= v <= 2047.
Proof. unfold real. change (maxreal p12) with 2047. lia. Qed.
Lemma t12_neg_abs v : real p12 v ->
  real p12 (t12_neg v) /\ (value p12 (t12_neg v) == - value p12 v)%Q /\ real p12 (t12_abs v) /\ (value p12 (t12_abs v) == Qabs (value p12 v))%Q.
Proof.
  intros R. pose proof valid_p12 as V. vcb V. pose proof (proj1 (real_t12 v) R) as RB.
  assert (EN : t12_neg v = - v) by (apply i16_small; lia). rewrite EN.
  split; [apply real_opp; assumption|]. split; [apply value_opp; assumption|].
  assert (E : t12_abs v = if v <? 0 then - v else v) by (unfold t12_abs; apply i16_small; destruct (v <? 0); lia). rewrite E.
  pose proof (real_bounds p12 BN Bes v R) as BV. pose proof (real_bounds p12 BN Bes 0 (zero_real p12 V)) as B0.
  assert (V0 : (value p12 0 == 0)%Q) by reflexivity.
  destruct (Z.ltb_spec v 0) as [L|L].
  - split; [apply real_opp; assumption|]. rewrite value_opp by assumption. rewrite Qabs_neg; [reflexivity|]. rewrite <- V0. apply value_le; try assumption; lia.
  - split; [exact R|]. rewrite Qabs_pos; [reflexivity|]. rewrite <- V0. apply value_le; try assumption; lia.
Qed.
Lemma near_opp c x y : near c x y -> near c x (- y).
Proof. intros N ea eb A [B1 B2]. apply (N ea eb A). unfold scale. rewrite <- (Qabs_opp y). split; assumption. Qed.
Lemma t12_sub_ok a b : real p12 a -> real p12 b -> near p12 (value p12 a) (value p12 b) \/ a = 0 \/ b = 0 ->
  exists r, t12_sub a b = Ok r /\ faithful p12 (value p12 a - value p12 b) r /\ sign_ok (value p12 a - value p12 b) r.
Proof.
  intros A B H. pose proof valid_p12 as V. vcb V. destruct (t12_neg_abs b B) as (RN & VN & _).
  destruct (proj1 (t12_add_ok a (t12_neg b) A RN)) as (r & O & F & S).
  { destruct H as [H|[H|H]]; [left|auto|subst b; auto]. intros ea eb SA SB. apply (near_opp _ _ _ H ea eb SA). destruct SB as [S1 S2]. rewrite VN in S1, S2. split; assumption. }
  exists r. split; [exact O|]. assert (E : (value p12 a + value p12 (t12_neg b) == value p12 a - value p12 b)%Q) by (rewrite VN; ring).
  split; [apply (faithful_comp p12 _ _ r E F)|]. unfold sign_ok in *. rewrite <- E. exact S.
Qed.
Lemma t12_eps : exists e, t12_epsilon = Ok e /\ (value p12 e == value p12 t12_afterone - value p12 t12_one)%Q /\ (value p12 e == 1 # 128)%Q.
Proof. exists 320. vm_compute. auto. Qed.
Lemma t12_add_far : exists a b, real p12 a /\ real p12 b /\ t12_add a b = UB ShiftCount.
Proof. exists 1, 1800. split; [apply real_t12; lia|]. split; [apply real_t12; lia|vm_compute; reflexivity]. Qed.
Lemma t12_order a b : real p12 a -> real p12 b ->
  (t12_lt a b = true <-> (value p12 a < value p12 b)%Q) /\
  (t12_le a b = true <-> (value p12 a <= value p12 b)%Q) /\
  (t12_gt a b = true <-> (value p12 a > value p12 b)%Q) /\
  (t12_ge a b = true <-> (value p12 a >= value p12 b)%Q) /\
  (t12_eq a b = true <-> (value p12 a == value p12 b)%Q) /\
  (t12_ne a b = true <-> ~ (value p12 a == value p12 b)%Q).
Proof.
  intros A B. pose proof (compare_real p12 a b valid_p12 A B) as H. pose proof (proj1 (real_t12 a) A). pose proof (proj1 (real_t12 b) B).
  assert (NN : nan_any p12 a b = false).
  { unfold nan_any, isNaN. change (withnan p12) with true. change (P_NAN p12) with (-2048). cbn [andb].
    rewrite (proj2 (Z.eqb_neq a (-2048)) ltac:(lia)), (proj2 (Z.eqb_neq b (-2048)) ltac:(lia)). reflexivity. }
  unfold p_lt, p_le, p_gt, p_ge, p_ne, p_eq in H. rewrite NN in H. exact H.
Qed.
Lemma t12_minmax a b : real p12 a -> real p12 b ->
  (value p12 (t12_stdmin a b) == Qmin (value p12 a) (value p12 b))%Q /\ (value p12 (t12_stdmax a b) == Qmax (value p12 a) (value p12 b))%Q.
Proof.
  intros A B. destruct (t12_order a b A B) as (_ & L & _ & G & _). unfold t12_stdmin, t12_stdmax. split.
  - destruct (t12_le a b) eqn:E; [symmetry; apply Q.min_l, L; reflexivity|]. symmetry. rewrite Q.min_r; [reflexivity|]. apply Qlt_le_weak, Qnot_le_lt. intros H. apply L in H. discriminate.
  - destruct (t12_ge a b) eqn:E; [symmetry; apply Q.max_l, G; reflexivity|]. symmetry. rewrite Q.max_r; [reflexivity|]. apply Qlt_le_weak, Qnot_le_lt. intros H. apply G in H. discriminate.
Qed.

(** ** Predicates *)
Lemma negative_ok c v : valid_cfg c -> real c v -> t_is_negative v = true <-> (value c v < 0)%Q.
Proof.
  intros V R. vcb V. pose proof (real_bounds c BN Bes v R) as BV. pose proof (real_bounds c BN Bes 0 (zero_real c V)) as B0. unfold t_is_negative. rewrite Z.ltb_lt.
  change (value c v < 0)%Q with (value c v < value c 0)%Q. split; intros H.
  - apply (value_lt c BN Bes); lia.
  - exact (value_lt_inv c BN Bes v 0 BV B0 H).
Qed.
Lemma land_bit v k : 0 <= k -> (Z.land v (2 ^ k) =? 0) = negb (Z.testbit v k).
Proof.
  intros K. destruct (Z.testbit v k) eqn:E; cbn [negb].
  - apply Z.eqb_neq. intros H. assert (Z.testbit (Z.land v (2 ^ k)) k = true) by (rewrite Z.land_spec, E, Z.pow2_bits_true; [reflexivity|lia]). rewrite H, Z.bits_0 in H0. discriminate.
  - apply Z.eqb_eq. apply Z.bits_inj. intros n. rewrite Z.bits_0, Z.land_spec. destruct (Z.eq_dec n k) as [->|N]; [rewrite E; reflexivity|]. rewrite Z.pow2_bits_false by lia. apply andb_false_r.
Qed.
Lemma bit_small v k : 0 <= k -> 0 <= v < 2 ^ (k + 1) -> Z.testbit v k = (2 ^ k <=? v).
Proof.
  intros K B. rewrite Z.testbit_odd, Z.shiftr_div_pow2 by exact K. rewrite Z.pow_add_r in B by lia. change (2 ^ 1) with 2 in B. pow_pos 2 k. destruct (Z.leb_spec (2 ^ k) v) as [L|L].
  - replace (v / 2 ^ k) with 1; [reflexivity|]. apply Z.div_unique with (v - 2 ^ k); lia.
  - rewrite Z.div_small by lia. reflexivity.
Qed.
(** For numbers that are not negative the exponent is negative exactly below 1. *)
Lemma neg_exponent c v : valid_cfg c -> real c v -> 0 <= v -> (cand v (2 ^ (cN c - 2)) =? 0) = true <-> (value c v < 1)%Q.
Proof.
  intros V R P. vcb V. pose proof (real_bounds c BN Bes v R) as BV. unfold cand. rewrite land_bit by lia. rewrite bit_small by (try lia; replace (cN c - 2 + 1) with (cN c - 1) by lia; lia).
  pose proof (one_value c V) as V1. assert (B1 : - 2 ^ (cN c - 1) < 2 ^ (cN c - 2) < 2 ^ (cN c - 1)) by (pow_pos 2 (cN c - 2); replace (cN c - 1) with (cN c - 2 + 1) by lia; rewrite Z.pow_add_r by lia; change (2 ^ 1) with 2; lia).
  rewrite negb_true_iff, Z.leb_gt. rewrite <- V1. split; intros H.
  - apply (value_lt c BN Bes); lia.
  - exact (value_lt_inv c BN Bes v _ BV B1 H).
Qed.
Lemma t10_neg_exp v : real t10 v -> 0 <= v -> t10_has_neg_exponent v = true <-> (value t10 v < 1)%Q.
Proof. exact (neg_exponent t10 v valid_t10). Qed.
Lemma t12_neg_exp v : real p12 v -> 0 <= v -> t12_has_neg_exponent v = true <-> (value p12 v < 1)%Q.
Proof. exact (neg_exponent p12 v valid_p12). Qed.
(** Negative numbers: the answer is the opposite, and posit8 tests the sign. *)
Lemma neg_exp_wrong : (exists v, real t10 v /\ t10_has_neg_exponent v = true /\ (1 < Qabs (value t10 v))%Q) /\
  (exists v, real p12 v /\ t12_has_neg_exponent v = true /\ (1 < Qabs (value p12 v))%Q) /\
  (forall v, pattern p8 v -> t8_has_neg_exponent v = negb (t_is_negative v)).
Proof.
  split; [exists (-300)|split; [exists (-1500)|]].
  - split; [apply real_t10; lia|]. split; vm_compute; reflexivity.
  - split; [apply real_t12; lia|]. split; vm_compute; reflexivity.
  - assert (H : forallb (fun v => eqb (t8_has_neg_exponent v) (negb (t_is_negative v))) (zseq (-128) 256) = true) by (vm_compute; reflexivity).
    intros v P. unfold pattern in P. change (2 ^ (cN p8 - 1)) with 128 in P. apply eqb_prop. apply (zall _ _ _ H v). lia.
Qed.

(** ** Vectors *)
Lemma nth_map_in {A B} (f : A -> B) l d d' i : (i < length l)%nat -> nth i (map f l) d' = f (nth i l d).
Proof. intros L. rewrite (nth_indep (map f l) d' (f d)) by (rewrite map_length; exact L). apply map_nth. Qed.
Lemma cast_int8 x : byte x -> cast (sint 8) x = int8 x.
Proof.
  intros B. unfold byte in B. assert (H : forallb (fun x => cast (sint 8) x =? int8 x) (zseq 0 256) = true) by (vm_compute; reflexivity).
  apply Z.eqb_eq. apply (zall _ _ _ H x). lia.
Qed.
Lemma int8_pattern x : byte x -> pattern p8 (int8 x).
Proof. intros B. unfold byte in B. apply (pattern_range p8). change (2 ^ (cN p8 - 1)) with 128. unfold int8. destruct (Z.ltb_spec x 128); lia. Qed.
Lemma simd_predicates a i : Forall byte a -> (i < length a)%nat ->
  nth i (simd_is_negative a) 0 = mask (t_is_negative (int8 (nth i a 0))) /\
  nth i (simd_is_nan a) 0 = mask (t8_is_nan (int8 (nth i a 0))) /\
  (real p8 (int8 (nth i a 0)) -> 0 <= int8 (nth i a 0) -> nth i (simd_has_neg_exponent a) 0 = mask true <-> (value p8 (int8 (nth i a 0%Z)) < 1)%Q).
Proof.
  intros FB L. assert (B : byte (nth i a 0)) by (rewrite Forall_forall in FB; apply FB, nth_In; exact L).
  unfold simd_is_negative, simd_is_nan, simd_has_neg_exponent. rewrite !(nth_map_in _ a 0 0 i L). rewrite (cast_int8 _ B). set (x := nth i a 0) in *. clearbody x. split; [|split].
  - unfold t_is_negative. rewrite Z.gtb_ltb. reflexivity.
  - reflexivity.
  - intros R P. pose proof (neg_exponent p8 (int8 x) valid_p8 R P) as H. change (2 ^ (cN p8 - 2)) with 64 in H.
    assert (E : (cand 64 x =? 0) = (cand (int8 x) 64 =? 0)).
    { assert (G : forallb (fun x => eqb (cand 64 x =? 0) (cand (int8 x) 64 =? 0)) (zseq 0 256) = true) by (vm_compute; reflexivity). unfold byte in B. apply eqb_prop. apply (zall _ _ _ G x). lia. }
    rewrite <- H, E. unfold mask. destruct (cand (int8 x) 64 =? 0); split; intros; try reflexivity; discriminate.
Qed.
(** The largest numbers count as infinities. *)
Lemma simd_infinity_wrong : exists a, length a = 32%nat /\ Forall byte a /\ real p8 (int8 (nth 0 a 0)) /\ nth 0 (simd_is_infinity a) 0 = mask true.
Proof. exists (repeat 127 32). split; [reflexivity|]. split; [repeat constructor; unfold byte; lia|]. split; [unfold real; vm_compute; intuition congruence|vm_compute; reflexivity]. Qed.
Lemma lanes_ok {A B} (f : A -> res B) (P : A -> B -> Prop) l : (forall x, In x l -> exists y, f x = Ok y /\ P x y) ->
  exists r, lanes f l = Ok r /\ Forall2 P l r.
Proof.
  induction l as [|x l IH]; intros H; cbn [lanes]; [exists nil; split; [reflexivity|constructor]|].
  destruct (H x (or_introl eq_refl)) as (y & -> & Y). destruct IH as (r & -> & R); [intros z Z; apply H; right; exact Z|]. cbn [bind]. exists (y :: r). split; [reflexivity|constructor; assumption].
Qed.
Lemma t8_uu_byte x : byte x -> t8_uu (int8 x) = x.
Proof. intros B. unfold byte in B. assert (G : forallb (fun x => t8_uu (int8 x) =? x) (zseq 0 256) = true) by (vm_compute; reflexivity). apply Z.eqb_eq. apply (zall _ _ _ G x). lia. Qed.
Lemma simd_floats a : Forall byte a -> exists r, simd_to_floats a = Ok r /\ Forall2 (fun x b => t8_to_float (int8 x) = Ok b) a r.
Proof.
  intros FB. apply lanes_ok. intros x I. rewrite Forall_forall in FB. pose proof (FB x I) as B.
  assert (E : tab_get 32 256 Tbl8.op2float_rows x = t8_to_float (int8 x)) by (unfold t8_to_float; rewrite (t8_uu_byte x B); reflexivity). rewrite E.
  destruct (split_pattern p8 tab_p8 (int8 x) (int8_pattern x B)) as [R|R].
  - destruct (t8_float _ R) as (b & _ & O & _). exists b. split; assumption.
  - rewrite R. destruct t8_float_nan as (b & O & _). exists b. split; assumption.
Qed.
(** a - b is a + |b|, lane by lane; twice is not the double. *)
Lemma simd_neg_byte x : byte x -> byte (sign_epi8 x x) /\ int8 (sign_epi8 x x) = t8_abs (int8 x).
Proof.
  intros B. unfold byte in *. assert (G : forallb (fun x => (0 <=? sign_epi8 x x) && (sign_epi8 x x <? 256) && (int8 (sign_epi8 x x) =? t8_abs (int8 x))) (zseq 0 256) = true) by (vm_compute; reflexivity).
  pose proof (zall _ _ _ G x ltac:(lia)) as H. cbv beta in H. rewrite !andb_true_iff, Z.leb_le, Z.ltb_lt, Z.eqb_eq in H. tauto.
Qed.
Lemma simd_sub_lanes a b : Forall byte a -> Forall byte b -> length b = length a ->
  exists r, simd_sub a b = Ok r /\ lanewise2 (fun x y => t8_add x (t8_abs y)) a b r.
Proof.
  intros A B L. assert (FN : Forall byte (simd_neg b)) by (apply Forall_forall; intros x I; apply in_map_iff in I; destruct I as (y & <- & Y); rewrite Forall_forall in B; apply simd_neg_byte, B, Y).
  destruct (proj1 (simd_lanes a (simd_neg b) A FN ltac:(unfold simd_neg; rewrite map_length; exact L))) as (r & O & LR & H). exists r. split; [exact O|]. split; [exact LR|].
  intros i I. destruct (H i I) as (H1 & H2). split; [exact H1|]. rewrite <- H2. f_equal. unfold simd_neg. rewrite (nth_map_in _ b 0 0 i ltac:(lia)). symmetry. apply simd_neg_byte.
  rewrite Forall_forall in B. apply B, nth_In. lia.
Qed.
Lemma simd_sub_refuted : exists a b r, length a = 32%nat /\ length b = 32%nat /\ Forall byte a /\ Forall byte b /\ (value p8 (int8 (nth 0 a 0%Z)) == 1)%Q /\ (value p8 (int8 (nth 0 b 0%Z)) == 1)%Q /\
  simd_sub a b = Ok r /\ (value p8 (int8 (nth 0 r 0%Z)) == 2)%Q.
Proof. exists (repeat 64 32), (repeat 64 32), (repeat 96 32). split; [reflexivity|]. split; [reflexivity|]. split; [repeat constructor; unfold byte; lia|]. split; [repeat constructor; unfold byte; lia|]. repeat split; vm_compute; reflexivity. Qed.
Lemma simd_twice_refuted : exists a r, length a = 32%nat /\ Forall byte a /\ (value p8 (int8 (nth 0 a 0%Z)) == 1)%Q /\
  simd_twice a = Ok r /\ ~ (value p8 (int8 (nth 0 r 0%Z)) == 2)%Q.
Proof.
  assert (E : exists r, simd_twice (repeat 64 32) = Ok r /\ nth 0 r 0 = 72) by (eexists; split; vm_compute; reflexivity).
  destruct E as (r & E & H). exists (repeat 64 32), r. split; [reflexivity|]. split; [repeat constructor; unfold byte; lia|]. split; [vm_compute; reflexivity|]. split; [exact E|]. rewrite H. vm_compute. discriminate.
Qed.
(** Entries of posit10, to evaluate examples. *)
Lemma t10_entries rnd a b : pattern t10 a -> pattern t10 b -> t10_add rnd a b = g_pair t10 (f_add 8 23 rnd) a b /\
  t10_mul rnd a b = g_pair t10 (f_mul 8 23 rnd) a b /\ t10_div rnd a b = g_pair t10 (f_div 8 23 rnd) a b.
Proof. intros A B. unfold t10_add, t10_mul, t10_div, g_opadd, g_opmul, g_opdiv. rewrite !t10_tab2 by assumption. auto. Qed.
Lemma t10_entry rnd ex v : pattern t10 v -> t10_inv v = g_inv t10 v /\ t10_half rnd v = g_half t10 rnd v /\
  t10_square rnd v = g_square t10 rnd v /\ t10_exp2 ex v = g_exp2 t10 ex v.
Proof. intros P. unfold t10_inv, t10_half, t10_square, t10_exp2, g_opinv, g_ophalf, g_opsquare, g_opexp2. rewrite !t10_tab by assumption. auto. Qed.
