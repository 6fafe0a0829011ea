(** Emulated floats: halving, the round trip through the implementation type, and integers. *)
From Coq Require Import ZArith QArith Qabs Lia Lqa List Bool Setoid.
From Verif Require Import Res CInt Bits Traits Unpacked Cfg Posit Spec SpecFloat SpecAny FloatOps PositF AnyFloat QPow Core SpecLemmas Arith DecodeProof EncodeProof
  UOps UAdd OpsAdd Final1 Conv1 Conv2 Conv3 Conv4 Conv5 TabProof4 TabProof5 FloatProof FloatProof2 PositFProof PositFProof2 PositFProof3
  AnyProof AnyProof2 AnyProof3 AnyProof4 AnyProof5.
Open Scope Z_scope.

(** pack_xfixed of a number. *)
Lemma pack_int_trunc F E n e f x : is_width F -> 0 <= f < 2 ^ F -> (uvalue F n e f == x)%Q ->
  let o := u_pack_xfixed F E int_trait (U Regular n e f) in
  ((Qabs x < 1)%Q -> o = Ok 0) /\
  ((1 <= Qabs x)%Q -> (Qabs x < 2)%Q -> o = UB ShiftCount) /\
  ((2 <= Qabs x)%Q -> (Qabs x < pow2 31)%Q -> exists z, o = Ok z /\ truncated x z) /\
  ((pow2 31 <= x)%Q -> (x < pow2 32)%Q -> exists z, o = Ok z /\ z < 0 /\ truncated x (z + 2 ^ 32)) /\
  ((pow2 31 + 1 <= - x)%Q -> (- x < pow2 32)%Q -> exists z, o = Ok z /\ 0 < z /\ truncated x (z - 2 ^ 32)) /\
  ((pow2 31 <= - x)%Q -> (- x < pow2 31 + 1)%Q -> o = UB SignedOverflow) /\
  ((pow2 32 <= x)%Q -> o = Ok (2 ^ 31 - 1)) /\ ((pow2 32 <= - x)%Q -> o = Ok (- 2 ^ 31)).
Proof.
  intros WF Hf EV. cbn zeta. pose proof (is_width_pos F WF) as WFp.
  destruct (pack_int F E n e f WF Hf) as (P1 & P2 & P3 & P4 & P5 & P6).
  set (o := u_pack_xfixed F E int_trait (U Regular n e f)) in *. clearbody o.
  set (t := 2 ^ e + ifrac F e f) in *.
  rewrite uvalue_uval in EV by lia.
  destruct (Conv3.uabs_scale F e f ltac:(lia) Hf) as [S1 S2].
  assert (T : 0 <= e -> (inject_Z t <= uabs F e f)%Q /\ (uabs F e f < inject_Z (t + 1))%Q)
    by (intros; apply uabs_floor; lia).
  clearbody t. set (a := uabs F e f) in *.
  assert (AP : (0 < a)%Q) by (pose proof (pow2_pos e); lra).
  assert (AX : (Qabs x == a)%Q).
  { rewrite <- EV. unfold uval. fold a. destruct n; [rewrite Qabs_neg by lra|rewrite Qabs_pos by lra]; ring. }
  assert (XS : if n then (x == - a)%Q else (x == a)%Q) by (unfold uval in EV; fold a in EV; destruct n; symmetry; exact EV).
  clear EV. clearbody a.
  assert (L0 : (a < 1)%Q -> e < 0) by (intros; apply pow2_lt_inv; rewrite pow2_0; lra).
  assert (G0 : (1 <= a)%Q -> 0 <= e) by (intros; enough (0 < e + 1) by lia; apply pow2_lt_inv; rewrite pow2_0; lra).
  assert (L1 : (a < 2)%Q -> e < 1) by (intros; apply pow2_lt_inv; change (pow2 1) with 2%Q; lra).
  assert (G1 : (2 <= a)%Q -> 1 <= e) by (intros; enough (1 < e + 1) by lia; apply pow2_lt_inv; change (pow2 1) with 2%Q; lra).
  assert (L31 : (a < pow2 31)%Q -> e < 31) by (intros; apply pow2_lt_inv; lra).
  assert (G31 : (pow2 31 <= a)%Q -> 31 <= e) by (intros; enough (31 < e + 1) by lia; apply pow2_lt_inv; lra).
  assert (L32 : (a < pow2 32)%Q -> e < 32) by (intros; apply pow2_lt_inv; lra).
  assert (G32 : (pow2 32 <= a)%Q -> 32 <= e) by (intros; enough (32 < e + 1) by lia; apply pow2_lt_inv; lra).
  assert (TR : 0 <= e -> truncated x (if n then - t else t)).
  { intros He. destruct (T He) as [T1 T2]. specialize (P6 He). pow_pos 2 e.
    unfold truncated. rewrite AX. replace (Z.abs (if n then - t else t)) with t by (destruct n; lia).
    split; [assumption|]. split; [assumption|].
    assert (TP : (0 <= inject_Z t)%Q) by (change 0%Q with (inject_Z 0); apply inj_le; lia).
    destruct n; rewrite XS, ?inject_Z_opp; nra. }
  pose proof pow2_31 as Q31. pose proof pow2_32 as Q32.
  repeat match goal with |- _ /\ _ => split end.
  - rewrite AX. auto.
  - rewrite AX. intros A B. apply P2. specialize (G0 A). specialize (L1 B). lia.
  - rewrite AX. intros A B. specialize (G1 A). specialize (L31 B). eexists. split; [apply P3; lia|]. apply TR. lia.
  - destruct n; [intros A; exfalso; rewrite XS in A; lra|]. rewrite XS. intros A B.
    specialize (G31 A). specialize (L32 B). assert (E31 : e = 31) by lia. specialize (P4 E31). cbn iota in P4.
    exists (t - 2 ^ 32). split; [assumption|]. specialize (P6 ltac:(lia)). rewrite E31 in P6. change (2 ^ (31 + 1)) with (2 ^ 32) in P6.
    split; [lia|]. replace (t - 2 ^ 32 + 2 ^ 32) with t by lia. apply TR. lia.
  - destruct n; [|intros A; exfalso; rewrite XS in A; lra].
    assert (XO : (- x == a)%Q) by (rewrite XS; ring). rewrite XO. intros A B.
    specialize (G31 ltac:(lra)). specialize (L32 B). assert (E31 : e = 31) by lia. specialize (P4 E31). cbn iota in P4.
    destruct (T ltac:(lia)) as [T1 T2]. specialize (P6 ltac:(lia)). rewrite E31 in P6. change (2 ^ (31 + 1)) with (2 ^ 32) in P6.
    destruct (Z.eqb_spec t (2 ^ 31)) as [Q|Q].
    + exfalso. rewrite Q in T2. rewrite inject_Z_plus in T2. change (inject_Z (2 ^ 31)) with 2147483648%Q in T2.
      change (inject_Z 1) with 1%Q in T2. lra.
    + exists (2 ^ 32 - t). split; [assumption|]. split; [lia|].
      replace (2 ^ 32 - t - 2 ^ 32) with (- t) by lia. apply TR. lia.
  - destruct n; [|intros A; exfalso; rewrite XS in A; lra].
    assert (XO : (- x == a)%Q) by (rewrite XS; ring). rewrite XO. intros A B.
    specialize (G31 A). assert (L : e < 32) by (apply L32; lra). assert (E31 : e = 31) by lia. specialize (P4 E31). cbn iota in P4.
    destruct (T ltac:(lia)) as [T1 T2]. specialize (P6 ltac:(lia)). rewrite E31 in P6. change (2 ^ (31 + 1)) with (2 ^ 32) in P6.
    destruct (Z.eqb_spec t (2 ^ 31)) as [Q|Q]; [assumption|exfalso].
    assert (Z1 : (inject_Z (2 ^ 31 + 1) <= inject_Z t)%Q) by (apply inj_le; lia).
    change (inject_Z (2 ^ 31 + 1)) with 2147483649%Q in Z1. lra.
  - intros A. destruct n; [exfalso; rewrite XS in A; lra|]. apply P5. apply G32. rewrite XS in A. exact A.
  - intros A. destruct n; [|exfalso; rewrite XS in A; lra]. apply P5. apply G32. rewrite XS in A. lra.
Qed.

Lemma af_to_int_spec eb fb v : fmt_ok eb fb -> 0 <= v < 2 ^ (eb + fb + 1) ->
  let o := af_to_int eb fb v in
  match ieee_val eb fb v with
  | FinVal x =>
    ((Qabs x < 1)%Q -> o = Ok 0) /\
    ((1 <= Qabs x)%Q -> (Qabs x < 2)%Q -> o = UB ShiftCount) /\
    ((2 <= Qabs x)%Q -> (Qabs x < pow2 31)%Q -> exists z, o = Ok z /\ truncated x z) /\
    ((pow2 31 <= x)%Q -> (x < pow2 32)%Q -> exists z, o = Ok z /\ z < 0 /\ truncated x (z + 2 ^ 32)) /\
    ((pow2 31 + 1 <= - x)%Q -> (- x < pow2 32)%Q -> exists z, o = Ok z /\ 0 < z /\ truncated x (z - 2 ^ 32)) /\
    ((pow2 31 <= - x)%Q -> (- x < pow2 31 + 1)%Q -> o = UB SignedOverflow) /\
    ((pow2 32 <= x)%Q -> o = Ok (2 ^ 31 - 1)) /\ ((pow2 32 <= - x)%Q -> o = Ok (- 2 ^ 31))
  | _ => o = Ok 0
  end.
Proof.
  intros FO B. cbn zeta. pose proof FO as FO1. destruct FO1 as [W [E1 E2] Hf].
  assert (W32 : is_width 32) by (unfold is_width; lia).
  pose proof (unpack_wide eb fb (eb + fb + 1) 32 true FO W W32 ltac:(lia) v ltac:(lia) B) as H. unfold af_to_int, af_F, af_tr.
  destruct (ieee_val eb fb v) as [x|s|].
  - destruct H as [[Z (e & f & U0)]|(NZ & _ & n & e & f & U0 & F0 & EV)]; rewrite U0; cbn [bind].
    + destruct Z as [Z|[Z _]]; [|discriminate]. cbn [u_pack_xfixed utyp].
      assert (ZA : (Qabs x == 0)%Q) by (rewrite Z; reflexivity). pose proof pow2_31 as Q31. pose proof pow2_32 as Q32.
      split; [reflexivity|]. repeat split; intros; exfalso; lra.
    + apply pack_int_trunc; assumption.
  - destruct H as (e & f & U0). rewrite U0. reflexivity.
  - destruct H as (n & e & f & U0). rewrite U0. reflexivity.
Qed.

(** Numbers of the format are kept by truncation to at least as many fraction bits. *)
Lemma trunc_nested eb fb F x u e f r : fmt_ok eb fb -> 0 <= F -> fb <= F -> 0 <= f < 2 ^ F ->
  (Qabs u == uabs F e f)%Q -> cell F e f 0 (Qabs x) -> (0 <= u * x)%Q -> (least_normal eb <= Qabs u)%Q ->
  float_trunc eb fb u r -> float_trunc eb fb x r.
Proof.
  intros FO HF FF Hf UE (_ & _ & _ & C1 & C2) SG LN (R & t & IT & A1 & A2 & A3). rewrite Z.pow_0_r in C2. split; [exact R|]. exists t.
  assert (UN : ~ (u == 0)%Q).
  { intros Z. rewrite Z in LN. change (Qabs 0) with 0%Q in LN. pose proof (pow2_pos (2 - 2 ^ (eb - 1))). unfold least_normal in LN. lra. }
  split; [exact IT|]. split; [lra|]. split.
  { destruct (Qlt_le_dec u 0) as [N|P]; [assert (t <= 0)%Q by nra; assert (x <= 0)%Q by nra; nra|].
    assert (0 < u)%Q by (destruct (Qlt_le_dec 0 u); [assumption|exfalso; apply UN; lra]). assert (0 <= t)%Q by nra. assert (0 <= x)%Q by nra. nra. }
  intros b' q' B' I' L. apply (A3 b' q' B' I'). rewrite UE.
  destruct (float_mj eb fb FO q') as (m & j & M & _ & _ & E); [exists b', q'; split; [exact B'|split; [exact I'|reflexivity]]|].
  rewrite E in *. pow_pos 2 F. unfold uabs. destruct (Z_le_gt_dec (e - F) j) as [J|J].
  - rewrite (dy_align m j (e - F) J) in *. apply dy_le. assert (LT : (dy (m * 2 ^ (j - (e - F))) (e - F) < dy (2 ^ F + f + 1) (e - F))%Q) by lra. apply dy_lt_inv in LT. lia.
  - apply Qle_trans with (pow2 (fb + 1 + j)); [apply Qlt_le_weak, (dy_top eb fb FO); exact M|].
    apply Qle_trans with (pow2 e); [apply pow2_le; lia|]. exact (proj1 (Conv3.uabs_scale F e f HF Hf)).
Qed.

Lemma af_of_int_spec eb fb i : fmt_ok eb fb -> - 2 ^ 31 < i < 2 ^ 31 ->
  (i = 0 -> af_of_int eb fb i = Ok 0) /\ (i <> 0 -> exists r, af_of_int eb fb i = Ok r /\ float_trunc eb fb (inject_Z i) r).
Proof.
  intros FO I. split; [intros ->; reflexivity|]. intros NZ. pose proof FO as FO1. destruct FO1 as [W [E1 E2] Hf].
  assert (W32 : is_width 32) by (unfold is_width; lia). pose proof (is_width_pos _ W) as WP.
  destruct (unpack_int (eb + fb + 1) 32 i W W32 I NZ) as (f & U0 & F0 & C & _). unfold af_of_int, af_F, af_tr. rewrite U0. cbn [bind].
  set (e := Z.log2 (Z.abs i)) in *. assert (EB : 0 <= e <= 30).
  { split; [apply Z.log2_nonneg|]. unfold e. enough (Z.log2 (Z.abs i) < 31) by lia. apply Z.log2_lt_pow2; lia. }
  set (u := uvalue (eb + fb + 1) (i <? 0) e f).
  assert (B2 : 2 ^ (eb - 1) <= 2 ^ 10) by (apply pow2_mono; lia). change (2 ^ 10) with 1024 in B2.
  assert (LB : least_bits eb <= 32) by (unfold least_bits; destruct (Z.leb_spec eb 8); [lia|]; destruct (Z.leb_spec eb 16); lia).
  destruct (pack_float_trunc (eb + fb + 1) 32 eb fb true (i <? 0) e f u W W32 FO ltac:(lia) F0) as [H _];
    [rewrite Z.max_l by exact LB; change (2 ^ (32 - 1)) with 2147483648; lia|rewrite Z.max_l by exact LB; change (2 ^ (32 - 1)) with 2147483648; lia|reflexivity|].
  assert (UA : (Qabs u == uabs (eb + fb + 1) e f)%Q /\ (0 <= u * inject_Z i)%Q).
  { unfold u. rewrite uvalue_uval by lia. unfold uval. pose proof (dy_pos (2 ^ (eb + fb + 1) + f) (e - (eb + fb + 1)) ltac:(lia)) as P. fold (uabs (eb + fb + 1) e f) in P.
    destruct (Z.ltb_spec i 0) as [N|N].
    - split; [rewrite Qabs_opp; apply Qabs_pos; lra|]. assert (inject_Z i <= 0)%Q by (change 0%Q with (inject_Z 0); rewrite <- Zle_Qle; lia). nra.
    - split; [apply Qabs_pos; lra|]. assert (0 <= inject_Z i)%Q by (change 0%Q with (inject_Z 0); rewrite <- Zle_Qle; lia). nra. }
  destruct UA as [UA SG].
  assert (LN : (pow2 (2 - 2 ^ (eb - 1)) <= Qabs u)%Q).
  { rewrite UA. apply Qle_trans with (pow2 e); [apply pow2_le|exact (proj1 (Conv3.uabs_scale (eb + fb + 1) e f ltac:(lia) F0))].
    assert (2 ^ 1 <= 2 ^ (eb - 1)) by (apply pow2_mono; lia). change (2 ^ 1) with 2 in *. lia. }
  destruct (H LN) as (r & O & T). exists r. split; [exact O|].
  apply (trunc_nested eb fb (eb + fb + 1) (inject_Z i) u e f r FO ltac:(lia) ltac:(lia) F0 UA); try assumption.
Qed.
Lemma af_of_int_min eb fb : af_of_int eb fb (- 2 ^ 31) = UB SignedOverflow.
Proof. reflexivity. Qed.

Section half.
Context (eb fb : Z) (k : fft) (rnd : fft -> Q -> Z).
Notation ebk := (f_eb k).
Notation fbk := (f_fb k).
Hypothesis EM : emulated eb fb ebk fbk.
Hypothesis RN : forall j, rounding (f_eb j) (f_fb j) (rnd j).
Notation X := (seen eb fb ebk).
Notation inr v := (0 <= v < 2 ^ (eb + fb + 1)).

(** Through the implementation type and back. *)
Lemma af_round_trip v : inr v -> exists x r, af_to eb fb k v = Ok x /\ af_of eb fb k x = Ok r /\
  match ieee_val eb fb v with
  | FinVal q => if Qle_bool (least_normal eb) (Qabs q) then r = v else r = 0
  | InfVal _ => r = v
  | NaNVal => ieee_val eb fb r = NaNVal
  end.
Proof using EM.
  intros B. destruct (af_to_spec eb fb k EM v B) as (x & Ox & Bx & Sx & _ & QN). exists x.
  destruct (af_of_gives eb fb k EM (ieee_val ebk fbk x) x) as (r & Or & H); [split; [exact Bx|split; [reflexivity|exact QN]]|]. exists r.
  split; [exact Ox|]. split; [exact Or|]. apply (float_for_same _ _ _ _ _ Sx) in H. destruct H as [R H]. unfold seen in H.
  destruct EM as (FO & E & F & _).
  destruct (ieee_val eb fb v) as [q|s|] eqn:IV.
  - assert (LL : (least_normal ebk <= least_normal eb)%Q).
    { unfold least_normal. apply pow2_le. destruct FO as [_ [E1 E2] _]. assert (2 ^ (eb - 1) <= 2 ^ (ebk - 1)) by (apply pow2_mono; lia). lia. }
    destruct (Qle_bool (least_normal eb) (Qabs q)) eqn:L.
    + apply Qle_bool_iff in L. assert (L' : (least_normal ebk <= Qabs q)%Q) by lra. apply Qle_bool_iff in L'. rewrite L' in H.
      destruct H as [H _]. specialize (H L). destruct (float_trunc_exact eb fb q r H) as (y & Iy & Y);
        [exists v, q; split; [exact B|split; [exact IV|reflexivity]]|].
      apply (ieee_inj eb fb r v y q FO R B Iy IV Y). intros Z. rewrite Y in Z. rewrite Z in L. change (Qabs 0) with 0%Q in L.
      pose proof (pow2_pos (2 - 2 ^ (eb - 1))). unfold least_normal in L. lra.
    + destruct (Qle_bool (least_normal ebk) (Qabs q)); apply H.
      * apply Qnot_le_lt. intros C. apply Qle_bool_iff in C. congruence.
      * apply (pow2_pos (2 - 2 ^ (eb - 1))).
  - exact (ieee_inf_inj eb fb r v s FO R B H IV).
  - exact H.
Qed.
End half.

(** Halving is done in double. *)
Lemma fmt_double : fmt_ok 11 52. Proof. exact (k_fmt FDouble). Qed.
Lemma half_scaled q : is_float 8 23 q -> (q == 0)%Q \/ (least_normal 8 <= Qabs q)%Q ->
  is_float 11 52 ((1 # 2) * q) /\ (((1 # 2) * q == 0)%Q \/ (least_normal 11 <= Qabs ((1 # 2) * q))%Q).
Proof.
  intros F L. destruct (float_mj 8 23 fmt_single q F) as (m & j & M & J1 & J2 & E).
  assert (A : (Qabs ((1 # 2) * q) == dy m (j - 1))%Q).
  { rewrite Qabs_Qmult, E. change (Qabs (1 # 2)) with (1 # 2)%Q. unfold dy. replace (j - 1) with (-1 + j) by lia. rewrite (pow2_plus (-1) j).
    change (pow2 (-1)) with (1 # 2)%Q. ring. }
  assert (D : is_float 11 52 (dy m (j - 1))).
  { apply (is_float_dy 11 52 fmt_double); [change (2 ^ (23 + 1)) with 16777216 in M; change (2 ^ (52 + 1)) with 9007199254740992; lia|change (2 ^ (8 - 1)) with 128 in *; change (2 ^ (11 - 1)) with 1024; lia|].
    apply Qlt_le_trans with (pow2 (23 + 1 + (j - 1))); [apply (dy_top 8 23 fmt_single); exact M|]. apply pow2_le. change (2 ^ (8 - 1)) with 128 in *; change (2 ^ (11 - 1)) with 1024; lia. }
  split.
  - destruct (abs_case ((1 # 2) * q)) as [[_ T]|[_ T]]; rewrite T in A.
    + apply (is_float_comp 11 52 _ _ (Qeq_sym _ _ A)). exact D.
    + apply (is_float_comp 11 52 (- dy m (j - 1))); [rewrite <- A; ring|]. apply (is_float_opp 11 52 fmt_double). exact D.
  - destruct L as [L|L]; [left; rewrite L; reflexivity|right]. rewrite Qabs_Qmult. change (Qabs (1 # 2)) with (1 # 2)%Q.
    apply Qle_trans with ((1 # 2) * least_normal 8)%Q; [|lra]. vm_compute. discriminate.
Qed.

Section half2.
Context (eb fb : Z) (rnd : fft -> Q -> Z).
Hypothesis RN : forall j, rounding (f_eb j) (f_fb j) (rnd j).

Lemma af_half_float v : emulated eb fb 8 23 -> 0 <= v < 2 ^ (eb + fb + 1) ->
  exists r, af_half eb fb FFloat rnd v = Ok r /\ float_for eb fb (x_mul (FinVal (1 # 2)) (seen eb fb 8 v)) r.
Proof using RN.
  intros EM B. destruct (af_to_spec eb fb FFloat EM v B) as (x & Ox & Bx & Sx & _). cbn [f_eb f_fb] in *. unfold af_half. rewrite Ox. cbn [bind].
  pose proof fmt_double as FD. pose proof (RN FDouble) as RD. cbn [f_eb f_fb] in RD.
  assert (XF : forall q, ieee_val 8 23 x = FinVal q -> is_float 8 23 q /\ ((q == 0)%Q \/ (least_normal 8 <= Qabs q)%Q)).
  { intros q I. split; [exists x, q; split; [exact Bx|split; [exact I|reflexivity]]|]. rewrite I in Sx. unfold seen in Sx.
    destruct (ieee_val eb fb v) as [p|s|]; cbn [same_ext] in Sx; try discriminate.
    destruct (Qle_bool (least_normal 8) (Qabs p)) eqn:L; cbn [same_ext] in Sx; [right; rewrite Sx; apply Qle_bool_iff; exact L|left; exact Sx]. }
  set (d := f_widen 8 23 11 52 (rnd FDouble) x).
  assert (DW : gives 11 52 (ieee_val 11 52 d) d /\ same_ext (ieee_val 11 52 d) (ieee_val 8 23 x)).
  { unfold d, f_widen. destruct (ieee_val 8 23 x) as [q|s|] eqn:I.
    - split; [apply (gives_rnd 11 52 _ RD)|]. destruct (XF q eq_refl) as [F _].
      apply (round_exact 11 52 _ RD q). apply (is_float_widen 8 23 11 52); try lia; [exact fmt_single|exact FD|exact F].
    - destruct (gives_inf 11 52 FD s) as (G1 & G2 & _). rewrite G2. split; [split; [exact G1|split; [exact G2|discriminate]]|reflexivity].
    - destruct (gives_nan 11 52 FD) as (G1 & G2 & G3). rewrite G2. split; [split; [exact G1|split; [exact G2|exact G3]]|reflexivity]. }
  destruct DW as [(Bd & _ & _) Sd]. destruct lit_half_val as [BH SH].
  destruct (f_mul_gives 11 52 (rnd FDouble) FD RD lit_half d BH Bd) as (Bp & Ip & Qp).
  set (p := f_mul 11 52 (rnd FDouble) lit_half d) in *.
  assert (VP : same_ext (ieee_val 11 52 p) (x_mul (FinVal (1 # 2)) (ieee_val 8 23 x))).
  { rewrite Ip. apply same_trans with (x_round 11 52 (rnd FDouble) (x_mul (FinVal (1 # 2)) (ieee_val 8 23 x))).
    - apply (round_same _ _ _ RD). apply same_mul; assumption.
    - destruct (ieee_val 8 23 x) as [q|s|] eqn:I; cbn [x_mul]; [|change (zero_q (1 # 2)) with false; cbn iota; apply same_refl|apply same_refl].
      apply (round_exact 11 52 _ RD). apply half_scaled; apply (XF q eq_refl). }
  destruct EM as (FO & E & F & _).
  destruct (af_of_gen eb fb FDouble p) as (r & O & H); cbn [f_eb f_fb] in *; try assumption; try lia.
  - right; right. destruct (ieee_val 11 52 p) as [w|s|] eqn:IP; try exact I.
    destruct (ieee_val 8 23 x) as [q|s|] eqn:IX; cbn [x_mul same_ext] in VP; try discriminate; try (destruct (zero_q _) in VP; discriminate).
    rewrite VP. apply half_scaled; apply (XF q eq_refl).
  - intros Z. apply Qp. rewrite <- Ip. exact Z.
  - exists r. split; [exact O|]. refine (float_for_same _ _ _ _ _ _ H). apply same_trans with (1 := VP). apply same_mul; [apply same_refl|exact Sx].
Qed.
Lemma af_half_double v : emulated eb fb 11 52 -> 0 <= v < 2 ^ (eb + fb + 1) ->
  exists r, af_half eb fb FDouble rnd v = Ok r /\ float_for eb fb (x_round 11 52 (rnd FDouble) (x_mul (FinVal (1 # 2)) (seen eb fb 11 v))) r.
Proof using RN.
  intros EM B. destruct (af_to_spec eb fb FDouble EM v B) as (y & Oy & By & Sy & _). destruct lit_half_val as [B1 S1].
  unfold af_half. rewrite Oy. cbn [bind]. pose proof (RN FDouble) as RD. cbn [f_eb f_fb] in *.
  destruct (af_of_gives eb fb FDouble EM _ _ (f_mul_gives 11 52 (rnd FDouble) fmt_double RD _ y B1 By)) as (r & O & H). exists r. split; [exact O|].
  refine (float_for_same _ _ _ _ _ _ H). apply (round_same _ _ _ RD). apply same_mul; assumption.
Qed.
End half2.
