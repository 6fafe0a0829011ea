(** What the loops make of singles and doubles is the nearest half. *)
From Coq Require Import ZArith QArith Qabs Bool List Lia Lqa.
From Verif Require Import Res CInt Spec SpecFloat SpecHalf Core Arith QPow EncodeProof Conv1 Conv4 Conv5 FloatProof SoftProof WideProof MatHalf MatProof MatProof2.
Import ListNotations.
Open Scope Z_scope.

Lemma half_away_comp q q' r : (q == q')%Q -> half_away q r -> half_away q' r.
Proof.
  intros E H. unfold half_away in *. destruct (ieee_val 5 10 r) as [y|s|].
  - destruct H as [B H]. split; [rewrite <- E; exact B|]. intros b z Hb I. destruct (H b z Hb I) as [H1 H2]. rewrite <- E. split; assumption.
  - destruct H as [B H]. split; [rewrite <- E; exact B|]. rewrite <- E. exact H.
  - exact H.
Qed.

Section fmt.
Variables eb fb : Z.
Hypothesis FO : fmt_ok eb fb.
Hypothesis E8 : 8 <= eb.
Hypothesis F11 : 11 <= fb.
Local Notation bias := (2 ^ (eb - 1) - 1).
Definition hmag (E m : Z) : Z :=
  let e := E - bias + 15 in
  let M := 2 ^ fb + m in
  if E =? 0 then 0
  else if E =? 2 ^ eb - 1 then 31744
  else if 31 <=? e then 31744
  else if e <=? 0 then M / 2 ^ (fb - 9 - e) + (if (M / 2 ^ (fb - 10 - e)) mod 2 =? 1 then 1 else 0)
  else e * 1024 + (M / 2 ^ (fb - 10) - 1024) + (if (M / 2 ^ (fb - 11)) mod 2 =? 1 then 1 else 0).
Definition hpat (s : bool) (E m : Z) : Z := if (E =? 2 ^ eb - 1) && negb (m =? 0) then 0xFE00 else hmag E m + sg15 s.

Lemma hmag_range E m : 0 <= E < 2 ^ eb -> 0 <= m < 2 ^ fb -> 0 <= hmag E m <= 31744.
Proof using E8 F11.
  intros HE Hm. unfold hmag. cbv zeta. destruct (E =? 0); [lia|]. destruct (E =? 2 ^ eb - 1); [lia|].
  destruct (Z.leb_spec 31 (E - bias + 15)); [lia|]. set (e := E - bias + 15) in *.
  assert (X : forall b : bool, 0 <= (if b then 1 else 0) <= 1) by (intros []; lia).
  destruct (Z.leb_spec e 0) as [L|L].
  - specialize (X ((2 ^ fb + m) / 2 ^ (fb - 10 - e) mod 2 =? 1)). set (t := (2 ^ fb + m) / 2 ^ (fb - 9 - e)).
    assert (0 <= t < 1024); [|lia]. pow_pos 2 (fb - 9 - e). split; [apply Z.div_pos; lia|]. apply Z.div_lt_upper_bound; [lia|].
    change 1024 with (2 ^ 10). rewrite <- Z.pow_add_r by lia.
    assert (2 ^ (fb + 1) <= 2 ^ (fb - 9 - e + 10)) by (apply Z.pow_le_mono_r; lia). rewrite Z.pow_add_r in H1 by lia. change (2 ^ 1) with 2 in H1. lia.
  - specialize (X ((2 ^ fb + m) / 2 ^ (fb - 11) mod 2 =? 1)). set (t := (2 ^ fb + m) / 2 ^ (fb - 10)).
    assert (1024 <= t < 2048); [|lia]. pow_pos 2 (fb - 10). assert (P : 2 ^ fb = 1024 * 2 ^ (fb - 10)) by (change 1024 with (2 ^ 10); rewrite <- Z.pow_add_r by lia; f_equal; lia).
    split; [apply Z.div_le_lower_bound; lia|apply Z.div_lt_upper_bound; lia].
Qed.
Lemma sg15_div g s : 0 <= g < 2 ^ 15 -> (g + sg15 s) / 2 ^ 15 = if s then 1 else 0.
Proof.
  intros G. destruct s; cbn [sg15]; [|rewrite Z.add_0_r; apply Z.div_small; assumption].
  rewrite <- (Z.mul_1_l (2 ^ 15)) at 1. rewrite Z.div_add by lia. rewrite Z.div_small by assumption. reflexivity.
Qed.
Lemma fbits_sign s E m : 0 <= E < 2 ^ eb -> 0 <= m < 2 ^ fb -> fbits eb fb s E m / 2 ^ (eb + fb) = if s then 1 else 0.
Proof using FO E8 F11.
  intros HE Hm. destruct FO as [W [E1 E2] Hf]. unfold fbits. pow_pos 2 (eb + fb). rewrite <- Z.add_assoc, Z.div_add_l by lia.
  rewrite Z.div_small; [destruct s; reflexivity|]. rewrite Z.pow_add_r by lia. pow_pos 2 fb. nia.
Qed.
Lemma mval_normal E m : 1 <= E -> 0 <= m < 2 ^ fb -> (mval eb fb (E * 2 ^ fb + m) == dy (2 ^ fb + m) (E - bias - fb))%Q.
Proof using FO E8 F11.
  intros HE Hm. pose proof (fb_pos eb fb FO) as FP. destruct FO as [_ _ Hf]. rewrite mval_ge by nia.
  replace (E * 2 ^ fb + m + (2 - 2 ^ (eb - 1) - 1) * 2 ^ fb) with ((E - bias) * 2 ^ fb + m) by lia. rewrite lval_ef by assumption. reflexivity.
Qed.

Lemma hpat_ok s E m : 0 <= E < 2 ^ eb -> 0 <= m < 2 ^ fb -> half_of eb fb (fbits eb fb s E m) (hpat s E m).
Proof using FO E8 F11.
  intros HE Hm. pose proof (hmag_range E m HE Hm) as HR. pose proof (fb_pos eb fb FO) as FP. destruct (eb_pow eb fb FO) as [EP _].
  assert (PB : 2 ^ (8 - 1) <= 2 ^ (eb - 1)) by (destruct FO; apply Z.pow_le_mono_r; lia). change (2 ^ (8 - 1)) with 128 in PB.
  unfold half_of, half_for, hpat.
  destruct (Z.eqb_spec E (2 ^ eb - 1)) as [ET|ET].
  - subst E. rewrite (ieee_top eb fb s m FO) by assumption. destruct (Z.eqb_spec m 0) as [M0|M0]; cbn [andb negb].
    + unfold hmag in *. cbv zeta in *. destruct (Z.eqb_spec (2 ^ eb - 1) 0); [lia|]. rewrite Z.eqb_refl in *.
      split; [split; [destruct s; cbn [sg15]; lia|]|].
      * pose proof (ieee_codetop 5 10 fmt_h s) as I. change ((2 ^ 5 - 1) * 2 ^ 10) with 31744 in I. exact I.
      * intros _. rewrite sg15_div, fbits_sign by (lia || assumption). reflexivity.
    + split; [split; [lia|reflexivity]|]. intros N. congruence.
  - cbn [andb]. assert (GT : 0 <= E * 2 ^ fb + m < (2 ^ eb - 1) * 2 ^ fb) by nia.
    destruct (ieee_code eb fb FO s (E * 2 ^ fb + m) GT) as (q & I & Q).
    assert (EF : fbits eb fb s E m = E * 2 ^ fb + m + (if s then 2 ^ (eb + fb) else 0)) by (unfold fbits; destruct s; lia).
    rewrite <- EF in I. rewrite I. split; [split; [destruct s; cbn [sg15]; lia|]|].
    2: intros _; rewrite sg15_div, fbits_sign by (lia || assumption); reflexivity.
    apply (half_away_comp _ _ _ (Qeq_sym _ _ Q)). unfold hmag. cbv zeta.
    assert (SG : sg15 s = if s then 2 ^ 15 else 0) by reflexivity.
    destruct (Z.eqb_spec E 0) as [E0|E0].
    { subst E. rewrite Z.mul_0_l, Z.add_0_l. rewrite SG. apply round_tiny.
      - rewrite (mval_low eb fb FO) by lia. unfold dy. pose proof (pow2_pos (2 - 2 ^ (eb - 1) - fb)). pose proof (inj_le 0 m ltac:(lia)). change (inject_Z 0) with 0%Q in *. nra.
      - rewrite (mval_low eb fb FO) by lia. assert (A : (dy m (2 - 2 ^ (eb - 1) - fb) < dy (2 ^ fb) (2 - 2 ^ (eb - 1) - fb))%Q) by (apply dy_lt; lia).
        assert (B : (dy (2 ^ fb) (2 - 2 ^ (eb - 1) - fb) == pow2 (2 - 2 ^ (eb - 1)))%Q).
        { unfold dy. rewrite <- pow2_Z, <- pow2_plus by lia. replace (fb + (2 - 2 ^ (eb - 1) - fb)) with (2 - 2 ^ (eb - 1)) by lia. reflexivity. }
        assert (C : (pow2 (2 - 2 ^ (eb - 1)) <= pow2 (-26))%Q) by (apply pow2_le; lia).
        assert (D : (2 * pow2 (-26) < pow2 (-24))%Q) by reflexivity. lra. }
    destruct (Z.eqb_spec E (2 ^ eb - 1)); [lia|].
    assert (V := mval_normal E m ltac:(lia) Hm). set (e := E - bias + 15) in *.
    replace (E - bias - fb) with (e - 15 - fb) in V by (unfold e; lia).
    assert (V' : (sgq s (dy (2 ^ fb + m) (e - 15 - fb)) == sgq s (mval eb fb (E * 2 ^ fb + m)))%Q) by (destruct s; cbn [sgq]; rewrite V; reflexivity).
    apply (half_away_comp _ _ _ V'). rewrite SG.
    assert (MB : 2 ^ fb <= 2 ^ fb + m < 2 ^ (fb + 1)) by (rewrite Z.pow_add_r by lia; change (2 ^ 1) with 2; lia).
    destruct (Z.leb_spec 31 e) as [B|B].
    + apply round_huge. assert (A : (dy (2 ^ fb) (e - 15 - fb) <= dy (2 ^ fb + m) (e - 15 - fb))%Q) by (apply dy_le; lia).
      assert (C : (dy (2 ^ fb) (e - 15 - fb) == pow2 (e - 15))%Q).
      { unfold dy. rewrite <- pow2_Z, <- pow2_plus by lia. replace (fb + (e - 15 - fb)) with (e - 15) by lia. reflexivity. }
      assert (D : (pow2 16 <= pow2 (e - 15))%Q) by (apply pow2_le; lia). assert (F : (pow2 16 == 65536)%Q) by reflexivity. lra.
    + destruct (Z.leb_spec e 0) as [L|L].
      * apply round_subnormal; lia.
      * apply round_normal; lia.
Qed.
End fmt.

(** The two loops. *)
Lemma half_word_single s E m : half_word 23 s E m = hpat 8 23 s E m.
Proof.
  unfold half_word, hpat, hmag. cbv zeta. change (30 - 23) with (8 - 1). change (31 - 23) with 8.
  destruct (Z.eqb_spec E 0) as [->|N]; [reflexivity|]. destruct (E =? 2 ^ 8 - 1); cbn [andb].
  - destruct (m =? 0); reflexivity.
  - destruct (31 <=? E - (2 ^ (8 - 1) - 1) + 15); [reflexivity|]. destruct (E - (2 ^ (8 - 1) - 1) + 15 <=? 0); reflexivity.
Qed.
Lemma low_bits m k : 0 <= k -> (2 ^ 20 + m / 2 ^ 32) / 2 ^ k = (2 ^ 52 + m) / 2 ^ (k + 32).
Proof.
  intros K. rewrite Z.add_comm, Z.pow_add_r by lia. rewrite (Z.mul_comm (2 ^ k)), <- Z.div_div by (pow_pos 2 k; lia). f_equal.
  change (2 ^ 52) with (2 ^ 20 * 2 ^ 32). rewrite Z.div_add_l by lia. lia.
Qed.
Lemma half_word_double s E m : 0 <= m < 2 ^ 52 -> (E <> 2047 \/ m / 2 ^ 32 <> 0 \/ m = 0) -> half_word 20 s E (m / 2 ^ 32) = hpat 11 52 s E m.
Proof.
  intros M C. unfold half_word, hpat, hmag. cbv zeta. change (30 - 20) with (11 - 1). change (31 - 20) with 11.
  destruct (Z.eqb_spec E 0) as [->|N]; [reflexivity|]. change (2 ^ 11 - 1) with 2047.
  destruct (Z.eqb_spec E 2047) as [E1|E1]; cbn [andb].
  - destruct (Z.eqb_spec (m / 2 ^ 32) 0) as [Z0|Z0], (Z.eqb_spec m 0) as [M0|M0]; try reflexivity; [lia|]. subst m. cbn in Z0. lia.
  - set (e := E - (2 ^ (11 - 1) - 1) + 15). destruct (Z.leb_spec 31 e); [reflexivity|].
    destruct (Z.leb_spec e 0).
    + rewrite !low_bits by lia. replace (20 - 9 - e + 32) with (52 - 9 - e) by lia. replace (20 - 10 - e + 32) with (52 - 10 - e) by lia. reflexivity.
    + rewrite !low_bits by lia. reflexivity.
Qed.
Lemma s2h_ok x : 0 <= x < 2 ^ 32 -> exists r, s2h x = Ok r /\ half_of 8 23 x r.
Proof.
  intros X. destruct (word_fields 23 x ltac:(lia) X) as (s & E & m & HE & Hm & ->). change (31 - 23) with 8 in HE.
  exists (half_word 23 s E m). split; [apply s2h_word; assumption|].
  rewrite half_word_single. pose proof (hpat_ok 8 23 fmt_f ltac:(lia) ltac:(lia) s E m HE Hm) as H. unfold fbits in H.
  replace (sg31 s) with ((if s then 1 else 0) * 2 ^ (8 + 23)) by (destruct s; reflexivity). exact H.
Qed.
Lemma double_fields d : 0 <= d < 2 ^ 64 -> exists s E m,
  0 <= E < 2 ^ 11 /\ 0 <= m < 2 ^ 52 /\ d = fbits 11 52 s E m /\ d / 2 ^ 32 = sg31 s + E * 2 ^ 20 + m / 2 ^ 32 /\ d mod 2 ^ 32 = m mod 2 ^ 32.
Proof.
  intros D. destruct (word_fields 20 (d / 2 ^ 32)) as (s & E & h & HE & Hh & X); [lia| |].
  { split; [apply Z.div_pos; lia|apply Z.div_lt_upper_bound; lia]. }
  change (31 - 20) with 11 in HE. pose proof (Z.div_mod d (2 ^ 32) ltac:(lia)) as DM. pose proof (Z.mod_pos_bound d (2 ^ 32) ltac:(lia)) as MB.
  set (l := d mod 2 ^ 32) in *. exists s, E, (h * 2 ^ 32 + l). split; [assumption|]. split; [nia|].
  assert (E1 : (h * 2 ^ 32 + l) / 2 ^ 32 = h) by (rewrite Z.div_add_l by lia; rewrite Z.div_small by assumption; lia).
  assert (E2 : (h * 2 ^ 32 + l) mod 2 ^ 32 = l) by (rewrite Z.add_comm, Z.mod_add by lia; apply Z.mod_small; assumption).
  rewrite E1, E2. split; [|split; [assumption|reflexivity]].
  unfold fbits. rewrite DM, X. destruct s; cbn [sg31]; lia.
Qed.
Lemma d2h_ok d : 0 <= d < 2 ^ 64 -> exists r, d2h (d / 2 ^ 32) = Ok r /\ 0 <= r < 2 ^ 16 /\
  (ieee_val 11 52 d <> NaNVal \/ (d / 2 ^ 32) mod 2 ^ 20 <> 0 -> half_of 11 52 d r).
Proof.
  intros D. destruct (double_fields d D) as (s & E & m & HE & Hm & -> & X & _).
  assert (H20 : 0 <= m / 2 ^ 32 < 2 ^ 20) by (split; [apply Z.div_pos; lia|apply Z.div_lt_upper_bound; lia]).
  exists (half_word 20 s E (m / 2 ^ 32)). split; [rewrite X; apply d2h_word; assumption|].
  assert (C : {E <> 2047 \/ m / 2 ^ 32 <> 0 \/ m = 0} + {E = 2047 /\ m / 2 ^ 32 = 0 /\ m <> 0}).
  { destruct (Z.eq_dec E 2047); [|left; tauto]. destruct (Z.eq_dec (m / 2 ^ 32) 0); [|left; tauto]. destruct (Z.eq_dec m 0); [left; tauto|right; tauto]. }
  destruct C as [C|(C1 & C2 & C3)].
  - rewrite half_word_double by assumption. pose proof (hpat_ok 11 52 fmt_d ltac:(lia) ltac:(lia) s E m HE Hm) as H. split; [apply H|]. intros _. exact H.
  - split; [subst E; rewrite C2; destruct s; vm_compute; (split; [discriminate|reflexivity])|]. intros [N|N]; exfalso.
    + subst E. change 2047 with (2 ^ 11 - 1) in N. rewrite (ieee_top 11 52 s m fmt_d Hm) in N. destruct (Z.eqb_spec m 0); [tauto|]. now apply N.
    + rewrite X, C2, Z.add_0_r in N. apply N. rewrite Z.add_comm. destruct s; subst E; reflexivity.
Qed.
