(** Where the search for the nearest posit and the sum go wrong, and an example. *)
From Coq Require Import ZArith QArith Qabs Bool List String Lia Lqa.
From Verif Require Import Res CInt Traits Unpacked Cfg Spec SpecFloat SpecAny SpecNear Posit FloatOps AnyFloat Asimd Soft ListP Dump SpecDump TestSum QPow Core Arith SpecLemmas DecodeProof EncodeProof UOps UAdd Ops OpsUnary
  Final1 Final4 Conv1 Conv5 FloatProof PositFProof PositFProof2 AnyProof AnyProof2 AnyProof3 SoftProof ListProof DumpProof DumpProof2 DumpProof3 DumpProof4 DumpProof5 DumpProof6 NearProof NearProof2 NearProof3 NearProof4.
Import ListNotations.
Open Scope Z_scope.

(** Far beyond the greatest posit every square overflows. *)
Lemma over_inf : ieee_val 11 52 (rne 11 52 (pow2 1998)) = InfVal false. Proof. vm_compute. reflexivity. Qed.
Lemma far_dist c d w : valid_cfg c -> frac_fits c -> float_covers c 11 52 -> emax c + gran c <= 390 -> is_double d (pow2 1000) -> real c w -> ieee_val 11 52 (dist (rne 11 52) c d w) = InfVal false.
Proof.
  intros V FF FC RE D W. pose proof (rne_rounding 11 52 fmt_d) as RN. pose proof (value_small c V FC w W) as S. pose proof (emax_bound c V FC) as [EB GB]. pose proof (pow2_le (emax c + 1) 391 ltac:(lia)) as B1. pose proof (pow2_le 391 999 ltac:(lia)) as B2.
  assert (E1 : (pow2 1000 == 2 * pow2 999)%Q) by (change 1000 with (999 + 1); apply pow2_dbl). assert (E2 : (pow2 1001 == 4 * pow2 999)%Q) by (change 1001 with (999 + 1 + 1); rewrite !pow2_dbl; ring). pose proof (pow2_pos 999) as P9.
  pose proof (Qle_Qabs (value c w)) as A1. pose proof (Qle_Qabs (- value c w)) as A2. rewrite Qabs_opp in A2.
  assert (XA : (Qabs (value c w - pow2 1000) <= pow2 1001)%Q) by (rewrite Qabs_neg by lra; lra).
  destruct (rnd_fin (rne 11 52) RN _ _ (isf_pow2 1001 ltac:(lia)) XA) as (y & Y & _).
  assert (YB : (y <= - pow2 999)%Q) by (apply (rnd_le 11 52 _ RN (value c w - pow2 1000) (- pow2 999)); [apply (is_float_opp 11 52 fmt_d), isf_pow2; lia|lra|exact Y]).
  destruct (sub_ok _ RN _ _ _ _ (third_is c V FF FC w W) D) as [S1 S2]. rewrite Y in S2. destruct (sq_ok _ RN _ _ (val_is_double _ _ S1 S2)) as [_ Q2]. fold (dist (rne 11 52) c d w) in Q2.
  assert (YY : (pow2 1998 <= y * y)%Q) by (change 1998 with (999 + 999); rewrite pow2_plus; nra).
  pose proof (rn_mono _ _ _ RN _ _ YY) as MO. rewrite over_inf in MO. destruct (ieee_val 11 52 (rne 11 52 (y * y))) as [z|[]|]; cbn [ext_le] in MO; try contradiction.
  destruct (ieee_val 11 52 (dist (rne 11 52) c d w)); cbn [same_ext] in Q2; congruence.
Qed.
Lemma argmin_inf l : forall i best at_, ieee_val 11 52 best = InfVal false -> (forall d, In d l -> ieee_val 11 52 d = InfVal false) -> m_argmin l i best at_ = at_.
Proof.
  induction l as [|x l IH]; intros i best at_ B L; [reflexivity|]. cbn [m_argmin]. rewrite B. destruct (f_lt 11 52 x best) eqn:E.
  - apply f_lt_spec in E. rewrite B, (L x (or_introl eq_refl)) in E. destruct E.
  - apply IH; [exact B|]. intros d D. apply L. now right.
Qed.
Lemma far_refuted pw c m file t s d : valid_cfg c -> frac_fits c -> float_covers c 11 52 -> cN c + 2 ^ ces c <= 48 -> emax c + gran c <= 390 ->
  d_file (rne 11 52) pw c "Biov" m = Some (Ok file) -> loadpositdump (rne 11 52) file = Some (t, s) -> is_double d (pow2 1000) ->
  exists i x, toindex (rne 11 52) t MFloat d = Some i /\ fromindex t MSigned i = Some x /\ is_double x (inject_Z (- maxreal c)) /\ ~ nearest_posit c (pow2 1000) (- maxreal c).
Proof.
  intros V FF FC SM RE F L D. pose proof (rne_rounding 11 52 fmt_d) as RN. destruct (t_is (rne 11 52) pw c V FF FC m file t s F L) as [-> _]. pose proof (mb c V) as M.
  assert (RM : real c (- maxreal c)) by (unfold real; lia). assert (RP : real c (maxreal c)) by (unfold real; lia).
  exists (- maxreal c + maxreal c + 1), (rne 11 52 (inject_Z (- maxreal c))). split; [|split; [|split]].
  - rewrite toindex_zup. f_equal. set (k := Z.to_nat (2 * maxreal c)). assert (KK : Z.of_nat k = 2 * maxreal c) by lia. clearbody k.
    rewrite argmin_inf; [lia|apply far_dist; assumption|]. intros x I. apply in_map_iff in I. destruct I as (w & <- & I). apply zup_in in I. apply far_dist; try assumption. unfold real. lia.
  - apply (m_at_row c V (fun v => rne 11 52 (inject_Z v))). exact RM.
  - apply (first_is (rne 11 52) c RN V (n54 c SM)). exact RM.
  - intros [_ N]. destruct (N _ RP) as [N1 _]. pose proof (value_small c V FC _ RP) as S. pose proof (emax_bound c V FC) as [EB GB]. pose proof (pow2_le (emax c + 1) 391 ltac:(lia)) as B1. pose proof (pow2_lt 391 1000 ltac:(lia)) as B2. vcb V.
    pose proof (value_pos c BN Bes (maxreal c) ltac:(lia)) as P. rewrite (value_opp c BN Bes) in N1. rewrite Qabs_pos in S by lra. rewrite !Qabs_neg in N1 by lra. lra.
Qed.

(** 16 bits with one exponent bit: the sum of the greatest and the smallest posit is not a double. *)
Definition p16_1 := Cfg 16 16 1 16 WithNan.
Lemma p16_1_ok : valid_cfg p16_1 /\ frac_fits p16_1 /\ float_covers p16_1 11 52.
Proof. split; [split; cbn; unfold is_width; try lia; try tauto|]. split; [unfold frac_fits; cbn; lia|unfold float_covers; cbn; lia]. Qed.
Lemma sum_wide : (value p16_1 32767 + value p16_1 1 == dy (2 ^ 56 + 1) (-28))%Q. Proof. vm_compute. reflexivity. Qed.
Lemma sum_not_double d : ~ is_double d (value p16_1 32767 + value p16_1 1).
Proof.
  intros D. apply (is_double_comp _ _ _ sum_wide) in D. apply is_double_float in D. destruct (isf_norm _ D) as (m & j & M & E).
  - apply Qle_trans with (dy 1 (-28)); [vm_compute; discriminate|apply dy_le; lia].
  - apply Qle_trans with (dy (2 ^ 57) (-28)); [apply dy_le; lia|]. rewrite dy_pow2' by lia. apply pow2_le. lia.
  - destruct (Z_lt_le_dec (-28) j) as [L|L].
    + rewrite (dy_align m j (-28)) in E by lia. apply dy_eq_inv in E. replace (j - -28) with (1 + (j + 27)) in E by lia. rewrite Z.pow_add_r in E by lia. change (2 ^ 1) with 2 in E. set (k := 2 ^ (j + 27)) in E. clearbody k.
      change (2 ^ 56) with (2 * 2 ^ 55) in E. set (p := 2 ^ 55) in E. clearbody p. replace (m * (2 * k)) with (2 * (m * k)) in E by ring. lia.
    + assert (U : (dy m j < pow2 25)%Q).
      { apply Qlt_le_trans with (dy (2 ^ 53) j); [apply dy_lt; lia|]. rewrite dy_pow2' by lia. apply pow2_le. lia. }
      assert (K : (pow2 28 <= dy (2 ^ 56 + 1) (-28))%Q) by (apply Qle_trans with (dy (2 ^ 56) (-28)); [rewrite dy_pow2' by lia; apply pow2_le; lia|apply dy_le; lia]).
      pose proof (pow2_lt 25 28 ltac:(lia)). lra.
Qed.
Lemma p16_1_real : real p16_1 32767 /\ real p16_1 1.
Proof. unfold real. change (maxreal p16_1) with 32767. lia. Qed.
Lemma sum_refuted rnd pw m file t s da db : rounding 11 52 rnd -> d_file rnd pw p16_1 "Biov" m = Some (Ok file) -> loadpositdump rnd file = Some (t, s) ->
  is_double da (inject_Z 32767) -> is_double db (inject_Z 1) ->
  exists r sd, testfloat11 rnd t MSigned da db = Some r /\ r_s r = Some sd /\ ~ is_double sd (value p16_1 32767 + value p16_1 1).
Proof.
  intros RN FI LO DA DB. destruct p16_1_ok as (V & FF & FC). destruct p16_1_real as [RA RB].
  assert (SM : cN p16_1 + 2 ^ ces p16_1 <= 48) by (cbn; lia). assert (RE : emax p16_1 + gran p16_1 <= 390) by (vm_compute; discriminate).
  destruct (finds rnd pw p16_1 RN V FF FC (n54 _ SM) m file t s FI LO 32767 RA) as (ia & (xa & FA & XA) & _ & TA & _). specialize (TA da DA).
  destruct (finds rnd pw p16_1 RN V FF FC (n54 _ SM) m file t s FI LO 1 RB) as (ib & (xb & FB & XB) & _ & TB & _). specialize (TB db DB).
  destruct (sums rnd pw p16_1 RN V FF FC SM RE m file t s FI LO _ _ _ _ _ _ _ _ _ TA FA XA RA TB FB XB RB) as (ea & eb & sd & sq & vy & ey & diff & T & _).
  exists (Test (Some ea) (Some eb) (Some sd) (Some ey) (Some diff)), sd. split; [exact T|]. split; [reflexivity|]. apply sum_not_double.
Qed.

Lemma tiny_near : exists file t s, d_file (rne 11 52) (fun _ => 0) tiny "Biov" 8 = Some (Ok file) /\ loadpositdump (rne 11 52) file = Some (t, s) /\
  (exists d i x, is_double d (13 # 8) /\ toindex (rne 11 52) t MFloat d = Some i /\ fromindex t MFloat i = Some x /\ is_double x 2) /\
  (exists da db ea eb sd ey diff, is_double da (inject_Z 2) /\ is_double db (inject_Z 1) /\
    testfloat11 (rne 11 52) t MSigned da db = Some (Test (Some ea) (Some eb) (Some sd) (Some ey) (Some diff)) /\
    is_double (e_float ea) 1 /\ is_double (e_float eb) (1 # 2) /\ is_double sd (3 # 2) /\ is_double (e_float ey) 1 /\ is_double diff (1 # 2)).
Proof.
  do 3 eexists. split; [vm_compute; reflexivity|]. split; [vm_compute; reflexivity|]. split.
  - exists (rne 11 52 (13 # 8)). do 2 eexists. split; [split; [vm_compute; split; [discriminate|reflexivity]|eexists; split; vm_compute; reflexivity]|].
    split; [vm_compute; reflexivity|]. split; [vm_compute; reflexivity|]. split; [lia|]. eexists; split; vm_compute; reflexivity.
  - exists (rne 11 52 2), (rne 11 52 1). do 5 eexists. split; [split; [vm_compute; split; [discriminate|reflexivity]|eexists; split; vm_compute; reflexivity]|].
    split; [split; [vm_compute; split; [discriminate|reflexivity]|eexists; split; vm_compute; reflexivity]|]. split; [vm_compute; reflexivity|]. cbn [e_float].
    split; [|split; [|split; [|split]]]; (split; [lia|eexists; split; vm_compute; reflexivity]).
Qed.
Lemma tiny_hyps : let c := Cfg 8 3 0 8 WithNan in
  (rounding 11 52 (rne 11 52) /\ valid_cfg c /\ frac_fits c /\ float_covers c 11 52) /\ cN c + 2 ^ ces c <= 48 /\ (cN c - 2) * 2 ^ ces c + (cN c - 3 - ces c) <= 26.
Proof.
  cbn zeta. destruct tiny_ok as (A & B & C & D & _). split; [split; [exact A|split; [exact B|split; [exact C|exact D]]]|]. split; vm_compute; discriminate.
Qed.
