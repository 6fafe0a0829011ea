(** Software half floats: widening and signs. *)
From Coq Require Import ZArith QArith Qabs Lia Lqa List Bool Setoid.
From Verif Require Import Res CInt Bits Traits Unpacked Cfg Posit Spec SpecFloat SpecAny FloatOps PositF AnyFloat Half QPow Core EncodeProof
  Conv1 Conv2 Conv3 Conv4 Conv5 TabProof4 TabProof5 FloatProof FloatProof2 PositFProof PositFProof2 PositFProof3 AnyProof AnyProof2 AnyProof3.
Open Scope Z_scope.

(** The unsigned integer of float16nto32 is the pattern of the float of the same value. *)
Lemma half_widen h : 0 <= h < 2 ^ 16 -> exists b, float16nto32_uint h = Ok b /\ 0 <= b < 2 ^ 32 /\
  match ieee_val 5 10 h with
  | FinVal q => (exists q', ieee_val 8 23 b = FinVal q' /\ (q' == q)%Q) /\ ((pow2 (-14) <= Qabs q)%Q -> float32to16n b = Ok h)
  | InfVal s => ieee_val 8 23 b = InfVal s /\ float32to16n b = Ok h
  | NaNVal => ieee_val 8 23 b = NaNVal
  end.
Proof.
  intros B. assert (W32 : is_width 32) by (unfold is_width; lia).
  pose proof (float_convert 32 32 5 10 true 8 23 true h W32 W32 ltac:(lia) fmt_half fmt_single ltac:(lia) B) as H. cbv zeta in H.
  change (convert 32 32 (any_floattrait 5 10 true) (any_floattrait 8 23 true) h) with (float16nto32_uint h) in H.
  destruct (ieee_val 5 10 h) as [q|s|] eqn:IV.
  - destruct H as (H1 & H2 & H3). destruct (Qeq_dec q 0) as [Z|NZ].
    + exists 0. split; [apply H1; left; exact Z|]. split; [lia|]. split.
      * destruct (k_zero FFloat) as (z & I0 & Z0). exists z. split; [exact I0|]. rewrite Z. exact Z0.
      * intros T. rewrite Z in T. exfalso. revert T. vm_compute. intuition congruence.
    + assert (F5 : is_float 5 10 q) by (exists h, q; split; [exact B|]; split; [exact IV|reflexivity]).
      assert (T : (pow2 (2 - 2 ^ (8 - 1)) <= Qabs q)%Q).
      { destruct (float_mval 5 10 fmt_half q F5) as (s & g & G & E).
        assert (GP : 1 <= g) by (destruct (Z.eq_dec g 0) as [->|]; [exfalso; apply NZ; rewrite E; destruct s; cbn [sgq]; rewrite (mval_0 5 10 fmt_half); reflexivity|lia]).
        pose proof (mval_le 5 10 fmt_half 1 g ltac:(lia) GP) as L. pose proof (mval_low 5 10 fmt_half 1 ltac:(cbn; lia)) as L1.
        assert (A : (Qabs q == mval 5 10 g)%Q).
        { pose proof (mval_pos 5 10 fmt_half g ltac:(lia)). rewrite E. destruct s; cbn [sgq]; [rewrite Qabs_opp|]; apply Qabs_pos; lra. }
        rewrite A. apply Qle_trans with (mval 5 10 1); [|exact L]. rewrite L1. vm_compute. discriminate. }
      destruct (H2 (or_introl eq_refl) T) as (b & O & TR). exists b. split; [exact O|]. split; [exact (proj1 TR)|].
      destruct (float_trunc_exact 8 23 q b TR) as (q' & I' & Q'); [apply (is_float_widen 5 10 8 23); try lia; [exact fmt_half|exact fmt_single|exact F5]|].
      split; [exists q'; split; assumption|]. intros T2.
      pose proof (half_narrow b (proj1 TR)) as N. rewrite I' in N. destruct N as [N _]. rewrite <- Q' in T2. destruct (N T2) as (h' & O' & TR').
      rewrite O'. f_equal. destruct (float_trunc_exact 5 10 q' h' TR') as (y & Iy & Y); [apply (is_float_comp 5 10 q); [symmetry; exact Q'|exact F5]|].
      apply (ieee_inj 5 10 h' h y q fmt_half (proj1 TR') B Iy IV); [rewrite Y; exact Q'|]. rewrite Y, Q'. exact NZ.
  - destruct H as (b & O & R & I). exists b. split; [exact O|]. split; [exact R|]. split; [exact I|].
    pose proof (half_narrow b R) as N. rewrite I in N. destruct N as (h' & O' & R' & I'). rewrite O'. f_equal.
    exact (ieee_inf_inj 5 10 h' h s fmt_half R' B I' IV).
  - destruct H as (b & O & R & I). exists b. split; [exact O|]. split; [exact R|exact I].
Qed.

Lemma half_sign h : 0 <= h < 2 ^ 16 ->
  match ieee_val 5 10 h with
  | FinVal q => (exists r, ieee_val 5 10 (h_neg h) = FinVal r /\ (r == - q)%Q) /\ (exists r, ieee_val 5 10 (h_abs h) = FinVal r /\ (r == Qabs q)%Q)
  | InfVal s => ieee_val 5 10 (h_neg h) = InfVal (negb s) /\ ieee_val 5 10 (h_abs h) = InfVal false
  | NaNVal => ieee_val 5 10 (h_neg h) = NaNVal /\ ieee_val 5 10 (h_abs h) = NaNVal
  end.
Proof.
  intros B. destruct (neg_val 5 10 fmt_half h B) as (_ & N & _). destruct (abs_val 5 10 fmt_half h B) as (_ & A).
  change (af_neg 5 10 h) with (h_neg h) in N. change (af_abs 5 10 h) with (h_abs h) in A.
  destruct (ieee_val 5 10 h) as [q|s|], (ieee_val 5 10 (h_neg h)) as [r|t|], (ieee_val 5 10 (h_abs h)) as [r'|t'|];
    cbn [x_opp x_abs same_ext] in N, A; try discriminate; try (split; assumption).
  split; eexists; (split; [reflexivity|assumption]).
Qed.
