(** Rounding to half precision, ties away from zero. *)
From Coq Require Import ZArith QArith Qabs Bool List Lia Lqa.
From Verif Require Import Res CInt Spec SpecFloat SpecHalf Core Arith QPow EncodeProof Conv1 Conv4 Conv5 FloatProof SoftProof.
Import ListNotations.
Open Scope Z_scope.

Lemma fmt_h : fmt_ok 5 10.
Proof. exact (sf_fmt Soft.S16). Qed.
Notation hv := (mval 5 10).

Lemma hv_normal e f : 1 <= e -> 0 <= f < 1024 -> (hv (e * 1024 + f) == dy (1024 + f) (e - 25))%Q.
Proof.
  intros E F. rewrite (mval_ge 5 10) by lia. change (2 - 2 ^ (5 - 1) - 1) with (-15). change (2 ^ 10) with 1024.
  replace (e * 1024 + f + -15 * 1024) with ((e - 15) * 2 ^ 10 + f) by (change (2 ^ 10) with 1024; lia).
  rewrite lval_ef by (change (2 ^ 10) with 1024; lia). replace (e - 15 - 10) with (e - 25) by lia. reflexivity.
Qed.
Lemma hv_normal' e f : 1 <= e -> 0 <= f <= 1024 -> (hv (e * 1024 + f) == dy (1024 + f) (e - 25))%Q.
Proof.
  intros E F. destruct (Z.eq_dec f 1024) as [->|N]; [|apply hv_normal; lia].
  replace (e * 1024 + 1024) with ((e + 1) * 1024 + 0) by lia. rewrite hv_normal by lia.
  change (1024 + 1024) with (1024 * 2 ^ 1). rewrite dy_pow by lia. replace (e - 25 + 1) with (e + 1 - 25) by lia. reflexivity.
Qed.
Lemma hv_low g : 0 <= g <= 1024 -> (hv g == dy g (-24))%Q.
Proof. intros G. rewrite (mval_low 5 10 fmt_h) by (change (2 ^ 10) with 1024; lia). reflexivity. Qed.

(** The value 65504 of the largest half and 65536. *)
Lemma hv_last : (hv 31743 == 65504)%Q.
Proof. change 31743 with (30 * 1024 + 1023). rewrite hv_normal by lia. reflexivity. Qed.
Lemma hv_top : (hv 31744 == 65536)%Q.
Proof. change 31744 with (31 * 1024 + 0). rewrite hv_normal by lia. reflexivity. Qed.

Lemma sgq_abs s x : (0 <= x)%Q -> (Qabs (sgq s x) == x)%Q.
Proof. intros P. destruct s; cbn [sgq]; [rewrite Qabs_opp|]; apply Qabs_pos; assumption. Qed.
Lemma sgq_diff s x y : (Qabs (sgq s x - sgq s y) == Qabs (x - y))%Q.
Proof.
  destruct s; cbn [sgq]; [|reflexivity].
  assert (E : (- x - - y == - (x - y))%Q) by ring. rewrite E. apply Qabs_opp.
Qed.
Lemma sgq_diff' s s' x y : s <> s' -> (0 <= x)%Q -> (0 <= y)%Q -> (Qabs (sgq s x - sgq s' y) == x + y)%Q.
Proof.
  intros N X Y. destruct s, s'; try congruence; cbn [sgq].
  - assert (E : (- x - y == - (x + y))%Q) by ring. rewrite E, Qabs_opp, Qabs_pos by lra. reflexivity.
  - rewrite Qabs_pos by lra. ring.
Qed.

(** The pattern below the number [q] and a round bit that tells whether [q] is at least halfway to the next. *)
Lemma floor_round s q G (rb : bool) : 0 <= G < 31744 -> (hv G <= q)%Q -> (q < hv (G + 1))%Q ->
  (if rb then hv G + hv (G + 1) <= 2 * q else 2 * q < hv G + hv (G + 1))%Q ->
  half_away (sgq s q) (G + (if rb then 1 else 0) + (if s then 2 ^ 15 else 0)).
Proof.
  intros GB L U R. pose proof (mval_le 5 10 fmt_h 0 G ltac:(lia) ltac:(lia)) as P0. rewrite (mval_0 5 10 fmt_h) in P0.
  assert (Q0 : (0 <= q)%Q) by lra. unfold half_away.
  set (g := G + (if rb then 1 else 0)).
  assert (GG : 0 <= g) by (unfold g; destruct rb; lia).
  destruct (Z.eq_dec g 31744) as [T|T].
  - pose proof (ieee_codetop 5 10 fmt_h s) as I. change ((2 ^ 5 - 1) * 2 ^ 10) with 31744 in I. change (2 ^ (5 + 10)) with (2 ^ 15) in I. rewrite T, I.
    destruct rb; [|unfold g in T; lia]. assert (G = 31743) as -> by (unfold g in T; lia). change (31743 + 1) with 31744 in R.
    rewrite hv_last, hv_top in R. rewrite sgq_abs by assumption. split; [lra|].
    destruct s; cbn [sgq]; split; intros H; try discriminate H; try lra; reflexivity.
  - assert (GL : 0 <= g < 31744) by (unfold g in *; destruct rb; lia).
    destruct (ieee_code 5 10 fmt_h s g ltac:(change ((2 ^ 5 - 1) * 2 ^ 10) with 31744; lia)) as (y & Iy & Ey).
    change (2 ^ (5 + 10)) with (2 ^ 15) in Iy. rewrite Iy.
    pose proof (mval_le 5 10 fmt_h 0 g ltac:(lia) ltac:(lia)) as Pg. rewrite (mval_0 5 10 fmt_h) in Pg.
    (* distance of the result to q, against other patterns *)
    assert (near : forall k, 0 <= k -> (Qabs (hv g - q) <= Qabs (hv k - q))%Q /\ ((Qabs (hv g - q) == Qabs (hv k - q))%Q -> (hv k <= hv g)%Q)).
    { intros k K. destruct (Z_le_gt_dec k G) as [A|A].
      - pose proof (mval_le 5 10 fmt_h k G K A) as M. rewrite (Qabs_neg (hv k - q)) by lra.
        assert (ML : (hv k <= hv g)%Q) by (apply (mval_le 5 10 fmt_h); unfold g; destruct rb; lia).
        unfold g in *. destruct rb.
        + rewrite Qabs_pos by lra. split; lra.
        + rewrite Z.add_0_r in *. rewrite Qabs_neg by lra. split; lra.
      - pose proof (mval_le 5 10 fmt_h (G + 1) k ltac:(lia) ltac:(lia)) as M. rewrite (Qabs_pos (hv k - q)) by lra. unfold g in *. destruct rb.
        + rewrite Qabs_pos by lra. split; lra.
        + rewrite Z.add_0_r in *. rewrite Qabs_neg by lra. split; lra. }
    split.
    + rewrite sgq_abs by assumption. destruct (Z.eq_dec G 31743) as [->|N].
      * destruct rb; [unfold g in T; lia|]. change (31743 + 1) with 31744 in R. rewrite hv_last, hv_top in R. lra.
      * pose proof (mval_le 5 10 fmt_h (G + 1) 31743 ltac:(lia) ltac:(lia)) as M. rewrite hv_last in M. lra.
    + intros b z B I. destruct (ieee_code_inv 5 10 fmt_h b z B I) as (s' & k & K & _ & Ez).
      pose proof (mval_le 5 10 fmt_h 0 k ltac:(lia) ltac:(lia)) as Pk. rewrite (mval_0 5 10 fmt_h) in Pk.
      assert (D1 : (Qabs (y - sgq s q) == Qabs (hv g - q))%Q) by (rewrite Ey; apply sgq_diff).
      assert (A1 : (Qabs y == hv g)%Q) by (rewrite Ey; apply sgq_abs; assumption).
      assert (A2 : (Qabs z == hv k)%Q) by (rewrite Ez; apply sgq_abs; assumption).
      rewrite D1, A1, A2. destruct (Bool.bool_dec s s') as [<-|N].
      * assert (D2 : (Qabs (z - sgq s q) == Qabs (hv k - q))%Q) by (rewrite Ez; apply sgq_diff). rewrite D2. apply near. lia.
      * assert (D2 : (Qabs (z - sgq s q) == hv k + q)%Q) by (rewrite Ez; apply sgq_diff'; congruence || assumption). rewrite D2.
        destruct (near 0 ltac:(lia)) as [N1 _]. rewrite (mval_0 5 10 fmt_h) in N1.
        assert (E0 : (Qabs (0 - q) == q)%Q) by (rewrite Qabs_neg by lra; ring). rewrite E0 in N1. split; lra.
Qed.

(** Cutting a number M 2^e after the bit of weight 2^S. *)
Lemma cut_bits M e S : 0 <= M -> 1 <= S ->
  (dy (M / 2 ^ S) (e + S) <= dy M e)%Q /\ (dy M e < dy (M / 2 ^ S + 1) (e + S))%Q /\
  (if (M / 2 ^ (S - 1)) mod 2 =? 1 then dy (M / 2 ^ S) (e + S) + dy (M / 2 ^ S + 1) (e + S) <= 2 * dy M e
   else 2 * dy M e < dy (M / 2 ^ S) (e + S) + dy (M / 2 ^ S + 1) (e + S))%Q.
Proof.
  intros HM HS. pow_pos 2 (S - 1). assert (PS : 2 ^ S = 2 * 2 ^ (S - 1)) by (rewrite <- Z.pow_succ_r by lia; f_equal; lia).
  set (p := 2 ^ (S - 1)) in *. assert (PQ : M / 2 ^ S = (M / p) / 2) by (rewrite PS, Z.mul_comm; rewrite Z.div_div by lia; reflexivity).
  rewrite PQ. set (t := M / p). pose proof (Z.div_mod M p ltac:(lia)) as DM. pose proof (Z.mod_pos_bound M p ltac:(lia)) as MB. fold t in DM.
  pose proof (Z.div_mod t 2 ltac:(lia)) as DT. pose proof (Z.mod_pos_bound t 2 ltac:(lia)) as MT.
  set (G := t / 2) in *. set (r := t mod 2) in *. set (m := M mod p) in *. clearbody G r m.
  pose proof (dy_pow G e S ltac:(lia)) as E1. pose proof (dy_pow (G + 1) e S ltac:(lia)) as E2.
  assert (EE : (2 * dy M e == dy (2 * M) e)%Q).
  { unfold dy. rewrite inject_Z_mult. change (inject_Z 2) with 2%Q. ring. }
  split; [rewrite <- E1, PS; apply dy_le; nia|]. split; [rewrite <- E2, PS; apply dy_lt; nia|].
  destruct (Z.eqb_spec r 1); rewrite <- E1, <- E2, dy_add, EE, PS; [apply dy_le; nia|apply dy_lt]. assert (r = 0) by lia. nia.
Qed.

(** The conversion of a number M 2^(e-15-FB), with M in [2^FB, 2^(FB+1)). *)
Lemma round_normal s M e FB : 11 <= FB -> 2 ^ FB <= M < 2 ^ (FB + 1) -> 1 <= e <= 30 ->
  half_away (sgq s (dy M (e - 15 - FB)))
    (e * 1024 + (M / 2 ^ (FB - 10) - 1024) + (if (M / 2 ^ (FB - 11)) mod 2 =? 1 then 1 else 0) + (if s then 2 ^ 15 else 0)).
Proof.
  intros HF HM HE. pow_pos 2 FB.
  destruct (cut_bits M (e - 15 - FB) (FB - 10) ltac:(lia) ltac:(lia)) as (L & U & R).
  replace (e - 15 - FB + (FB - 10)) with (e - 25) in * by lia. replace (FB - 10 - 1) with (FB - 11) in R by lia.
  pow_pos 2 (FB - 10). assert (PF : 2 ^ FB = 1024 * 2 ^ (FB - 10)) by (change 1024 with (2 ^ 10); rewrite <- Z.pow_add_r by lia; f_equal; lia).
  rewrite Z.pow_add_r in HM by lia. change (2 ^ 1) with 2 in HM.
  assert (D1 : 1024 <= M / 2 ^ (FB - 10)) by (apply Z.div_le_lower_bound; lia).
  assert (D2 : M / 2 ^ (FB - 10) < 2048) by (apply Z.div_lt_upper_bound; lia).
  set (t := M / 2 ^ (FB - 10)) in *.
  assert (V : (hv (e * 1024 + (t - 1024)) == dy t (e - 25))%Q) by (rewrite hv_normal by lia; replace (1024 + (t - 1024)) with t by lia; reflexivity).
  assert (V1 : (hv (e * 1024 + (t - 1024) + 1) == dy (t + 1) (e - 25))%Q).
  { rewrite <- Z.add_assoc. rewrite hv_normal' by lia. replace (1024 + (t - 1024 + 1)) with (t + 1) by lia. reflexivity. }
  apply floor_round; [lia|rewrite V; exact L|rewrite V1; exact U|].
  destruct ((M / 2 ^ (FB - 11)) mod 2 =? 1); rewrite V, V1; exact R.
Qed.
Lemma round_subnormal s M e FB : 11 <= FB -> 2 ^ FB <= M < 2 ^ (FB + 1) -> e <= 0 ->
  half_away (sgq s (dy M (e - 15 - FB)))
    (M / 2 ^ (FB - 9 - e) + (if (M / 2 ^ (FB - 10 - e)) mod 2 =? 1 then 1 else 0) + (if s then 2 ^ 15 else 0)).
Proof.
  intros HF HM HE. pow_pos 2 FB.
  destruct (cut_bits M (e - 15 - FB) (FB - 9 - e) ltac:(lia) ltac:(lia)) as (L & U & R).
  replace (e - 15 - FB + (FB - 9 - e)) with (-24) in * by lia. replace (FB - 9 - e - 1) with (FB - 10 - e) in R by lia.
  pow_pos 2 (FB - 9 - e).
  assert (D1 : 0 <= M / 2 ^ (FB - 9 - e)) by (apply Z.div_pos; lia).
  assert (D2 : M / 2 ^ (FB - 9 - e) < 1024).
  { apply Z.div_lt_upper_bound; [lia|]. change 1024 with (2 ^ 10). rewrite <- Z.pow_add_r by lia.
    assert (2 ^ (FB + 1) <= 2 ^ (FB - 9 - e + 10)) by (apply Z.pow_le_mono_r; lia). lia. }
  set (t := M / 2 ^ (FB - 9 - e)) in *.
  pose proof (hv_low t ltac:(lia)) as V. pose proof (hv_low (t + 1) ltac:(lia)) as V1.
  apply floor_round; [lia|rewrite V; exact L|rewrite V1; exact U|].
  destruct ((M / 2 ^ (FB - 10 - e)) mod 2 =? 1); rewrite V, V1; exact R.
Qed.
Lemma round_tiny s q : (0 <= q)%Q -> (2 * q < pow2 (-24))%Q -> half_away (sgq s q) (if s then 2 ^ 15 else 0).
Proof.
  intros P L. apply (floor_round s q 0 false); [lia| | |]; rewrite ?(mval_0 5 10 fmt_h); change (0 + 1) with 1; rewrite ?hv_low by lia.
  - assumption.
  - unfold dy. change (inject_Z 1) with 1%Q. lra.
  - unfold dy. change (inject_Z 1) with 1%Q. lra.
Qed.
Lemma round_huge s q : (65536 <= q)%Q -> half_away (sgq s q) (31744 + (if s then 2 ^ 15 else 0)).
Proof.
  intros L. unfold half_away. pose proof (ieee_codetop 5 10 fmt_h s) as I. change ((2 ^ 5 - 1) * 2 ^ 10) with 31744 in I.
  change (2 ^ (5 + 10)) with (2 ^ 15) in I. rewrite I, sgq_abs by lra. split; [lra|].
  destruct s; cbn [sgq]; split; intros H; try discriminate H; try lra; reflexivity.
Qed.
