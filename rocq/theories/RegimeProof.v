(** Proofs about tests/testregime.cpp. *)
From Coq Require Import ZArith QArith Qabs Lia Lqa Bool List.
From Verif Require Import Res CInt Bits Cfg Spec QPow SpecLemmas Core Arith DecodeProof EncProof Regime.
Import ListNotations.
Open Scope Z_scope.

Lemma run_false x : 0 < x < 2 ^ 32 -> Z.of_nat (run false (bits_of 32 x)) = 31 - Z.log2 x.
Proof.
  intros B. destruct (Z.log2_spec x ltac:(lia)) as [L1 L2]. pose proof (Z.log2_nonneg x).
  assert (L : Z.log2 x < 32) by (apply Z.log2_lt_pow2; lia). set (g := Z.log2 x) in *.
  assert (E : bits_of 32 x = repeat false (Z.to_nat (31 - g)) ++ negb false :: bits_of (Z.to_nat g) (x - 2 ^ g)).
  { replace 32%nat with (Z.to_nat (31 - g) + S (Z.to_nat g))%nat by lia.
    replace x with (0 * 2 ^ Z.of_nat (S (Z.to_nat g)) + (1 * 2 ^ Z.of_nat (Z.to_nat g) + (x - 2 ^ g))) at 1 by (rewrite Z2Nat.id by lia; lia).
    rewrite Z.pow_succ_r in L2 by lia.
    rewrite bits_of_app.
    2:{ replace (Z.of_nat (S (Z.to_nat g))) with (g + 1) by lia. rewrite Z2Nat.id by lia. rewrite pow2_S by lia. lia. }
    rewrite bits_of_zero. f_equal. change (S (Z.to_nat g)) with (1 + Z.to_nat g)%nat. rewrite bits_of_app by (rewrite Z2Nat.id by lia; lia). reflexivity. }
  rewrite E, run_repeat. lia.
Qed.

Lemma run_negb b l : run (negb b) (map negb l) = run b l.
Proof. induction l as [|x l IH]; cbn [map run]; [reflexivity|]. rewrite IH. destruct x, b; reflexivity. Qed.
Lemma bits_lnot n z : bits_of n (Z.lnot z) = map negb (bits_of n z).
Proof. induction n as [|n IH]; cbn [bits_of map]; [reflexivity|]. rewrite Z.lnot_spec by lia. now f_equal. Qed.

Lemma rg_sign p : - 2 ^ 31 <= p < 2 ^ 31 -> negb (cand p RG_INVERTBIT =? 0) = (p <? 0).
Proof.
  intros B. unfold cand, RG_INVERTBIT.
  destruct (Z.ltb_spec p 0).
  - destruct (Z.eqb_spec (Z.land p (- 2 ^ 31)) 0) as [E|]; [|reflexivity].
    exfalso. assert (T : Z.testbit (Z.land p (- 2 ^ 31)) 31 = true).
    { rewrite Z.land_spec. apply andb_true_iff. split; [|reflexivity].
      replace p with (Z.lnot (Z.lnot p)) by apply Z.lnot_involutive. rewrite Z.lnot_spec by lia. apply negb_true_iff.
      unfold Z.lnot. destruct (Z.eq_dec (Z.pred (- p)) 0) as [->|]; [reflexivity|]. apply Z.bits_above_log2; [lia|]. apply Z.log2_lt_pow2; lia. }
    rewrite E in T. discriminate.
  - assert (E : Z.land p (- 2 ^ 31) = 0).
    { apply Z.bits_inj'. intros i Hi. rewrite Z.land_spec, Z.testbit_0_l.
      destruct (Z.ltb_spec i 31).
      - replace (- 2 ^ 31) with (-1 * 2 ^ 31) by reflexivity. rewrite Z.mul_pow2_bits_low by lia. apply andb_false_r.
      - destruct (Z.eq_dec p 0) as [->|]; [rewrite Z.testbit_0_l; reflexivity|]. rewrite Z.bits_above_log2; [reflexivity|lia|].
        assert (Z.log2 p < 31) by (apply Z.log2_lt_pow2; lia). lia. }
    rewrite E. reflexivity.
Qed.

Lemma extract_run p : - 2 ^ 31 <= p < 2 ^ 31 ->
  rg_extract p = Ok (let b := p <? 0 in let r := Z.of_nat (run b (bits_of 32 p)) in (if b then r - 1 else - r, Z.min 32 (r + 1))).
Proof.
  intros B. unfold rg_extract. rewrite rg_sign by assumption. cbv zeta. unfold cnot. cbn [isg sint]. unfold RG_SIZE.
  assert (W : is_width 32) by (right; right; left; reflexivity).
  assert (G : forall q, 0 <= q < 2 ^ 31 ->
    (if q =? 0 then Ok 32 else findbitleftmostC 32 (cast (uint 32) q)) = Ok (Z.of_nat (run false (bits_of 32 q))) /\ 0 <= Z.of_nat (run false (bits_of 32 q)) <= 32).
  { intros q Q0. destruct (Z.eqb_spec q 0) as [->|NZ]; [split; [reflexivity|vm_compute; split; discriminate]|].
    assert (C : cast (uint 32) q = q) by (unfold cast, wrapu; cbn [isg iw uint]; apply Z.mod_small; lia).
    rewrite C, clz_spec by (assumption || lia). rewrite run_false by lia. pose proof (Z.log2_nonneg q). assert (Z.log2 q < 31) by (apply Z.log2_lt_pow2; lia).
    split; [f_equal|]; lia. }
  destruct (Z.ltb_spec p 0).
  - assert (Q0 : 0 <= Z.lnot p < 2 ^ 31) by (unfold Z.lnot; lia). destruct (G _ Q0) as [E I]. rewrite E. cbn [bind].
    rewrite bits_lnot in *. change false with (negb true) in I |- *. rewrite run_negb in I |- *. set (r := Z.of_nat (run true (bits_of 32 p))) in *.
    destruct (Z.ltb_spec 32 r); [lia|]. destruct (Z.eqb_spec r 32); do 2 f_equal; lia.
  - destruct (G p ltac:(lia)) as [E I]. rewrite E. cbn [bind]. set (r := Z.of_nat (run false (bits_of 32 p))) in *.
    destruct (Z.ltb_spec 32 r); [lia|]. destruct (Z.eqb_spec r 32); do 2 f_equal; lia.
Qed.

Lemma first_bit p : - 2 ^ 31 <= p < 2 ^ 31 -> exists l, bits_of 32 p = (p <? 0) :: l.
Proof.
  intros B. exists (bits_of 31 p). change 32%nat with (S 31). cbn [bits_of]. f_equal. change (Z.of_nat 31) with 31.
  destruct (Z.ltb_spec p 0).
  - replace p with (Z.lnot (Z.lnot p)) by apply Z.lnot_involutive. rewrite Z.lnot_spec by lia. apply negb_true_iff.
    unfold Z.lnot. destruct (Z.eq_dec (Z.pred (- p)) 0) as [->|]; [reflexivity|]. apply Z.bits_above_log2; [lia|]. apply Z.log2_lt_pow2; lia.
  - destruct (Z.eq_dec p 0) as [->|]; [reflexivity|]. apply Z.bits_above_log2; [lia|]. apply Z.log2_lt_pow2; lia.
Qed.

Lemma extract_ok p b l : - 2 ^ 31 <= p < 2 ^ 31 -> bits_of 32 p = b :: l ->
  let r := Z.of_nat (run b (b :: l)) in rg_extract p = Ok (if b then r - 1 else - r, Z.min 32 (r + 1)).
Proof.
  intros B E. rewrite extract_run by assumption. destruct (first_bit p B) as [l' E']. rewrite E in E'. injection E' as -> _. rewrite <- E. reflexivity.
Qed.

(** The regime of a posit brackets its value. *)
Lemma body_bracket es b l : let r := Z.of_nat (run b (b :: l)) in let k := if b then r - 1 else - r in
  (pow2 (k * 2 ^ Z.of_nat es) <= body_value es (b :: l))%Q /\ (body_value es (b :: l) < pow2 ((k + 1) * 2 ^ Z.of_nat es))%Q.
Proof.
  intros r k. unfold body_value. fold r. fold k. cbv zeta.
  set (rest := skipn _ _). set (eb := firstn es (rest ++ repeat false es)). set (fb := skipn es rest).
  assert (Le : length eb = es) by (unfold eb; rewrite firstn_length, app_length, repeat_length; lia).
  pose proof (num_range eb) as Ne. rewrite Le in Ne. pose proof (num_range fb) as Nf. set (m := Z.of_nat (length fb)) in *.
  set (f := (inject_Z (num 0 fb) / pow2 m)%Q). pose proof (pow2_pos m) as Pm.
  assert (F0 : (0 <= f)%Q) by (unfold f; apply Qle_shift_div_l; [assumption|]; rewrite Qmult_0_l; change 0%Q with (inject_Z 0); rewrite <- Zle_Qle; lia).
  assert (F1 : (f < 1)%Q) by (unfold f; apply Qlt_shift_div_r; [assumption|]; rewrite Qmult_1_l, pow2_Z by lia; rewrite <- Zlt_Qlt; lia).
  set (x := k * 2 ^ Z.of_nat es + num 0 eb). pose proof (pow2_pos x) as Px.
  assert (A1 : (pow2 (k * 2 ^ Z.of_nat es) <= pow2 x)%Q) by (apply pow2_le; unfold x; lia).
  assert (A2 : (2 * pow2 x <= pow2 ((k + 1) * 2 ^ Z.of_nat es))%Q).
  { assert (P1 : (2 * pow2 x == pow2 (1 + x))%Q) by (rewrite pow2_plus; reflexivity). rewrite P1. apply pow2_le. unfold x. rewrite Z.mul_add_distr_r. lia. }
  assert (M0 : (0 <= pow2 x * f)%Q) by (apply Qmult_le_0_compat; lra).
  assert (M1 : (pow2 x * f < pow2 x * 1)%Q) by (apply Qmult_lt_l; lra).
  split; lra.
Qed.

Lemma run_app_zeros b l n : In true (b :: l) -> run b ((b :: l) ++ repeat false n) = run b (b :: l).
Proof.
  intros T. destruct b.
  - assert (G : forall l, run true (l ++ repeat false n) = run true l).
    { induction l0 as [|x l0 IH]; [destruct n; reflexivity|]. cbn [app run]. rewrite IH. reflexivity. }
    apply G.
  - revert T. generalize (false :: l). induction l0 as [|x l0 IH]; intros T; [destruct T|]. cbn [app run].
    destruct x; [reflexivity|]. cbn [Bool.eqb]. f_equal. apply IH. destruct T; [discriminate|assumption].
Qed.

(** The word with the bits of the posit after the sign, followed by zeros. *)
Lemma extract_posit c v : valid_cfg c -> cN c <= 32 -> real c v -> 0 < v ->
  exists k rs, rg_extract (let w := v * 2 ^ (33 - cN c) in if w <? 2 ^ 31 then w else w - 2 ^ 32) = Ok (k, rs) /\
    (pow2 (k * 2 ^ ces c) <= value c v)%Q /\ (value c v < pow2 ((k + 1) * 2 ^ ces c))%Q.
Proof.
  intros V N R P. vcb V. pose proof (real_bounds c BN Bes v R) as RB. cbv zeta.
  set (w := v * 2 ^ (33 - cN c)). set (s := if w <? 2 ^ 31 then w else w - 2 ^ 32).
  pow_pos 2 (33 - cN c). assert (E32 : 2 ^ 32 = 2 ^ (cN c - 1) * 2 ^ (33 - cN c)) by (rewrite <- Z.pow_add_r by lia; f_equal; lia).
  assert (W : 0 <= w < 2 ^ 32) by (unfold w; rewrite E32; split; [nia|apply Z.mul_lt_mono_pos_r; lia]).
  assert (S0 : - 2 ^ 31 <= s < 2 ^ 31) by (unfold s; destruct (Z.ltb_spec w (2 ^ 31)); lia).
  assert (BS : bits_of 32 s = bits_of (Z.to_nat (cN c - 1)) v ++ repeat false (Z.to_nat (33 - cN c))).
  { assert (M : s mod 2 ^ Z.of_nat 32 = w).
    { change (Z.of_nat 32) with 32. unfold s. destruct (Z.ltb_spec w (2 ^ 31)); [apply Z.mod_small; lia|].
      replace (w - 2 ^ 32) with (w + -1 * 2 ^ 32) by lia. rewrite Z.mod_add by lia. apply Z.mod_small. lia. }
    rewrite <- bits_mod, M. unfold w. rewrite <- bits_of_zero.
    replace (v * 2 ^ (33 - cN c)) with (v * 2 ^ Z.of_nat (Z.to_nat (33 - cN c)) + 0) by (rewrite Z2Nat.id by lia; lia).
    rewrite <- bits_of_app by (rewrite Z2Nat.id by lia; lia). f_equal. lia. }
  assert (VL : value c v = body_value (Z.to_nat (ces c)) (bits_of (Z.to_nat (cN c - 1)) v)).
  { unfold value. destruct (Z.eqb_spec v 0); [lia|]. destruct (Z.ltb_spec v 0); [lia|]. reflexivity. }
  destruct (bits_of (Z.to_nat (cN c - 1)) v) as [|b l] eqn:EB.
  { apply (f_equal (@length bool)) in EB. rewrite bits_of_len in EB. cbn [length] in EB. lia. }
  assert (T : In true (b :: l)).
  { destruct (in_dec bool_dec true (b :: l)) as [|T]; [assumption|]. exfalso.
    assert (A : forall x, In x (b :: l) -> x = false) by (intros [] Hx; [contradiction|reflexivity]).
    apply Forall_forall in A. assert (A' := A). rewrite <- EB in A.
    assert (NV : num 0 (bits_of (Z.to_nat (cN c - 1)) v) = 0).
    { clear - A. revert A. generalize (bits_of (Z.to_nat (cN c - 1)) v). induction l as [|x l IH]; intros A; [reflexivity|]. inversion_clear A. subst x. exact (IH H0). }
    rewrite num_bits in NV by (rewrite Z2Nat.id by lia; lia). lia. }
  pose proof (body_bracket (Z.to_nat (ces c)) b l) as BB. cbv zeta in BB. rewrite Z2Nat.id in BB by lia.
  pose proof (extract_ok s b (l ++ repeat false (Z.to_nat (33 - cN c))) S0 BS) as X. cbv zeta in X. rewrite app_comm_cons, run_app_zeros in X by assumption.
  eexists _, _. split; [exact X|]. rewrite VL. exact BB.
Qed.
