(** Bit strings of posits. *)
From Coq Require Import ZArith QArith Qabs Lia Lqa Bool List.
From Verif Require Import Res CInt Bits Cfg Unpacked Posit Spec SpecBits QPow SpecLemmas Core DecodeProof Final1 Final4 Misc1 Conv3 Acc3.
Import ListNotations.
Open Scope Z_scope.

Lemma num_app l : forall acc l', num acc (l ++ l') = num (num acc l) l'.
Proof. induction l as [|b l IH]; intros; cbn [num app]; [reflexivity|apply IH]. Qed.
Lemma num_acc l : forall acc, num acc l = acc * 2 ^ Z.of_nat (length l) + num 0 l.
Proof.
  induction l as [|b l IH]; intros; cbn [num length]; [change (2 ^ Z.of_nat 0) with 1; lia|].
  rewrite IH. rewrite (IH (2 * 0 + _)). replace (Z.of_nat (S (length l))) with (Z.of_nat (length l) + 1) by lia.
  rewrite Z.pow_add_r by lia. change (2 ^ 1) with 2. ring.
Qed.
Lemma num_range l : 0 <= num 0 l < 2 ^ Z.of_nat (length l).
Proof.
  induction l as [|b l IH]; cbn [num length]; [change (2 ^ Z.of_nat 0) with 1; lia|].
  rewrite num_acc. replace (Z.of_nat (S (length l))) with (Z.of_nat (length l) + 1) by lia.
  rewrite Z.pow_add_r by lia. change (2 ^ 1) with 2. destruct b; lia.
Qed.
Lemma bits_num l : bits_of (length l) (num 0 l) = l.
Proof.
  induction l as [|b l IH]; [reflexivity|]. cbn [num length]. rewrite num_acc. pose proof (num_range l).
  change (S (length l)) with (1 + length l)%nat. rewrite bits_of_app by lia. rewrite IH. destruct b; reflexivity.
Qed.
Lemma bits_mod n v : bits_of n (v mod 2 ^ Z.of_nat n) = bits_of n v.
Proof.
  pow_pos 2 (Z.of_nat n). pose proof (Z.mod_pos_bound v (2 ^ Z.of_nat n) H).
  rewrite <- (bits_of_low n (v / 2 ^ Z.of_nat n) (v mod 2 ^ Z.of_nat n) H0 n (le_n n)).
  f_equal. pose proof (Z.div_mod v (2 ^ Z.of_nat n)). lia.
Qed.
Lemma bits_inj n v w : bits_of n v = bits_of n w -> v mod 2 ^ Z.of_nat n = w mod 2 ^ Z.of_nat n.
Proof.
  intros E. pow_pos 2 (Z.of_nat n). rewrite <- (bits_mod n v), <- (bits_mod n w) in E.
  pose proof (Z.mod_pos_bound v (2 ^ Z.of_nat n) H). pose proof (Z.mod_pos_bound w (2 ^ Z.of_nat n) H).
  apply (f_equal (num 0)) in E. rewrite !num_bits in E by assumption. lia.
Qed.

Lemma skipn_bits a (x y : list bool) : length x = a -> skipn a (x ++ y) = y.
Proof. intros <-. rewrite skipn_app, skipn_all, Nat.sub_diag. reflexivity. Qed.
Lemma firstn_bits a (x y : list bool) : length x = a -> firstn a (x ++ y) = x.
Proof. intros <-. rewrite firstn_app, firstn_all, Nat.sub_diag, app_nil_r. reflexivity. Qed.

Lemma body_fields es k e m f : 0 <= e < 2 ^ Z.of_nat es -> 0 <= f < 2 ^ Z.of_nat m ->
  (body_value es (regime_bits k ++ bits_of es e ++ bits_of m f) == pow2 (k * 2 ^ Z.of_nat es + e) * (1 + inject_Z f / pow2 (Z.of_nat m)))%Q.
Proof.
  intros He Hf. unfold regime_bits.
  assert (G : forall b r, (0 < r)%nat -> (if b : bool then Z.of_nat r - 1 else - Z.of_nat r) = k ->
    (body_value es ((repeat b r ++ [negb b]) ++ bits_of es e ++ bits_of m f) == pow2 (k * 2 ^ Z.of_nat es + e) * (1 + inject_Z f / pow2 (Z.of_nat m)))%Q).
  { intros b r R K. rewrite <- app_assoc. destruct r as [|r]; [lia|]. cbn [repeat app]. unfold body_value.
    change (b :: repeat b r ++ negb b :: bits_of es e ++ bits_of m f) with (repeat b (S r) ++ negb b :: bits_of es e ++ bits_of m f).
    rewrite run_repeat, skipn_repeat_app. cbv zeta. rewrite <- app_assoc, firstn_bits by apply bits_of_len. rewrite skipn_bits by apply bits_of_len.
    rewrite !num_bits by assumption. rewrite bits_of_len, K, !Z.mul_0_l, !Z.add_0_l. reflexivity. }
  destruct (Z.leb_spec 0 k).
  - apply (G true); lia.
  - apply (G false); lia.
Qed.

Section E.
Variable c : cfg.
Hypothesis V : valid_cfg c.

Lemma N_split : Z.to_nat (cN c) = (1 + Z.to_nat (cN c - 1))%nat.
Proof using V. vcb V. lia. Qed.
Lemma pow_N : 2 ^ cN c = 2 * 2 ^ (cN c - 1).
Proof using V. vcb V. replace (cN c) with (cN c - 1 + 1) at 1 by lia. apply pow2_S. lia. Qed.

(** Patterns are told apart by their bits. *)
Lemma all_bits_inj v w : - 2 ^ (cN c - 1) <= v < 2 ^ (cN c - 1) -> - 2 ^ (cN c - 1) <= w < 2 ^ (cN c - 1) -> all_bits c v = all_bits c w -> v = w.
Proof using V.
  intros A B E. vcb V. apply bits_inj in E. rewrite Z2Nat.id in E by lia. rewrite pow_N in E. pow_pos 2 (cN c - 1).
  pose proof (Z.div_mod v (2 * 2 ^ (cN c - 1)) ltac:(lia)). pose proof (Z.div_mod w (2 * 2 ^ (cN c - 1)) ltac:(lia)).
  assert (2 * 2 ^ (cN c - 1) * (v / (2 * 2 ^ (cN c - 1)) - w / (2 * 2 ^ (cN c - 1))) = v - w) by lia.
  set (d := v / (2 * 2 ^ (cN c - 1)) - w / (2 * 2 ^ (cN c - 1))) in *. assert (d = 0) by nia. nia.
Qed.

Lemma all_bits_pos l : Z.of_nat (length l) = cN c - 1 -> all_bits c (num 0 l) = false :: l.
Proof using V.
  intros L. unfold all_bits. rewrite N_split, <- L, Nat2Z.id. pose proof (num_range l).
  rewrite <- (Z.add_0_l (num 0 l)), <- (Z.mul_0_l (2 ^ Z.of_nat (length l))), bits_of_app by assumption. rewrite bits_num. reflexivity.
Qed.

Lemma enc_fields v k e m f :
  real c v -> 0 <= e < 2 ^ ces c -> 0 <= m -> 0 <= f < 2 ^ m -> Z.of_nat (length (regime_bits k)) + 1 + ces c + m = cN c ->
  (value c v == pow2 (k * 2 ^ ces c + e) * (1 + inject_Z f / pow2 m))%Q <->
  all_bits c v = false :: regime_bits k ++ bits_of (Z.to_nat (ces c)) e ++ bits_of (Z.to_nat m) f.
Proof using V.
  intros R He Hm Hf L. vcb V. set (l := regime_bits k ++ bits_of (Z.to_nat (ces c)) e ++ bits_of (Z.to_nat m) f).
  assert (Ll : Z.of_nat (length l) = cN c - 1) by (unfold l; rewrite !app_length, !bits_of_len; lia).
  pose proof (num_range l) as NR. rewrite Ll in NR. set (w := num 0 l) in *.
  assert (W : (body_value (Z.to_nat (ces c)) l == pow2 (k * 2 ^ ces c + e) * (1 + inject_Z f / pow2 m))%Q).
  { unfold l. rewrite body_fields by (rewrite Z2Nat.id by lia; assumption). rewrite !Z2Nat.id by lia. reflexivity. }
  assert (W0 : w <> 0).
  { intros E. assert (B : bits_of (length l) w = l) by apply bits_num. rewrite E, bits_of_zero in B.
    assert (T : In true l).
    { unfold l, regime_bits. apply in_or_app. left. destruct (Z.leb_spec 0 k).
      - replace (Z.to_nat (k + 1)) with (S (Z.to_nat k)) by lia. left. reflexivity.
      - apply in_or_app. right. left. reflexivity. }
    rewrite <- B in T. apply repeat_spec in T. discriminate. }
  assert (VW : (value c w == body_value (Z.to_nat (ces c)) l)%Q).
  { unfold value. destruct (Z.eqb_spec w 0); [lia|]. destruct (Z.ltb_spec w 0); [lia|].
    replace (Z.to_nat (cN c - 1)) with (length l) by lia. unfold w. rewrite bits_num. reflexivity. }
  pose proof (real_bounds c BN Bes v R) as RB. rewrite <- (all_bits_pos l Ll). fold w. split.
  - intros E. f_equal. apply (value_inj c BN Bes); [lia|lia|]. rewrite E, VW, W. reflexivity.
  - intros E. apply all_bits_inj in E; [|lia|lia]. rewrite E, VW, W. reflexivity.
Qed.

Lemma pow2_inv_1 m : (1 + inject_Z 0 / pow2 m == 1)%Q.
Proof using. unfold Qdiv. rewrite Qmult_0_l. ring. Qed.

Lemma enc_two_of k e : 0 <= e < 2 ^ ces c -> Z.of_nat (length (regime_bits k)) + 1 + ces c <= cN c -> forall v, real c v ->
  (value c v == pow2 (k * 2 ^ ces c + e))%Q <->
  all_bits c v = false :: regime_bits k ++ bits_of (Z.to_nat (ces c)) e ++ zeros (cN c - 1 - ces c - Z.of_nat (length (regime_bits k))).
Proof using V.
  intros He L v R. vcb V. set (m := cN c - 1 - ces c - Z.of_nat (length (regime_bits k))). pow_pos 2 m.
  pose proof (enc_fields v k e m 0 R He ltac:(unfold m; lia) ltac:(lia) ltac:(unfold m; lia)) as F.
  rewrite pow2_inv_1, Qmult_1_r in F. rewrite bits_of_zero in F. exact F.
Qed.

Lemma zeros_app a b : 0 <= a -> 0 <= b -> zeros a ++ zeros b = zeros (a + b).
Proof using. intros. unfold zeros. rewrite <- repeat_app. f_equal. lia. Qed.
Lemma zeros_S a : 0 <= a -> false :: zeros a = zeros (1 + a).
Proof using. intros. unfold zeros. replace (Z.to_nat (1 + a)) with (S (Z.to_nat a)) by lia. reflexivity. Qed.

Lemma enc_one v : real c v -> (value c v == 1)%Q <-> all_bits c v = [false; true] ++ zeros (cN c - 2).
Proof using V.
  intros R. vcb V. pow_pos 2 (ces c).
  pose proof (enc_two_of 0 0 ltac:(lia) ltac:(change (Z.of_nat (length (regime_bits 0))) with 2; lia) v R) as F.
  change (pow2 (0 * 2 ^ ces c + 0)) with 1%Q in F. rewrite bits_of_zero in F. fold (zeros (ces c)) in F.
  change (regime_bits 0) with [true; false] in F. change (Z.of_nat (length [true; false])) with 2 in F. cbn [app] in F.
  rewrite zeros_app, zeros_S in F by lia. replace (1 + (ces c + (cN c - 1 - ces c - 2))) with (cN c - 2) in F by lia. exact F.
Qed.

Lemma bits_1 n : bits_of (S n) 1 = repeat false n ++ [true].
Proof using.
  replace (S n) with (n + 1)%nat by lia. change 1 with (0 * 2 ^ Z.of_nat 1 + 1) at 1. rewrite bits_of_app by (change (2 ^ Z.of_nat 1) with 2; lia).
  rewrite bits_of_zero. reflexivity.
Qed.

Lemma enc_two v : real c v -> (value c v == 2)%Q <-> all_bits c v = [false; true] ++ zeros (ces c) ++ [true] ++ zeros (cN c - 3 - ces c).
Proof using V.
  intros R. vcb V. destruct (Z.eq_dec (ces c) 0) as [E|E].
  - destruct (Z.eq_dec (cN c) 3) as [E3|E3].
    { (* 011: the regime is not ended *)
      assert (W : (value c 3 == 2)%Q) by (unfold value; rewrite E3, E; vm_compute; reflexivity).
      pose proof (real_bounds c BN Bes v R) as RB. rewrite E3 in RB. change (2 ^ (3 - 1)) with 4 in RB.
      assert (A3 : all_bits c 3 = [false; true] ++ zeros (ces c) ++ [true] ++ zeros (cN c - 3 - ces c)) by (unfold all_bits; rewrite E3, E; reflexivity).
      rewrite <- A3. split; intros Q0.
      - f_equal. apply (value_inj c BN Bes); rewrite ?E3; change (2 ^ (3 - 1)) with 4; [lia|lia|]. rewrite Q0, W. reflexivity.
      - apply all_bits_inj in Q0; rewrite ?E3; change (2 ^ (3 - 1)) with 4; [|lia|lia]. rewrite Q0. exact W. }
    pose proof (enc_two_of 1 0 ltac:(rewrite E; lia) ltac:(change (Z.of_nat (length (regime_bits 1))) with 3; lia) v R) as F.
    rewrite E in F |- *. change (pow2 (1 * 2 ^ 0 + 0)) with 2%Q in F. change (Z.to_nat 0) with 0%nat in F.
    change (regime_bits 1) with [true; true; false] in F. change (Z.of_nat (length [true; true; false])) with 3 in F. cbn [app bits_of] in F.
    rewrite zeros_S in F by lia. replace (1 + (cN c - 1 - 0 - 3)) with (cN c - 3 - 0) in F by lia. exact F.
  - assert (2 ^ 1 <= 2 ^ ces c) by (apply Z.pow_le_mono_r; lia). change (2 ^ 1) with 2 in H.
    pose proof (enc_two_of 0 1 ltac:(lia) ltac:(change (Z.of_nat (length (regime_bits 0))) with 2; lia) v R) as F.
    change (pow2 (0 * 2 ^ ces c + 1)) with 2%Q in F.
    change (regime_bits 0) with [true; false] in F. change (Z.of_nat (length [true; false])) with 2 in F.
    replace (Z.to_nat (ces c)) with (S (Z.to_nat (ces c - 1))) in F by lia. rewrite bits_1 in F. fold (zeros (ces c - 1)) in F.
    cbn [app] in F |- *. rewrite <- app_assoc, app_comm_cons, zeros_S in F by lia.
    replace (1 + (ces c - 1)) with (ces c) in F by lia. replace (cN c - 1 - ces c - 2) with (cN c - 3 - ces c) in F by lia. exact F.
Qed.

Lemma enc_half v : real c v -> (value c v == 1 # 2)%Q <-> all_bits c v = [false; false; true] ++ ones (ces c) ++ zeros (cN c - 3 - ces c).
Proof using V.
  intros R. vcb V. pow_pos 2 (ces c).
  pose proof (enc_two_of (-1) (2 ^ ces c - 1) ltac:(lia) ltac:(change (Z.of_nat (length (regime_bits (-1)))) with 2; lia) v R) as F.
  replace (-1 * 2 ^ ces c + (2 ^ ces c - 1)) with (-1) in F by lia. change (pow2 (-1)) with (1 # 2)%Q in F.
  replace (2 ^ ces c) with (2 ^ Z.of_nat (Z.to_nat (ces c))) in F by (rewrite Z2Nat.id by lia; reflexivity). rewrite bits_of_ones in F.
  change (regime_bits (-1)) with [false; true] in F. change (Z.of_nat (length [false; true])) with 2 in F.
  replace (cN c - 1 - ces c - 2) with (cN c - 3 - ces c) in F by lia. exact F.
Qed.

(** 001(0)+, the pattern the README gives for one. *)
Lemma enc_readme v : real c v -> all_bits c v = [false; false; true] ++ zeros (cN c - 3) -> (value c v == pow2 (- 2 ^ ces c))%Q.
Proof using V.
  intros R. vcb V. pow_pos 2 (ces c).
  pose proof (enc_two_of (-1) 0 ltac:(lia) ltac:(change (Z.of_nat (length (regime_bits (-1)))) with 2; lia) v R) as F.
  replace (-1 * 2 ^ ces c + 0) with (- 2 ^ ces c) in F by lia. rewrite bits_of_zero in F. fold (zeros (ces c)) in F.
  change (regime_bits (-1)) with [false; true] in F. change (Z.of_nat (length [false; true])) with 2 in F. cbn [app] in F |- *.
  rewrite zeros_app in F by lia. replace (ces c + (cN c - 1 - ces c - 2)) with (cN c - 3) in F by lia. apply F.
Qed.

(** The bit after the sign. *)
Lemma second_bit v : real c v -> 0 < v -> (1 <= value c v)%Q <-> exists l, all_bits c v = false :: true :: l.
Proof using V.
  intros R P. vcb V. pose proof (real_bounds c BN Bes v R) as RB.
  assert (P1 : 2 ^ (cN c - 1) = 2 * 2 ^ (cN c - 2)) by (replace (cN c - 1) with (cN c - 2 + 1) by lia; apply pow2_S; lia). pow_pos 2 (cN c - 2).
  rewrite <- (value_one c V).
  assert (L : (value c (2 ^ (cN c - 2)) <= value c v)%Q <-> 2 ^ (cN c - 2) <= v).
  { split; intros Q0; [apply (value_le_inv c BN Bes); [lia|lia|exact Q0]|apply (value_le c BN Bes); lia]. }
  rewrite L. unfold all_bits. replace (Z.to_nat (cN c)) with (S (S (Z.to_nat (cN c - 2)))) by lia. cbn [bits_of].
  replace (Z.of_nat (S (Z.to_nat (cN c - 2)))) with (cN c - 1) by lia. rewrite Z2Nat.id by lia.
  assert (T0 : Z.testbit v (cN c - 1) = false).
  { apply Z.bits_above_log2; [lia|]. apply Z.log2_lt_pow2; lia. }
  assert (T1 : Z.testbit v (cN c - 2) = (2 ^ (cN c - 2) <=? v)).
  { rewrite Z.testbit_eqb by lia. destruct (Z.leb_spec (2 ^ (cN c - 2)) v).
    - replace (v / 2 ^ (cN c - 2)) with 1; [reflexivity|]. apply (Z.div_unique _ _ _ (v - 2 ^ (cN c - 2))); lia.
    - rewrite Z.div_small by lia. reflexivity. }
  rewrite T0, T1. split.
  - intros Q0. exists (bits_of (Z.to_nat (cN c - 2)) v). rewrite (proj2 (Z.leb_le _ _) Q0). reflexivity.
  - intros [l Q0]. injection Q0 as Q0 _. apply Z.leb_le, Q0.
Qed.

(** Every string of fields is the string of a posit. *)
Lemma enc_real k e m f :
  0 <= e < 2 ^ ces c -> 0 <= m -> 0 <= f < 2 ^ m -> Z.of_nat (length (regime_bits k)) + 1 + ces c + m = cN c ->
  exists v, real c v /\ all_bits c v = false :: regime_bits k ++ bits_of (Z.to_nat (ces c)) e ++ bits_of (Z.to_nat m) f.
Proof using V.
  intros He Hm Hf L. vcb V. set (l := regime_bits k ++ bits_of (Z.to_nat (ces c)) e ++ bits_of (Z.to_nat m) f).
  assert (Ll : Z.of_nat (length l) = cN c - 1) by (unfold l; rewrite !app_length, !bits_of_len; lia).
  pose proof (num_range l) as NR. rewrite Ll in NR. exists (num 0 l). split; [|apply all_bits_pos, Ll].
  assert (num 0 l <> 2 ^ (cN c - 1) - 1).
  { intros E. assert (B : bits_of (length l) (num 0 l) = l) by apply bits_num. rewrite E, <- Ll, bits_of_ones in B.
    assert (T : In false l).
    { unfold l, regime_bits. apply in_or_app. left. destruct (Z.leb_spec 0 k).
      - apply in_or_app. right. left. reflexivity.
      - replace (Z.to_nat (- k)) with (S (Z.to_nat (- k - 1))) by lia. left. reflexivity. }
    rewrite <- B in T. apply repeat_spec in T. discriminate. }
  unfold real, maxreal. destruct (csp c); lia.
Qed.

(** Constructing a posit from an unpacked number that has an encoding gives that encoding. *)
Lemma enc_build k e m f r :
  exp_ok c -> 0 <= e < 2 ^ ces c -> 0 <= m <= cF c -> 0 <= f < 2 ^ m -> Z.of_nat (length (regime_bits k)) + 1 + ces c + m = cN c ->
  pack_posit c (U Regular false (k * 2 ^ ces c + e) (f * 2 ^ (cF c - m))) = Ok r ->
  all_bits c r = false :: regime_bits k ++ bits_of (Z.to_nat (ces c)) e ++ bits_of (Z.to_nat m) f.
Proof using V.
  intros X He Hm Hf L E. vcb V. destruct (enc_real k e m f He ltac:(lia) Hf L) as [v [R A]]. rewrite <- A. f_equal.
  assert (PF : 2 ^ cF c = 2 ^ m * 2 ^ (cF c - m)) by (rewrite <- Z.pow_add_r by lia; f_equal; lia). pow_pos 2 (cF c - m).
  apply pack_value in E; [|assumption|assumption|rewrite PF; split; [nia|apply Z.mul_lt_mono_pos_r; lia]].
  apply (rounds_tz_unique c BN Bes (value c v)); [|apply rounds_tz_exact; assumption].
  eapply rounds_tz_comp; try eassumption. unfold uvalue. apply (proj2 (enc_fields v k e m f R He ltac:(lia) Hf L)) in A. rewrite A.
  assert (Q0 : (inject_Z (f * 2 ^ (cF c - m)) / pow2 (cF c) == inject_Z f / pow2 m)%Q).
  { rewrite inject_Z_mult, <- pow2_Z by lia.
    assert (P2 : (pow2 (cF c) == pow2 m * pow2 (cF c - m))%Q) by (rewrite <- pow2_plus; replace (m + (cF c - m)) with (cF c) by lia; reflexivity).
    rewrite P2. pose proof (pow2_nz m). pose proof (pow2_nz (cF c - m)). field. split; assumption. }
  rewrite Q0. ring.
Qed.

(** The constructor from int. *)
Lemma enc_int i w r : exp_ok c -> frac_fits c \/ 32 <= cF c -> - 2 ^ 31 < i < 2 ^ 31 -> real c w -> (value c w == inject_Z i)%Q -> p_of_int c i = Ok r -> r = w.
Proof using V.
  intros X Ff I R E P. vcb V. destruct (of_int c i V X Ff I) as [A B].
  assert (RT : rounds_tz c (inject_Z i) r).
  { destruct (room_or c (inject_Z i) V) as [D|D]; [destruct (A D) as [r' [P' T]]; congruence|rewrite (B D) in P; discriminate]. }
  apply (rounds_tz_unique c BN Bes (value c w)); [|apply rounds_tz_exact; assumption].
  eapply rounds_tz_comp; try eassumption. rewrite E. reflexivity.
Qed.

Lemma enc_ints r : exp_ok c -> frac_fits c \/ 32 <= cF c ->
  (p_of_int c 1 = Ok r -> all_bits c r = [false; true] ++ zeros (cN c - 2)) /\
  (p_of_int c 2 = Ok r -> csp c <> WithNanInf \/ cN c <> 3 -> all_bits c r = [false; true] ++ zeros (ces c) ++ [true] ++ zeros (cN c - 3 - ces c)).
Proof using V.
  intros X Ff. assert (1 < 2 ^ 30) by reflexivity. pose proof (constants c V) as (_ & O1 & _ & T1 & _ & O2 & _ & T2 & _). split.
  - intros P. rewrite (enc_int 1 (p_one c) r X Ff ltac:(lia) O2 O1 P). apply enc_one; assumption.
  - intros P D. assert (R : real c (p_two c)) by (apply T2; intros E; destruct D; congruence).
    rewrite (enc_int 2 (p_two c) r X Ff ltac:(lia) R T1 P). apply enc_two; assumption.
Qed.
Lemma enc_named :
  all_bits c (p_one c) = [false; true] ++ zeros (cN c - 2) /\
  (csp c <> WithNanInf \/ cN c <> 3 -> all_bits c (p_two c) = [false; true] ++ zeros (ces c) ++ [true] ++ zeros (cN c - 3 - ces c)) /\
  (cH c = cN c -> all_bits c (p_onehalf c) = [false; false; true] ++ ones (ces c) ++ zeros (cN c - 3 - ces c)).
Proof using V.
  pose proof (constants c V) as (_ & O1 & _ & T1 & _ & O2 & _ & T2 & _). split; [apply enc_one; assumption|split].
  - intros D. apply enc_two; [apply T2; intros E; destruct D; congruence|assumption].
  - intros E. destruct (onehalf_exact c V E). apply enc_half; assumption.
Qed.
End E.
