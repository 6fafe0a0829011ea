(** The bit helpers of bithippop.hpp, bit by bit. *)
From Coq Require Import ZArith Lia Bool.
From Verif Require Import Res CInt Bits Cfg Core Arith Conv1.
Open Scope Z_scope.

Lemma clz_bounds w x : is_width w -> 0 < x < 2 ^ w ->
  exists n, findbitleftmostC w x = Ok n /\ 0 <= n < w /\ 2 ^ (w - 1 - n) <= x < 2 ^ (w - n).
Proof.
  intros W X. rewrite clz_spec by assumption. pose proof (is_width_pos w W).
  destruct (Z.log2_spec x ltac:(lia)) as [L1 L2].
  assert (0 <= Z.log2 x) by apply Z.log2_nonneg.
  assert (Z.log2 x < w) by (apply Z.log2_lt_pow2; lia).
  eexists. split; [reflexivity|]. split; [lia|].
  replace (w - 1 - (w - 1 - Z.log2 x)) with (Z.log2 x) by lia.
  replace (w - (w - 1 - Z.log2 x)) with (Z.succ (Z.log2 x)) by lia. lia.
Qed.
Lemma clz_zero w : is_width w -> findbitleftmostC w 0 = UB ClzZero.
Proof. intros [->|[->|[->| ->]]]; reflexivity. Qed.

Lemma ones_bits n i : 0 <= n -> 0 <= i -> Z.testbit (2 ^ n - 1) i = (i <? n).
Proof.
  intros N I. replace (2 ^ n - 1) with (Z.ones n) by (rewrite Z.ones_equiv; lia).
  destruct (Z.ltb_spec i n); [apply Z.ones_spec_low|apply Z.ones_spec_high]; lia.
Qed.
Lemma bitmask_bits w n : is_width w -> 0 < n <= w ->
  exists m, bitmask w n = Ok m /\ forall i, 0 <= i -> Z.testbit m i = (i <? n).
Proof.
  intros W N. rewrite bitmask_spec by assumption. eexists. split; [reflexivity|]. intros. apply ones_bits; lia.
Qed.
Lemma bitmask_none w : is_width w -> bitmask w 0 = if w <? 32 then Ok 0 else UB ShiftCount.
Proof. intros [->|[->|[->| ->]]]; reflexivity. Qed.
Lemma bitmask_over w n : is_width w -> w < n -> bitmask w n = UB ShiftCount.
Proof.
  intros W N. unfold bitmask. rewrite cshr_ub by (rewrite iw_prom_uint by assumption; lia). reflexivity.
Qed.

Lemma mod_bits a n i : 0 <= n -> 0 <= i -> Z.testbit (a mod 2 ^ n) i = (i <? n) && Z.testbit a i.
Proof.
  intros N I. destruct (Z.ltb_spec i n).
  - rewrite Z.mod_pow2_bits_low by lia. reflexivity.
  - rewrite Z.mod_pow2_bits_high by lia. reflexivity.
Qed.
Lemma div_bits a n i : 0 <= n -> 0 <= i -> Z.testbit (a / 2 ^ n) i = Z.testbit a (i + n).
Proof. intros. rewrite Z.div_pow2_bits by lia. reflexivity. Qed.

Lemma bitset_get_bits w x off n : is_width w -> 0 <= x < 2 ^ w -> 0 < n <= w -> 0 <= off < w ->
  exists r, bitset_get w x off n = Ok r /\ 0 <= r /\ forall i, 0 <= i -> Z.testbit r i = (i <? n) && Z.testbit x (i + off).
Proof.
  intros W X N O. rewrite bitset_get_spec by (try assumption; unfold pw; lia).
  eexists. split; [reflexivity|]. split; [apply Z.mod_pos_bound; apply Z.pow_pos_nonneg; lia|].
  intros i I. rewrite mod_bits by lia. rewrite div_bits by lia. reflexivity.
Qed.

(** bitset_part clears the low [size] bits, not the addressed ones. *)
Lemma bitset_part_bits w x v off n : is_width w -> 0 <= x < 2 ^ w -> 0 <= v < 2 ^ w -> 0 < n <= w -> 0 <= off < w ->
  exists r, bitset_part w x v off n = Ok r /\ 0 <= r < 2 ^ w /\
    forall i, 0 <= i < w ->
      Z.testbit r i = Z.testbit x i && negb (i <? n) || (off <=? i) && (i - off <? n) && Z.testbit v (i - off).
Proof.
  intros W X V N O. pose proof (is_width_pos w W) as WP. unfold bitset_part. rewrite bitmask_spec by assumption. cbn [bind].
  unfold cand. rewrite land_ones' by lia. pow_pos 2 n. pow_pos 2 w.
  assert (VB : 0 <= v mod 2 ^ n < 2 ^ w).
  { pose proof (Z.mod_pos_bound v (2 ^ n) ltac:(lia)). pose proof (pow2_mono n w ltac:(lia)). lia. }
  destruct (cshl_u w (v mod 2 ^ n) off W VB ltac:(lia) ltac:(unfold pw; lia)) as (s & S1 & S2).
  rewrite S1. cbn [bind]. eexists. split; [reflexivity|]. rewrite cast_u in *.
  split; [apply Z.mod_pos_bound; lia|].
  intros i I. rewrite mod_bits by lia. destruct (Z.ltb_spec i w); [|lia]. cbn [andb]. unfold cor. rewrite Z.lor_spec.
  f_equal.
  - rewrite Z.land_spec. f_equal. unfold cnot.
    assert (A : Z.testbit (Z.lnot (2 ^ n - 1)) i = negb (i <? n)) by (rewrite Z.lnot_spec by lia; rewrite ones_bits by lia; reflexivity).
    destruct (isg (prom (uint w))); [assumption|]. unfold wrapu. rewrite iw_prom_uint by assumption.
    rewrite mod_bits by (unfold pw; lia). unfold pw. destruct (Z.ltb_spec i (Z.max 32 w)); [exact A|lia].
  - assert (B : Z.testbit s i = Z.testbit (s mod 2 ^ w) i) by (rewrite mod_bits by lia; destruct (Z.ltb_spec i w); [reflexivity|lia]).
    rewrite B, S2. rewrite mod_bits by lia. destruct (Z.ltb_spec i w); [|lia]. cbn [andb].
    rewrite Z.mul_pow2_bits by lia. destruct (Z.leb_spec off i); cbn [andb].
    + rewrite mod_bits by lia. reflexivity.
    + apply Z.testbit_neg_r. lia.
Qed.

Lemma pcabs_abs w x : is_width w -> - 2 ^ (w - 1) < x < 2 ^ (w - 1) -> pcabs w x = Ok (Z.abs x).
Proof.
  intros W X. pose proof (is_width_pos w W) as WP. unfold pcabs. destruct (Z.ltb_spec x 0).
  - unfold cneg. rewrite prom_sint by assumption. pose proof (pw_ge_w w W). rewrite arith_s by (unfold pw in *; lia). cbn [bind].
    rewrite cast_s_small by lia. f_equal. lia.
  - f_equal. lia.
Qed.
Lemma pabs_abs w x : is_width w -> - 2 ^ (w - 1) < x < 2 ^ (w - 1) -> pabs w x = Ok (Z.abs x).
Proof.
  intros W X. pose proof (is_width_pos w W) as WP. unfold pabs. rewrite prom_sint by assumption. pose proof (pw_ge_w w W) as G.
  rewrite cshr_ok by (cbn [iw sint]; unfold pw; lia). cbn [bind]. pow_pos 2 (w - 1). unfold cadd.
  destruct (Z_lt_ge_dec x 0).
  - assert (D : x / 2 ^ (w - 1) = -1) by (symmetry; apply (Z.div_unique _ _ _ (x + 2 ^ (w - 1))); lia).
    rewrite D. rewrite arith_s by (unfold pw in *; lia). cbn [bind]. unfold cxor.
    rewrite Z.lxor_m1_r. replace (Z.lnot (x + -1)) with (Z.abs x) by (unfold Z.lnot; lia).
    f_equal. apply cast_s_small; lia.
  - rewrite Z.div_small by lia. rewrite Z.add_0_r, arith_s by (unfold pw in *; lia). cbn [bind]. unfold cxor.
    rewrite Z.lxor_0_r. f_equal. rewrite cast_s_small by lia. lia.
Qed.
Lemma abs_min w : is_width w ->
  pcabs w (- 2 ^ (w - 1)) = (if w <? 32 then Ok (- 2 ^ (w - 1)) else UB SignedOverflow) /\
  pabs w (- 2 ^ (w - 1)) = (if w <? 32 then Ok (- 2 ^ (w - 1)) else UB SignedOverflow).
Proof. intros [->|[->|[->| ->]]]; split; vm_compute; reflexivity. Qed.

(** A field of [n] bits sits at the top of a type of [b] bits after these casts; what does not fit is
    dropped from its low end. *)
Lemma scaled_bits v a b r : 0 <= v < 2 ^ a -> 0 <= a -> 0 <= b -> r = v * 2 ^ b / 2 ^ a ->
  forall i, 1 <= i <= b -> Z.testbit r (b - i) = Z.testbit v (a - i).
Proof.
  intros V A B -> i I. rewrite div_bits by lia. rewrite Z.mul_pow2_bits by lia. f_equal. lia.
Qed.
Lemma cast_msb_bits a b v : is_width a -> is_width b -> 0 <= v < 2 ^ a ->
  exists r, cast_msb a b v = Ok r /\ 0 <= r < 2 ^ b /\ forall i, 1 <= i <= b -> Z.testbit r (b - i) = Z.testbit v (a - i).
Proof.
  intros WA WB V. destruct (cast_msb_spec a b v WA WB V) as (r & R1 & R2 & R3). pose proof (is_width_pos a WA). pose proof (is_width_pos b WB).
  exists r. split; [assumption|]. split; [assumption|]. apply scaled_bits; try assumption; lia.
Qed.
Lemma crl_bits aw n b v : is_width aw -> is_width b -> 0 < n <= aw -> 0 <= v < 2 ^ aw ->
  exists r, cast_right_to_left aw n b b v = Ok r /\ 0 <= r < 2 ^ b /\
    forall i, 1 <= i <= b -> Z.testbit r (b - i) = (i <=? n) && Z.testbit v (n - i).
Proof.
  intros WA WB N V. destruct (crl_spec aw n b v WA WB ltac:(lia) ltac:(lia) V) as (r & R1 & R2 & R3).
  pose proof (is_width_pos b WB). pow_pos 2 n.
  exists r. split; [assumption|]. split; [assumption|]. intros i I.
  rewrite (scaled_bits (v mod 2 ^ n) n b r) by (try assumption; try lia; apply Z.mod_pos_bound; lia).
  destruct (Z.leb_spec i n); cbn [andb].
  - rewrite mod_bits by lia. destruct (Z.ltb_spec (n - i) n); [reflexivity|lia].
  - apply Z.testbit_neg_r. lia.
Qed.

(** A nonzero offset: the old bits of the field are kept below [size] only and or-ed above it. *)
Lemma bitset_part_zero w x v n : is_width w -> 0 <= x < 2 ^ w -> 0 <= v < 2 ^ w -> 0 < n <= w ->
  exists r, bitset_part w x v 0 n = Ok r /\ 0 <= r < 2 ^ w /\
    forall i, 0 <= i < w -> Z.testbit r i = if (0 <=? i) && (i <? 0 + n) then Z.testbit v (i - 0) else Z.testbit x i.
Proof.
  intros W X V N. destruct (bitset_part_bits w x v 0 n W X V N ltac:(destruct (is_width_pos w W); lia)) as (r & R1 & R2 & R3).
  exists r. split; [assumption|]. split; [assumption|]. intros i I. rewrite R3 by assumption.
  rewrite !Z.sub_0_r, Z.add_0_l. destruct (Z.leb_spec 0 i); [|lia]. destruct (i <? n); destruct (Z.testbit x i), (Z.testbit v i); reflexivity.
Qed.
Lemma bitset_part_bad :
  exists r, bitset_part 32 0x000000ff 0 4 4 = Ok r /\ r = 0xf0 /\ Z.testbit r 4 <> Z.testbit 0 0 /\ Z.testbit r 0 <> Z.testbit 0xff 0.
Proof. exists 0xf0. vm_compute. repeat split; discriminate. Qed.
