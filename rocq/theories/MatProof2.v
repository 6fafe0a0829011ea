(** Singles and doubles to halves. *)
From Coq Require Import ZArith QArith Qabs Bool List Lia Lqa.
From Verif Require Import Res CInt Spec SpecFloat SpecHalf Core Arith QPow EncodeProof Conv1 Conv4 Conv5 FloatProof SoftProof WideProof MatHalf MatProof.
Import ListNotations.
Open Scope Z_scope.

Lemma land_field x j k : 0 <= j -> 0 <= k -> Z.land x (2 ^ j * (2 ^ k - 1)) = ((x / 2 ^ j) mod 2 ^ k) * 2 ^ j.
Proof.
  intros J K. replace (2 ^ k - 1) with (Z.ones k) by (rewrite Z.ones_equiv; lia).
  rewrite (Z.mul_comm (2 ^ j)), <- Z.shiftl_mul_pow2, <- (Z.land_ones (x / 2 ^ j)), <- Z.shiftl_mul_pow2, <- Z.shiftr_div_pow2 by assumption.
  apply Z.bits_inj'. intros n N. rewrite Z.land_spec. destruct (Z_lt_le_dec n j).
  - rewrite !Z.shiftl_spec_low by assumption. apply andb_false_r.
  - rewrite !Z.shiftl_spec, Z.land_spec, Z.shiftr_spec by lia. f_equal. f_equal. lia.
Qed.
Lemma cshr_in t x n : 0 <= n < iw t -> cshr t x n = Ok (x / 2 ^ n).
Proof. intros H. unfold cshr. destruct (Z.ltb_spec n 0); [lia|]. destruct (Z.leb_spec (iw t) n); [lia|]. reflexivity. Qed.
Lemma csub_in a b : - 2 ^ 31 <= a - b < 2 ^ 31 -> csub c_int a b = Ok (a - b).
Proof.
  intros H. unfold csub, arith, c_int, CInt.fits, min_of, max_of. cbn [isg sint iw]. change (32 - 1) with 31.
  destruct (Z.leb_spec (- 2 ^ 31) (a - b)); [|lia]. destruct (Z.leb_spec (a - b) (2 ^ 31 - 1)); [reflexivity|lia].
Qed.
Lemma cadd_in a b : - 2 ^ 31 <= a + b < 2 ^ 31 -> cadd c_int a b = Ok (a + b).
Proof.
  intros H. unfold cadd, arith, c_int, CInt.fits, min_of, max_of. cbn [isg sint iw]. change (32 - 1) with 31.
  destruct (Z.leb_spec (- 2 ^ 31) (a + b)); [|lia]. destruct (Z.leb_spec (a + b) (2 ^ 31 - 1)); [reflexivity|lia].
Qed.
Lemma cshl_int a n : 0 <= a -> 0 <= n < 32 -> a * 2 ^ n < 2 ^ 31 -> cshl c_int a n = Ok (a * 2 ^ n).
Proof.
  intros A N H. unfold cshl, c_int. cbn [isg sint iw]. destruct (Z.ltb_spec n 0); [lia|]. destruct (Z.leb_spec 32 n); [lia|]. cbn [orb].
  destruct (Z.ltb_spec a 0); [lia|]. destruct (Z.leb_spec (2 ^ 32) (a * 2 ^ n)); [lia|]. f_equal. pow_pos 2 n.
  apply wraps_small; [lia|]. change (32 - 1) with 31. nia.
Qed.
Lemma cshl_u32 a n : 0 <= a -> 0 <= n < 32 -> a * 2 ^ n < 2 ^ 32 -> cshl u32 a n = Ok (a * 2 ^ n).
Proof.
  intros A N H. unfold cshl, u32. cbn [isg uint iw]. destruct (Z.ltb_spec n 0); [lia|]. destruct (Z.leb_spec 32 n); [lia|]. cbn [orb].
  f_equal. unfold wrapu. apply Z.mod_small. pow_pos 2 n. nia.
Qed.
Lemma cast_u16 x : 0 <= x < 2 ^ 16 -> cast u16 x = x.
Proof. intros H. unfold cast, u16, wrapu. cbn [isg uint iw]. apply Z.mod_small. assumption. Qed.
Lemma cast_u32 x : 0 <= x < 2 ^ 32 -> cast u32 x = x.
Proof. intros H. unfold cast, u32, wrapu. cbn [isg uint iw]. apply Z.mod_small. assumption. Qed.
Lemma cast_int x : 0 <= x < 2 ^ 31 -> cast c_int x = x.
Proof. intros H. unfold cast, c_int. cbn [isg sint iw]. apply wraps_small; [lia|]. change (32 - 1) with 31. lia. Qed.

Definition sg31 (s : bool) : Z := if s then 2 ^ 31 else 0.
Definition sg15 (s : bool) : Z := if s then 2 ^ 15 else 0.
Lemma or_sign s y : 0 <= y < 2 ^ 15 -> cor (sg15 s) y = y + sg15 s.
Proof.
  intros H. unfold cor, sg15. destruct s; [|rewrite Z.lor_0_l; lia].
  change (2 ^ 15) with (1 * 2 ^ 15). rewrite lor_split by lia. lia.
Qed.
Lemma or_fields s e m : 0 <= e < 32 -> 0 <= m < 1024 -> cor (cor (sg15 s) (e * 1024)) m = e * 1024 + m + sg15 s.
Proof.
  intros E M. unfold cor. rewrite <- Z.lor_assoc. change 1024 with (2 ^ 10). rewrite (lor_split 10) by lia.
  rewrite <- Z.add_assoc, (Z.add_assoc (e * 2 ^ 10)). change (2 ^ 10) with 1024. apply or_sign. lia.
Qed.
Lemma sg_shift s : sg31 s / 2 ^ 16 = sg15 s.
Proof. destruct s; reflexivity. Qed.
Lemma sg_bound s : 0 <= sg15 s < 2 ^ 16. Proof. destruct s; cbn [sg15 sg31]; lia. Qed.
Lemma sg31_bound s : sg31 s = 0 \/ sg31 s = 2 ^ 31. Proof. destruct s; cbn [sg15 sg31]; lia. Qed.

(** Fields of a word of a sign, E and m, where m has [f] bits. *)
Section fields.
Variables (s : bool) (f E m : Z).
Hypothesis Hf : 1 <= f <= 30.
Hypothesis HE : 0 <= E < 2 ^ (31 - f).
Hypothesis Hm : 0 <= m < 2 ^ f.
Local Notation x := (sg31 s + E * 2 ^ f + m).
Lemma mag_bound : 0 <= E * 2 ^ f + m < 2 ^ 31.
Proof using Hf HE Hm.
  assert (P : 2 ^ 31 = 2 ^ (31 - f) * 2 ^ f) by (rewrite <- Z.pow_add_r by lia; f_equal; lia). rewrite P. pow_pos 2 f. nia.
Qed.
Lemma field_mag : cand x 0x7FFFFFFF = E * 2 ^ f + m.
Proof using Hf HE Hm.
  pose proof mag_bound as B. unfold cand. change 0x7FFFFFFF with (2 ^ 0 * (2 ^ 31 - 1)). rewrite land_field by lia.
  change (2 ^ 0) with 1. rewrite Z.div_1_r, Z.mul_1_r. unfold sg31. destruct s.
  - rewrite <- Z.add_assoc, (Z.add_comm (2 ^ 31)). rewrite <- (Z.mul_1_l (2 ^ 31)) at 1. rewrite Z.mod_add by lia. apply Z.mod_small. assumption.
  - apply Z.mod_small. lia.
Qed.
Lemma word_shift : x / 2 ^ 16 = sg15 s + (E * 2 ^ f + m) / 2 ^ 16.
Proof using.
  unfold sg31, sg15. destruct s; [|rewrite !Z.add_0_l; reflexivity].
  rewrite <- Z.add_assoc. change (2 ^ 31) with (2 ^ 15 * 2 ^ 16). rewrite Z.div_add_l by lia. reflexivity.
Qed.
Lemma word_sign : x / 2 ^ 31 = if s then 1 else 0.
Proof using Hf HE Hm.
  pose proof mag_bound as B. unfold sg31. destruct s.
  - rewrite <- Z.add_assoc. rewrite <- (Z.mul_1_l (2 ^ 31)) at 1. rewrite Z.div_add_l by lia. rewrite Z.div_small by lia. reflexivity.
  - apply Z.div_small. lia.
Qed.
Lemma field_sign : cand x 0x80000000 = sg31 s.
Proof using Hf HE Hm.
  unfold cand. change 0x80000000 with (2 ^ 31 * (2 ^ 1 - 1)). rewrite land_field, word_sign by lia. destruct s; reflexivity.
Qed.
Lemma x_div : x / 2 ^ f = (if s then 2 ^ (31 - f) else 0) + E.
Proof using Hf HE Hm.
  pow_pos 2 f. assert (P : 2 ^ 31 = 2 ^ (31 - f) * 2 ^ f) by (rewrite <- Z.pow_add_r by lia; f_equal; lia).
  unfold sg31. destruct s.
  - rewrite P, <- Z.mul_add_distr_r, Z.div_add_l by lia. rewrite Z.div_small by lia. lia.
  - rewrite Z.add_0_l, Z.div_add_l by lia. rewrite Z.div_small by lia. lia.
Qed.
Lemma x_exp : (x / 2 ^ f) mod 2 ^ (31 - f) = E.
Proof using Hf HE Hm.
  rewrite x_div. pow_pos 2 (31 - f). destruct s.
  - rewrite Z.add_comm, <- (Z.mul_1_l (2 ^ (31 - f))) at 1. rewrite Z.mod_add by lia. apply Z.mod_small. assumption.
  - apply Z.mod_small. assumption.
Qed.
Lemma x_frac : x mod 2 ^ f = m.
Proof using Hf HE Hm.
  pow_pos 2 f. assert (P : 2 ^ 31 = 2 ^ (31 - f) * 2 ^ f) by (rewrite <- Z.pow_add_r by lia; f_equal; lia).
  unfold sg31. rewrite Z.add_comm. destruct s.
  - rewrite P, <- Z.mul_add_distr_r, Z.mod_add by lia. apply Z.mod_small. assumption.
  - rewrite Z.add_0_l, Z.mod_add by lia. apply Z.mod_small. assumption.
Qed.
Lemma field_exp k : k = 2 ^ f * (2 ^ (31 - f) - 1) -> cand x k = E * 2 ^ f.
Proof using Hf HE Hm. intros ->. unfold cand. rewrite land_field, x_exp by lia. reflexivity. Qed.
Lemma field_frac k : k = 2 ^ f - 1 -> cand x k = m.
Proof using Hf HE Hm.
  intros ->. unfold cand. replace (2 ^ f - 1) with (2 ^ 0 * (2 ^ f - 1)) by lia. rewrite land_field by lia.
  change (2 ^ 0) with 1. rewrite Z.div_1_r, Z.mul_1_r. apply x_frac.
Qed.
End fields.
(** Every word has such fields. *)
Lemma word_fields f x : 1 <= f <= 30 -> 0 <= x < 2 ^ 32 -> exists s E m,
  0 <= E < 2 ^ (31 - f) /\ 0 <= m < 2 ^ f /\ x = sg31 s + E * 2 ^ f + m.
Proof.
  intros F X. pow_pos 2 f. assert (P : 2 ^ 31 = 2 ^ (31 - f) * 2 ^ f) by (rewrite <- Z.pow_add_r by lia; f_equal; lia).
  assert (P2 : 2 ^ 32 = 2 * 2 ^ 31) by reflexivity.
  set (y := x mod 2 ^ 31). assert (Y : 0 <= y < 2 ^ 31) by (apply Z.mod_pos_bound; lia).
  pose proof (Z.div_mod x (2 ^ 31) ltac:(lia)) as DX. fold y in DX.
  assert (Q : 0 <= x / 2 ^ 31 < 2) by (split; [apply Z.div_pos; lia|apply Z.div_lt_upper_bound; lia]).
  exists (negb (x / 2 ^ 31 =? 0)), (y / 2 ^ f), (y mod 2 ^ f). split; [split; [apply Z.div_pos; lia|apply Z.div_lt_upper_bound; lia]|].
  split; [apply Z.mod_pos_bound; lia|]. pose proof (Z.div_mod y (2 ^ f) ltac:(lia)) as DY.
  unfold sg31. destruct (Z.eqb_spec (x / 2 ^ 31) 0); cbn [negb]; lia.
Qed.

(** The half the loop makes of a word; [f] is 23 for singles and 20 for the upper word of a double. *)
Definition half_word (f : Z) (s : bool) (E m : Z) : Z :=
  let B := 2 ^ (30 - f) - 1 in
  let e := E - B + 15 in
  let M := 2 ^ f + m in
  if E =? 0 then sg15 s
  else if E =? 2 ^ (31 - f) - 1 then (if m =? 0 then 31744 + sg15 s else 0xFE00)
  else if 31 <=? e then 31744 + sg15 s
  else if e <=? 0 then M / 2 ^ (f - 9 - e) + (if (M / 2 ^ (f - 10 - e)) mod 2 =? 1 then 1 else 0) + sg15 s
  else e * 1024 + (M / 2 ^ (f - 10) - 1024) + (if (M / 2 ^ (f - 11)) mod 2 =? 1 then 1 else 0) + sg15 s.

Lemma bit_test m k b : 0 <= k -> b = 2 ^ k -> negb (cand m b =? 0) = ((m / 2 ^ k) mod 2 =? 1).
Proof.
  intros K ->. unfold cand. replace (2 ^ k) with (2 ^ k * (2 ^ 1 - 1)) by (change (2 ^ 1 - 1) with 1; lia).
  rewrite land_field by lia. replace (2 ^ k * (2 ^ 1 - 1)) with (2 ^ k) by (change (2 ^ 1 - 1) with 1; lia). change (2 ^ 1) with 2. pow_pos 2 k.
  pose proof (Z.mod_pos_bound (m / 2 ^ k) 2 ltac:(lia)). destruct (Z.eqb_spec ((m / 2 ^ k) mod 2 * 2 ^ k) 0), (Z.eqb_spec ((m / 2 ^ k) mod 2) 1); cbn [negb]; nia.
Qed.
Lemma bit_test1 m : negb (cand m 1 =? 0) = (m mod 2 =? 1).
Proof. rewrite (bit_test m 0 1) by lia. change (2 ^ 0) with 1. now rewrite Z.div_1_r. Qed.
Lemma hidden_or f m b : 0 <= f -> 0 <= m < 2 ^ f -> b = 2 ^ f -> cor m b = 2 ^ f + m.
Proof. intros F M ->. unfold cor. rewrite Z.lor_comm. rewrite <- (Z.mul_1_l (2 ^ f)) at 1. rewrite lor_split by assumption. lia. Qed.
(** The hidden bit does not change a bit below it. *)
Lemma hidden_bit f m k : 0 <= k < f -> ((2 ^ f + m) / 2 ^ k) mod 2 = (m / 2 ^ k) mod 2.
Proof.
  intros K. pow_pos 2 k. replace (2 ^ f) with (2 ^ (f - k - 1) * 2 * 2 ^ k).
  - rewrite Z.div_add_l by lia. rewrite Z.add_comm, Z.mod_add by lia. reflexivity.
  - change 2 with (2 ^ 1) at 2. rewrite <- !Z.pow_add_r by lia. f_equal. lia.
Qed.

Lemma s2h_word s E m : 0 <= E < 2 ^ 8 -> 0 <= m < 2 ^ 23 -> s2h (sg31 s + E * 2 ^ 23 + m) = Ok (half_word 23 s E m).
Proof.
  intros HE Hm. unfold s2h, half_word. cbv zeta.
  rewrite (field_mag s 23 E m), (field_sign s 23 E m), (field_exp s 23 E m), (field_frac s 23 E m) by (lia || assumption || reflexivity).
  rewrite (cshr_in u32 _ 16), (cshr_in u32 (sg31 s) 16), sg_shift, word_shift by (cbn [iw u32 uint]; lia). cbn [bind].
  change (2 ^ (30 - 23) - 1) with 127. change (2 ^ (31 - 23) - 1) with 255. change 2139095040 with (255 * 2 ^ 23).
  pose proof (sg_bound s) as SB.
  destruct (Z.eqb_spec (E * 2 ^ 23 + m) 0) as [Z0|Z0].
  { assert (E = 0) as -> by lia. assert (m = 0) as -> by lia. rewrite Z.eqb_refl. change ((0 * 2 ^ 23 + 0) / 2 ^ 16) with 0.
    rewrite Z.add_0_r, cast_u16 by assumption. reflexivity. }
  destruct (Z.eqb_spec (E * 2 ^ 23) 0) as [E0|E0].
  { assert (E = 0) as -> by lia. rewrite Z.eqb_refl, cast_u16 by assumption. reflexivity. }
  destruct (Z.eqb_spec E 0); [lia|].
  destruct (Z.eqb_spec (E * 2 ^ 23) (255 * 2 ^ 23)) as [E1|E1].
  { assert (E = 255) as -> by lia. rewrite Z.eqb_refl. destruct (m =? 0); [|reflexivity].
    rewrite or_sign, cast_u16 by (destruct s; cbn [sg15] in *; lia). reflexivity. }
  destruct (Z.eqb_spec E 255); [lia|].
  rewrite (cshr_in u32 (E * 2 ^ 23) 23) by (cbn [iw u32 uint]; lia). rewrite Z.div_mul by lia. cbn [bind].
  rewrite (cast_int E), csub_in by lia. cbn [bind]. rewrite cadd_in by lia. cbn [bind]. set (e := E - 127 + 15) in *.
  change 0x1F with 31. destruct (Z.leb_spec 31 e) as [B|B].
  { rewrite or_sign, cast_u16 by (destruct s; cbn [sg15] in *; lia). reflexivity. }
  rewrite (cast_u16 (sg15 s)) by assumption. set (M := 2 ^ 23 + m).
  destruct (Z.leb_spec e 0) as [L|L].
  - rewrite csub_in by lia. cbn [bind]. rewrite (hidden_or 23 m) by (lia || reflexivity). fold M.
    assert (MB : 2 ^ 23 <= M < 2 ^ 24) by (unfold M; lia).
    change (23 - 9) with 14. change (23 - 10) with 13.
    destruct (Z.ltb_spec 24 (14 - e)) as [T|T].
    + cbn [bind]. rewrite (cast_u16 0), or_sign by lia. rewrite Z.add_0_l, cast_u16 by assumption.
      assert (P : 2 ^ 24 <= 2 ^ (13 - e)) by (apply Z.pow_le_mono_r; lia).
      assert (P' : 2 ^ (13 - e) <= 2 ^ (14 - e)) by (apply Z.pow_le_mono_r; lia).
      rewrite (Z.div_small M (2 ^ (14 - e))), (Z.div_small M (2 ^ (13 - e))) by lia. reflexivity.
    + rewrite cshr_in by (cbn [iw u32 uint]; lia). cbn [bind]. rewrite csub_in by lia. cbn [bind]. rewrite cshr_in by (cbn [iw u32 uint]; lia). cbn [bind].
      rewrite bit_test1.
      assert (D : 0 <= M / 2 ^ (14 - e) < 1024).
      { pow_pos 2 (14 - e). split; [apply Z.div_pos; lia|]. apply Z.div_lt_upper_bound; [lia|].
        assert (2 ^ 14 <= 2 ^ (14 - e)) by (apply Z.pow_le_mono_r; lia). lia. }
      rewrite (cast_u16 (M / 2 ^ (14 - e))) by lia.
      destruct ((M / 2 ^ (13 - e)) mod 2 =? 1).
      * rewrite cadd_in by lia. cbn [bind]. rewrite (cast_u16 (M / 2 ^ (14 - e) + 1)), or_sign, cast_u16 by (destruct s; cbn [sg15] in *; lia). reflexivity.
      * cbn [bind]. rewrite or_sign, cast_u16 by (destruct s; cbn [sg15] in *; lia). rewrite Z.add_0_r. reflexivity.
  - rewrite cshl_int by lia. cbn [bind]. rewrite (cshr_in u32 m 13) by (cbn [iw u32 uint]; lia). cbn [bind].
    change (23 - 10) with 13. change (23 - 11) with 12. rewrite (bit_test m 12) by (lia || reflexivity).
    assert (HM : M / 2 ^ 13 - 1024 = m / 2 ^ 13).
    { unfold M. change (2 ^ 23) with (1024 * 2 ^ 13). rewrite Z.div_add_l by lia. lia. }
    rewrite HM. unfold M. rewrite hidden_bit by lia.
    assert (D : 0 <= m / 2 ^ 13 < 1024) by (split; [apply Z.div_pos; lia|apply Z.div_lt_upper_bound; lia]).
    change (2 ^ 10) with 1024. rewrite (cast_u16 (e * 1024)), (cast_u16 (m / 2 ^ 13)) by lia. rewrite or_fields by lia.
    destruct ((m / 2 ^ 12) mod 2 =? 1).
    + rewrite cadd_in by (destruct s; cbn [sg15] in *; lia). cbn [bind]. rewrite cast_u16 by (destruct s; cbn [sg15] in *; lia). f_equal. lia.
    + rewrite cast_u16 by (destruct s; cbn [sg15] in *; lia). f_equal. lia.
Qed.
Lemma d2h_word s E m : 0 <= E < 2 ^ 11 -> 0 <= m < 2 ^ 20 -> d2h (sg31 s + E * 2 ^ 20 + m) = Ok (half_word 20 s E m).
Proof.
  intros HE Hm. unfold d2h, half_word. cbv zeta.
  rewrite (field_mag s 20 E m), (field_sign s 20 E m), (field_exp s 20 E m), (field_frac s 20 E m) by (lia || assumption || reflexivity).
  rewrite (cshr_in u32 _ 16), (cshr_in u32 (sg31 s) 16), sg_shift, word_shift by (cbn [iw u32 uint]; lia). cbn [bind].
  change (2 ^ (30 - 20) - 1) with 1023. change (2 ^ (31 - 20) - 1) with 2047. change 2146435072 with (2047 * 2 ^ 20).
  pose proof (sg_bound s) as SB.
  destruct (Z.eqb_spec (E * 2 ^ 20 + m) 0) as [Z0|Z0].
  { assert (E = 0) as -> by lia. assert (m = 0) as -> by lia. rewrite Z.eqb_refl. change ((0 * 2 ^ 20 + 0) / 2 ^ 16) with 0.
    rewrite Z.add_0_r, cast_u16 by assumption. reflexivity. }
  destruct (Z.eqb_spec (E * 2 ^ 20) 0) as [E0|E0].
  { assert (E = 0) as -> by lia. rewrite Z.eqb_refl, cast_u16 by assumption. reflexivity. }
  destruct (Z.eqb_spec E 0); [lia|].
  destruct (Z.eqb_spec (E * 2 ^ 20) (2047 * 2 ^ 20)) as [E1|E1].
  { assert (E = 2047) as -> by lia. rewrite Z.eqb_refl. destruct (m =? 0); [|reflexivity].
    rewrite or_sign, cast_u16 by (destruct s; cbn [sg15] in *; lia). reflexivity. }
  destruct (Z.eqb_spec E 2047); [lia|].
  rewrite (cshr_in u32 (E * 2 ^ 20) 20) by (cbn [iw u32 uint]; lia). rewrite Z.div_mul by lia. cbn [bind].
  rewrite (cast_int E), csub_in by lia. cbn [bind]. rewrite cadd_in by lia. cbn [bind]. set (e := E - 1023 + 15) in *.
  change 0x1F with 31. destruct (Z.leb_spec 31 e) as [B|B].
  { rewrite or_sign, cast_u16 by (destruct s; cbn [sg15] in *; lia). reflexivity. }
  rewrite (cast_u16 (sg15 s)) by assumption. set (M := 2 ^ 20 + m).
  destruct (Z.leb_spec e 0) as [L|L].
  - rewrite csub_in by lia. cbn [bind]. rewrite (hidden_or 20 m) by (lia || reflexivity). fold M.
    assert (MB : 2 ^ 20 <= M < 2 ^ 21) by (unfold M; lia).
    change (20 - 9) with 11. change (20 - 10) with 10.
    destruct (Z.ltb_spec 21 (10 - e)) as [T|T].
    + cbn [bind]. rewrite (cast_u16 0), or_sign by lia. rewrite Z.add_0_l, cast_u16 by assumption.
      assert (P : 2 ^ 21 <= 2 ^ (10 - e)) by (apply Z.pow_le_mono_r; lia).
      assert (P' : 2 ^ (10 - e) <= 2 ^ (11 - e)) by (apply Z.pow_le_mono_r; lia).
      rewrite (Z.div_small M (2 ^ (11 - e))), (Z.div_small M (2 ^ (10 - e))) by lia. reflexivity.
    + rewrite csub_in by lia. cbn [bind]. rewrite cshr_in by (cbn [iw u32 uint]; lia). cbn [bind]. rewrite cshr_in by (cbn [iw u32 uint]; lia). cbn [bind].
      rewrite bit_test1.
      assert (D : 0 <= M / 2 ^ (11 - e) < 1024).
      { pow_pos 2 (11 - e). split; [apply Z.div_pos; lia|]. apply Z.div_lt_upper_bound; [lia|].
        assert (2 ^ 11 <= 2 ^ (11 - e)) by (apply Z.pow_le_mono_r; lia). lia. }
      rewrite (cast_u16 (M / 2 ^ (11 - e))) by lia.
      destruct ((M / 2 ^ (10 - e)) mod 2 =? 1).
      * rewrite cadd_in by lia. cbn [bind]. rewrite (cast_u16 (M / 2 ^ (11 - e) + 1)), or_sign, cast_u16 by (destruct s; cbn [sg15] in *; lia). reflexivity.
      * cbn [bind]. rewrite or_sign, cast_u16 by (destruct s; cbn [sg15] in *; lia). rewrite Z.add_0_r. reflexivity.
  - rewrite cshl_int by lia. cbn [bind]. rewrite (cshr_in u32 m 10) by (cbn [iw u32 uint]; lia). cbn [bind].
    change (20 - 10) with 10. change (20 - 11) with 9. rewrite (bit_test m 9) by (lia || reflexivity).
    assert (HM : M / 2 ^ 10 - 1024 = m / 2 ^ 10).
    { unfold M. change (2 ^ 20) with (1024 * 2 ^ 10). rewrite Z.div_add_l by lia. lia. }
    rewrite HM. unfold M. rewrite hidden_bit by lia.
    assert (D : 0 <= m / 2 ^ 10 < 1024) by (split; [apply Z.div_pos; lia|apply Z.div_lt_upper_bound; lia]).
    change (e * 2 ^ 10) with (e * 1024). rewrite (cast_u16 (e * 1024)), (cast_u16 (m / 2 ^ 10)) by lia. rewrite or_fields by lia.
    destruct ((m / 2 ^ 9) mod 2 =? 1).
    + rewrite cadd_in by (destruct s; cbn [sg15] in *; lia). cbn [bind]. rewrite cast_u16 by (destruct s; cbn [sg15] in *; lia). f_equal. lia.
    + rewrite cast_u16 by (destruct s; cbn [sg15] in *; lia). f_equal. lia.
Qed.
