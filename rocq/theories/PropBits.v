(** Properties of the bit helpers and of floatconst2bits.hpp: C44-C47. *)
From Coq Require Import ZArith QArith.
From Verif Require Import Res Cfg Spec Bits FConst Examples BitsProof FConstProof.
Open Scope Z_scope.

(** C44. findbitleftmostC: [n] leading zeros, for every nonzero input of every width. *)
Theorem C44_leading_zeros w x : is_width w -> 0 < x < 2 ^ w ->
  exists n, findbitleftmostC w x = Ok n /\ 0 <= n < w /\ 2 ^ (w - 1 - n) <= x < 2 ^ (w - n).
Proof. exact (clz_bounds w x). Qed.
Print Assumptions C44_leading_zeros.
Example C44_ex_lz : is_width 16 /\ 0 < 300 < 2 ^ 16 /\ findbitleftmostC 16 300 = Ok 7.
Proof. conj; ex. Qed.
Theorem C44_leading_zeros_zero w : is_width w -> findbitleftmostC w 0 = UB ClzZero.
Proof. exact (clz_zero w). Qed.
Print Assumptions C44_leading_zeros_zero.

(** bitmask<R>(n) has exactly the n low bits set; n = 0 shifts by the whole width. *)
Theorem C44_bitmask w n : is_width w -> 0 < n <= w ->
  exists m, bitmask w n = Ok m /\ forall i, 0 <= i -> Z.testbit m i = (i <? n).
Proof. exact (bitmask_bits w n). Qed.
Print Assumptions C44_bitmask.
Theorem C44_bitmask_none w : is_width w -> bitmask w 0 = if w <? 32 then Ok 0 else UB ShiftCount.
Proof. exact (bitmask_none w). Qed.
Print Assumptions C44_bitmask_none.
Theorem C44_bitmask_over w n : is_width w -> w < n -> bitmask w n = UB ShiftCount.
Proof. exact (bitmask_over w n). Qed.
Print Assumptions C44_bitmask_over.
Example C44_ex_mask : is_width 64 /\ 0 < 37 <= 64 /\ bitmask 64 37 = Ok (2 ^ 37 - 1) /\ 64 < 65.
Proof. conj; ex. Qed.

(** bitset_get: the [n] bit field at [off]. *)
Theorem C44_bitset_get w x off n : is_width w -> 0 <= x < 2 ^ w -> 0 < n <= w -> 0 <= off < w ->
  exists r, bitset_get w x off n = Ok r /\ 0 <= r /\
    forall i, 0 <= i -> Z.testbit r i = (i <? n) && Z.testbit x (i + off).
Proof. exact (bitset_get_bits w x off n). Qed.
Print Assumptions C44_bitset_get.
Example C44_ex_get : is_width 8 /\ 0 <= 0xb5 < 2 ^ 8 /\ 0 < 4 <= 8 /\ 0 <= 2 < 8 /\ bitset_get 8 0xb5 2 4 = Ok 13.
Proof. conj; ex. Qed.

(** pcabs and pabs: the absolute value, except at the most negative number. *)
Theorem C44_pcabs w x : is_width w -> - 2 ^ (w - 1) < x < 2 ^ (w - 1) -> pcabs w x = Ok (Z.abs x).
Proof. exact (pcabs_abs w x). Qed.
Print Assumptions C44_pcabs.
Theorem C44_pabs w x : is_width w -> - 2 ^ (w - 1) < x < 2 ^ (w - 1) -> pabs w x = Ok (Z.abs x).
Proof. exact (pabs_abs w x). Qed.
Print Assumptions C44_pabs.
Theorem C44_abs_min w : is_width w ->
  pcabs w (- 2 ^ (w - 1)) = (if w <? 32 then Ok (- 2 ^ (w - 1)) else UB SignedOverflow) /\
  pabs w (- 2 ^ (w - 1)) = (if w <? 32 then Ok (- 2 ^ (w - 1)) else UB SignedOverflow).
Proof. exact (abs_min w). Qed.
Print Assumptions C44_abs_min.
Example C44_ex_abs : is_width 32 /\ - 2 ^ (32 - 1) < -77 < 2 ^ (32 - 1) /\ pabs 32 (-77) = Ok 77 /\ pcabs 32 (-77) = Ok 77.
Proof. conj; ex. Qed.

(** cast_msb: bit [i] from the top of the result is bit [i] from the top of the argument (0 when the
    argument has no such bit, since [Z.testbit] is false at negative positions). *)
Theorem C44_cast_msb a b v : is_width a -> is_width b -> 0 <= v < 2 ^ a ->
  exists r, cast_msb a b v = Ok r /\ 0 <= r < 2 ^ b /\
    forall i, 1 <= i <= b -> Z.testbit r (b - i) = Z.testbit v (a - i).
Proof. exact (cast_msb_bits a b v). Qed.
Print Assumptions C44_cast_msb.
(** cast_right_to_left: the low [n] bits of the argument become the top bits of the result. *)
Theorem C44_cast_right_to_left aw n b v : is_width aw -> is_width b -> 0 < n <= aw -> 0 <= v < 2 ^ aw ->
  exists r, cast_right_to_left aw n b b v = Ok r /\ 0 <= r < 2 ^ b /\
    forall i, 1 <= i <= b -> Z.testbit r (b - i) = (i <=? n) && Z.testbit v (n - i).
Proof. exact (crl_bits aw n b v). Qed.
Print Assumptions C44_cast_right_to_left.
Example C44_ex_cast : is_width 32 /\ is_width 8 /\ 0 <= 0xabcdef01 < 2 ^ 32 /\ cast_msb 32 8 0xabcdef01 = Ok 0xab /\
  cast_msb 8 32 0xab = Ok 0xab000000 /\ 0 < 23 <= 32 /\ cast_right_to_left 32 23 8 8 0x400001 = Ok 0x80.
Proof. conj; ex. Qed.

(** C45. Full statement: for every offset the result has the bits of [value] inside the field
    [offset, offset+size) and those of [input] outside.  True for offset 0; at any other offset the
    code clears the low [size] bits of [input] instead of the field. *)
Theorem C45_bitset_part_partial w x v n : is_width w -> 0 <= x < 2 ^ w -> 0 <= v < 2 ^ w -> 0 < n <= w ->
  exists r, bitset_part w x v 0 n = Ok r /\ 0 <= r < 2 ^ w /\
    forall i, 0 <= i < w -> Z.testbit r i = if (0 <=? i) && (i <? 0 + n) then Z.testbit v (i - 0) else Z.testbit x i.
Proof. exact (bitset_part_zero w x v n). Qed.
Print Assumptions C45_bitset_part_partial.
(** What it computes in general. *)
Theorem C45_bitset_part_general w x v off n :
  is_width w -> 0 <= x < 2 ^ w -> 0 <= v < 2 ^ w -> 0 < n <= w -> 0 <= off < w ->
  exists r, bitset_part w x v off n = Ok r /\ 0 <= r < 2 ^ w /\
    forall i, 0 <= i < w ->
      Z.testbit r i = Z.testbit x i && negb (i <? n) || (off <=? i) && (i - off <? n) && Z.testbit v (i - off).
Proof. exact (bitset_part_bits w x v off n). Qed.
Print Assumptions C45_bitset_part_general.
Theorem C45_bitset_part_refuted :
  exists r, bitset_part 32 0x000000ff 0 4 4 = Ok r /\ r = 0xf0 /\
    Z.testbit r 4 <> Z.testbit 0 0 /\ Z.testbit r 0 <> Z.testbit 0xff 0.
Proof. exact bitset_part_bad. Qed.
Print Assumptions C45_bitset_part_refuted.
Example C45_ex : is_width 32 /\ 0 <= 0xff < 2 ^ 32 /\ 0 <= 0x12345 < 2 ^ 32 /\ 0 < 4 <= 32 /\ 0 <= 8 < 32 /\
  bitset_part 32 0xff 0x12345 0 4 = Ok 0xf5 /\ bitset_part 32 0xff 0x12345 8 4 = Ok 0x5f0.
Proof. conj; ex. Qed.

(** C46. count_leading_zeroes. *)
Theorem C46_count_leading_zeroes v : 0 < v < 2 ^ 64 ->
  0 <= count_leading_zeroes v < 64 /\
  2 ^ (63 - count_leading_zeroes v) <= v < 2 ^ (64 - count_leading_zeroes v).
Proof. exact (clz64_bounds v). Qed.
Print Assumptions C46_count_leading_zeroes.
Example C46_ex : 0 < 0x123456789a < 2 ^ 64 /\ count_leading_zeroes 0x123456789a = 27.
Proof. ex. Qed.

(** C47. float2bits of a finite float [±u*2^-149] is the pattern that denotes it, for every pattern of
    a finite number other than -0.  Six turns of the scaling loop suffice. *)
Theorem C47_float2bits b q (neg : bool) u :
  0 <= b < 2 ^ 32 -> b <> 2 ^ 31 -> ieee_val 8 23 b = FinVal q ->
  0 <= u -> (q == (if neg then -1 else 1) * (inject_Z u * pow2 (-149)))%Q ->
  float2bits 6 (CFin neg u) = Some (Ok b).
Proof. exact (float2bits_exact b q neg u). Qed.
Print Assumptions C47_float2bits.
Theorem C47_float2bits_special n :
  (float2bits n (CInf false) = Some (Ok 0x7f800000) /\ ieee_val 8 23 0x7f800000 = InfVal false) /\
  (float2bits n (CInf true) = Some (Ok 0xff800000) /\ ieee_val 8 23 0xff800000 = InfVal true) /\
  (float2bits n CNaN = Some (Ok 0x7fc00000) /\ ieee_val 8 23 0x7fc00000 = NaNVal).
Proof. exact (float2bits_special n). Qed.
Print Assumptions C47_float2bits_special.
(** -1.5 and the smallest denormal. *)
Example C47_ex : 0 <= 0xbfc00000 < 2 ^ 32 /\ 0xbfc00000 <> 2 ^ 31 /\
  ieee_val 8 23 0xbfc00000 = FinVal (-1 * (inject_Z (2 ^ 23 + 2 ^ 22) * pow2 (-23))) /\
  float2bits 6 (CFin true (3 * 2 ^ 148)) = Some (Ok 0xbfc00000) /\
  float2bits 6 (CFin false 1) = Some (Ok 1).
Proof. conj; ex. Qed.
