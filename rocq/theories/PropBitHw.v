(** C164. Bit fields in hardware and the bits of integers as text. *)
From Coq Require Import ZArith Bool Ascii String.
From Verif Require Import Res CInt Cfg Bits Examples BitHw BitHwProof.
Open Scope Z_scope.

(** The field of [n] bits at [off] of an unsigned integer of [w] bits, also for fields that reach beyond the integer. *)
Theorem C164_hardware w x off n : is_width w -> 0 <= x < 2 ^ w -> 0 <= off < 256 -> 0 <= n < 256 ->
  0 <= bitset_gethw w x off n /\
  forall i, 0 <= i -> Z.testbit (bitset_gethw w x off n) i = (i <? n) && Z.testbit x (i + off).
Proof. exact (hw_field w x off n). Qed.
Print Assumptions C164_hardware.
(** The portable version, which the same program uses where the instruction is not available, gives the same field. *)
Theorem C164_same w x off n : is_width w -> 0 <= x < 2 ^ w -> 0 < n <= w -> 0 <= off < w ->
  bitset_get w x off n = Ok (bitset_gethw w x off n).
Proof. exact (hw_same w x off n). Qed.
Print Assumptions C164_same.
(** The two differ for fields without bits: the portable version is undefined, the instruction gives zero. *)
Theorem C164_empty_refuted w x off : is_width w -> 32 <= w -> 0 <= x < 2 ^ w -> 0 <= off < w ->
  bitset_get w x off 0 = UB ShiftCount /\ bitset_gethw w x off 0 = 0.
Proof. exact (hw_zero w x off). Qed.
Print Assumptions C164_empty_refuted.
(** The texts: all bits, the [n] highest and the [n] lowest ones, each from the highest to the lowest bit. *)
Theorem C164_all t x : is_width (iw t) ->
  Z.of_nat (String.length (bitset_all t x)) = iw t /\
  forall k, 0 <= k < iw t ->
    String.get (Z.to_nat k) (bitset_all t x) = Some (if Z.testbit x (iw t - 1 - k) then "1" else "0")%char.
Proof. exact (all_text t x). Qed.
Print Assumptions C164_all.
Theorem C164_msb t n x : is_width (iw t) -> 0 < n <= iw t ->
  exists s, bitset_msb t n x = Ok s /\ Z.of_nat (String.length s) = n /\
  forall k, 0 <= k < n -> String.get (Z.to_nat k) s = Some (if Z.testbit x (iw t - 1 - k) then "1" else "0")%char.
Proof. exact (msb_text t n x). Qed.
Print Assumptions C164_msb.
Theorem C164_lsb t n x : is_width (iw t) -> 0 <= n <= iw t ->
  Z.of_nat (String.length (bitset_lsb t n x)) = n /\
  forall k, 0 <= k < n -> String.get (Z.to_nat k) (bitset_lsb t n x) = Some (if Z.testbit x (n - 1 - k) then "1" else "0")%char.
Proof. exact (lsb_text t n x). Qed.
Print Assumptions C164_lsb.
(** The highest bits followed by the remaining ones are all bits. *)
Theorem C164_split t n x : is_width (iw t) -> 0 < n <= iw t ->
  exists s, bitset_msb t n x = Ok s /\ bitset_all t x = (s ++ bitset_lsb t (iw t - n) x)%string.
Proof. exact (text_split t n x). Qed.
Print Assumptions C164_split.
(** No bits at all may not be asked for. *)
Theorem C164_msb_none t x : 32 <= iw t -> bitset_msb t 0 x = UB ShiftCount.
Proof. exact (msb_none t x). Qed.
Print Assumptions C164_msb_none.
(** The values of tests/testbit.cpp. *)
Example C164_ex : is_width 16 /\ 0 <= 0x0110 < 2 ^ 16 /\ 0 < 5 <= 16 /\ bitset_msb (uint 16) 5 0x0110 = Ok "00000"%string /\
  bitset_lsb (uint 16) 5 0x0110 = "10000"%string /\ bitset_all (uint 16) 0x0110 = "0000000100010000"%string /\
  bitset_gethw 32 0x0A 2 3 = 2 /\ bitset_gethw 16 0x0110 2 5 = 4 /\ bitset_all (sint 8) (-3) = "11111101"%string.
Proof. ex. Qed.
