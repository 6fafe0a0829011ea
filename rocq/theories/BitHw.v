(** The hardware version of the bit field helper and the printing of integers as bits. *)
From Coq Require Import ZArith Bool String.
From Verif Require Import Res CInt Print.
Open Scope Z_scope.
Open Scope res_scope.

(** _bextr_u32 and _bextr_u64 (used in bithippop.hpp 178-220): the low bytes of the two arguments are the first bit and
    the number of bits of the field; bits beyond the operand, which is zero extended, are zero. *)
Definition bextr (ow x start len : Z) : Z := (cast (uint ow) x / 2 ^ (start mod 256)) mod 2 ^ (len mod 256).

(** bithippop.hpp 185-220: [bitset_gethw] and [bitset_gethwT] for an unsigned type of [w] bits: 64 bit operands for 64
    bits, 32 bit ones below, the result converted to the type. *)
Definition bitset_gethw (w input offset size : Z) : Z :=
  cast (uint w) (bextr (if w =? 64 then 64 else 32) input offset size).

(** bithippop.hpp 253-257: [bitset_all] of a T, as the text that a stream receives. A bitset is made from an unsigned
    64 bit integer. *)
Definition bitset_all (t : ity) (x : Z) : string := bits_text (Z.to_nat (iw t)) (wrapu 64 x).
(** bithippop.hpp 259-263: [bitset_msb<T,N>]. *)
Definition bitset_msb (t : ity) (n x : Z) : res string :=
  let! s := cshr (prom t) x (iw t - n) in Ok (bits_text (Z.to_nat n) (wrapu 64 s)).
(** bithippop.hpp 265-269: [bitset_lsb<T,N>]. *)
Definition bitset_lsb (t : ity) (n x : Z) : string := bits_text (Z.to_nat n) (wrapu 64 x).
