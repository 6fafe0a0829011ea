(** Software half floats: the part of float16native32.hpp compiled without F16C, and the half float
    holder of floattraits.hpp. A half is its 16 bit pattern. *)
From Coq Require Import ZArith.
From Verif Require Import Res CInt Traits Unpacked.
Open Scope Z_scope.

(** float16native32.hpp 60-63: the 16 bit pattern made of the bits of a float, through
    Unpacked<uint32_t,int>. *)
Definition float32to16n (bits : Z) : res Z :=
  let! u := u_unpack_xfloati 32 32 single_trait bits in u_pack_xfloati 32 32 half_trait u.

(** float16native32.hpp 52-57: [pack_xfloati] returns the [uint32_t] pattern of the float; the function
    returns [float], so this integer is converted (as a number) to float. The model stops at the
    integer. *)
Definition float16nto32_uint (x : Z) : res Z :=
  let! u := u_unpack_xfloati 32 32 half_trait x in u_pack_xfloati 32 32 single_trait u.

(** float16native32.hpp 84, 85, 88-90. *)
Definition h_abs (x : Z) : Z := Z.land x (Z.lnot 0x8000).
Definition h_neg (x : Z) : Z := Z.lxor x 0x8000.
Definition h_two : Z := t_two half_trait.
Definition h_one : Z := t_one half_trait.
Definition h_zero : Z := 0.
