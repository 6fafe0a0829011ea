(** The program tests/testregime.cpp: regime and regime size of a 32 bit word whose first bit is the first bit of the regime. *)
From Coq Require Import ZArith Bool.
From Verif Require Import Res CInt Bits.
Open Scope Z_scope.

(** testregime.cpp 14: POSIT_SIZE and POSIT_INVERTBIT. The shift binds weaker than the subtraction: 1<<31, of type int. *)
Definition RG_SIZE : Z := 32.
Definition RG_INVERTBIT : Z := - 2 ^ 31.

(** testregime.cpp 18-30, [extract]. The argument is an int; the conversions of the caller's unsigned value wrap around. [aindex > POSIT_SIZE] is kept. *)
Definition rg_extract (pars : Z) : res (Z * Z) :=
  let x := negb (cand pars RG_INVERTBIT =? 0) in
  let! aindex :=
    (if x then (if cnot (sint 32) pars =? 0 then Ok RG_SIZE else findbitleftmostC 32 (cast (uint 32) (cnot (sint 32) pars)))
     else (if pars =? 0 then Ok RG_SIZE else findbitleftmostC 32 (cast (uint 32) pars))) in
  let index := if RG_SIZE <? aindex then RG_SIZE else aindex in
  let reg := if x then index - 1 else - index in
  let rs := if index =? RG_SIZE then RG_SIZE else index + 1 in
  Ok (reg, rs).
