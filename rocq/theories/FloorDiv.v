(** The integer division helper of unpacked.h. *)
From Coq Require Import ZArith Bool.
From Verif Require Import Res CInt.
Open Scope Z_scope.
Open Scope res_scope.

(** unpacked.h 40-44: FLOORDIV<T>(a, b), [(a) / (b) - ((a) % (b) < 0)]. The operators work in the promoted type of T,
    the comparison is an int (0 or 1), the difference is converted to T on return. [a % b] is undefined exactly when
    [a / b] is, so that only the quotient is checked. *)
Definition floordiv (t : ity) (a b : Z) : res Z :=
  let! q := cdiv (prom t) a b in
  let! d := csub (common t c_int) q (if Z.rem a b <? 0 then 1 else 0) in
  Ok (cast t d).
