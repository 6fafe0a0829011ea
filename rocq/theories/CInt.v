(** C++ integer arithmetic, as used by the headers of /repo/include.

    Values are mathematical integers [Z]; a type is a width and a signedness.
    The compiler assumptions are those of the platforms the project supports
    (README.md lines 47-51: GCC/Clang on x86-64, ARMv8): [int] has 32 bits, two's complement,
    conversion to a narrower signed type is modular, right shift of a negative
    value is arithmetic.  Left shift follows C++14 [expr.shift]. *)
From Coq Require Import ZArith Bool.
From Verif Require Import Res.
Open Scope Z_scope.

Record ity : Set := Ity { iw : Z; isg : bool }.

Definition sint (w : Z) : ity := Ity w true.
Definition uint (w : Z) : ity := Ity w false.
Definition c_int : ity := sint 32.

Definition wrapu (w z : Z) : Z := z mod 2 ^ w.
Definition wraps (w z : Z) : Z := (z + 2 ^ (w - 1)) mod 2 ^ w - 2 ^ (w - 1).

(** Conversion of an integer value to type [t] (modular). *)
Definition cast (t : ity) (z : Z) : Z :=
  if isg t then wraps (iw t) z else wrapu (iw t) z.

(** Integral promotion: types narrower than [int] become [int]. *)
Definition prom (t : ity) : ity := if iw t <? 32 then c_int else t.

(** Usual arithmetic conversions on two promoted types. *)
Definition common (a b : ity) : ity :=
  let a := prom a in
  let b := prom b in
  if iw a <? iw b then b
  else if iw b <? iw a then a
  else if isg a then b else a.

Definition min_of (t : ity) : Z := if isg t then - 2 ^ (iw t - 1) else 0.
Definition max_of (t : ity) : Z := if isg t then 2 ^ (iw t - 1) - 1 else 2 ^ (iw t) - 1.
Definition fits (t : ity) (z : Z) : bool := (min_of t <=? z) && (z <=? max_of t).

(** Result [z] of an arithmetic operator evaluated in type [t]. *)
Definition arith (t : ity) (z : Z) : res Z :=
  if isg t then (if fits t z then Ok z else UB SignedOverflow)
  else Ok (wrapu (iw t) z).

Definition cadd (t : ity) (a b : Z) : res Z := arith t (a + b).
Definition csub (t : ity) (a b : Z) : res Z := arith t (a - b).
Definition cmul (t : ity) (a b : Z) : res Z := arith t (a * b).
Definition cneg (t : ity) (a : Z) : res Z := arith t (- a).
Definition cdiv (t : ity) (a b : Z) : res Z :=
  if b =? 0 then UB DivZero else arith t (Z.quot a b).

(** [a << n] with left operand of promoted type [t]. *)
Definition cshl (t : ity) (a n : Z) : res Z :=
  if (n <? 0) || (iw t <=? n) then UB ShiftCount
  else if isg t then
    if a <? 0 then UB ShiftNeg
    else if 2 ^ (iw t) <=? a * 2 ^ n then UB ShiftOverflow
    else Ok (wraps (iw t) (a * 2 ^ n))
  else Ok (wrapu (iw t) (a * 2 ^ n)).

(** [a >> n] with left operand of promoted type [t]. *)
Definition cshr (t : ity) (a n : Z) : res Z :=
  if (n <? 0) || (iw t <=? n) then UB ShiftCount
  else Ok (a / 2 ^ n).

(** [~a] in promoted type [t]. *)
Definition cnot (t : ity) (a : Z) : Z :=
  if isg t then Z.lnot a else wrapu (iw t) (Z.lnot a).

(** [&], [|], [^] on values already converted to the common type. *)
Definition cand (a b : Z) : Z := Z.land a b.
Definition cor (a b : Z) : Z := Z.lor a b.
Definition cxor (a b : Z) : Z := Z.lxor a b.
