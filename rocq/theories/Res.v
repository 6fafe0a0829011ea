(** Outcomes of a C++ evaluation.

    [Ok a] : the evaluation is defined and yields [a].
    [UB r] : the evaluation executes undefined behaviour of kind [r].

    The model does not give a meaning to a program after undefined behaviour:
    every construct propagates it. *)

Inductive ub : Set :=
| ShiftCount      (* shift by a negative amount or by at least the width of the promoted operand *)
| ShiftNeg        (* left shift of a negative signed value *)
| ShiftOverflow   (* left shift of a signed value out of the corresponding unsigned range *)
| SignedOverflow  (* signed + - * or unary minus out of range *)
| ClzZero         (* __builtin_clz(0) *)
| DivZero         (* integer division by zero *)
| OutOfBounds     (* array access out of bounds *)
| FloatToInt      (* float to integer conversion out of range *)
| Uninit.         (* read of an uninitialised member *)

Inductive res (A : Type) : Type :=
| Ok (a : A)
| UB (u : ub).
Arguments Ok {A} a.
Arguments UB {A} u.

Definition bind {A B : Type} (x : res A) (f : A -> res B) : res B :=
  match x with
  | Ok a => f a
  | UB u => UB u
  end.

Definition rmap {A B : Type} (f : A -> B) (x : res A) : res B :=
  match x with
  | Ok a => Ok (f a)
  | UB u => UB u
  end.

Declare Scope res_scope.
Delimit Scope res_scope with res.
Notation "'let!' x ':=' e 'in' f" := (bind e (fun x => f))
  (at level 200, x name, e at level 200, f at level 200, right associativity,
   format "'[' 'let!'  x  ':='  e  'in' ']' '/' f") : res_scope.
Open Scope res_scope.

Definition defined {A : Type} (x : res A) : Prop := exists a, x = Ok a.
