(** Programs that also use fma, sums of two products, and dot. *)
From Coq Require Import ZArith List.
From Verif Require Import Res Cfg Spec Posit Posit2.
Import ListNotations.
Open Scope Z_scope.

Inductive op1 : Set := ONeg | OAbs | OSqrt | OHalf | OPrev.
Inductive op2 : Set := OAdd | OSub | OMul | ODiv | OMin | OMax.
Definition run1 (c : cfg) (o : op1) (x : Z) : res Z :=
  match o with ONeg => p_neg c x | OAbs => p_abs c x | OSqrt => p_sqrt c x | OHalf => p_half c x | OPrev => p_prev c x end.
Definition run2 (c : cfg) (o : op2) (x y : Z) : res Z :=
  match o with
  | OAdd => p_add c x y | OSub => p_sub c x y | OMul => p_mul c x y | ODiv => p_div c x y
  | OMin => Ok (p_stdmin c x y) | OMax => Ok (p_stdmax c x y)
  end.
(** [PFma a b d] is fma(a,b,d), [PSum a b d g] is a*b + d*g in one expression, [PDot] is dot of two vectors. *)
Inductive prog : Set :=
| PLit (v : Z) | PInt (i : Z) | P1 (o : op1) (a : prog) | P2 (o : op2) (a b : prog)
| PFma (a b d : prog) | PSum (a b d g : prog) | PDot (l : pvec)
with pvec : Set := PNil | PCons (a b : prog) (l : pvec).
Fixpoint run (c : cfg) (e : prog) : res Z :=
  match e with
  | PLit v => Ok v
  | PInt i => p_of_int c i
  | P1 o a => let! x := run c a in run1 c o x
  | P2 o a b => let! x := run c a in let! y := run c b in run2 c o x y
  | PFma a b d => let! x := run c a in let! y := run c b in let! z := run c d in p_fma c x y z
  | PSum a b d g => let! x := run c a in let! y := run c b in let! z := run c d in let! w := run c g in pm_add c (x, y) (z, w)
  | PDot l => let! v := run_vec c l in p_dot c v
  end
with run_vec (c : cfg) (l : pvec) : res (list (Z * Z)) :=
  match l with
  | PNil => Ok []
  | PCons a b l => let! x := run c a in let! y := run c b in let! t := run_vec c l in Ok ((x, y) :: t)
  end.
Fixpoint vec_length (l : pvec) : Z := match l with PNil => 0 | PCons _ _ l => 1 + vec_length l end.
(** The literals are numbers, no division is by zero, and vectors have at most [n] elements. *)
Fixpoint tame_prog (c : cfg) (n : Z) (e : prog) : Prop :=
  match e with
  | PLit v => real c v
  | PInt i => - 2 ^ 31 < i < 2 ^ 31
  | P1 _ a => tame_prog c n a
  | P2 o a b => tame_prog c n a /\ tame_prog c n b /\ (o = ODiv -> run c b <> Ok 0)
  | PFma a b d => tame_prog c n a /\ tame_prog c n b /\ tame_prog c n d
  | PSum a b d g => tame_prog c n a /\ tame_prog c n b /\ tame_prog c n d /\ tame_prog c n g
  | PDot l => vec_length l <= n /\ tame_vec c n l
  end
with tame_vec (c : cfg) (n : Z) (l : pvec) : Prop :=
  match l with PNil => True | PCons a b l => tame_prog c n a /\ tame_prog c n b /\ tame_vec c n l end.
