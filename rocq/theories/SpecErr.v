(** Accumulated rounding errors of whole computations. *)
From Coq Require Import ZArith QArith Qabs List.
From Verif Require Import Res Cfg Spec SpecAcc SpecProg Posit.
Import ListNotations.
Open Scope Z_scope.

(** [x] is zero or of a size at which posits have at least [f] fraction bits. *)
Definition precise (c : cfg) (f : Z) (x : Q) : Prop := (x == 0)%Q \/ exists e, scale x e /\ f <= fracbits c e.

(** ** Programs of +, * and / over positive numbers *)
(** What they compute in exact arithmetic. *)
Fixpoint exact (c : cfg) (e : expr) : Q :=
  match e with
  | Lit v => value c v
  | OfInt i => inject_Z i
  | Add a b => exact c a + exact c b
  | Mul a b => exact c a * exact c b
  | Div a b => exact c a / exact c b
  | _ => 0
  end.
Fixpoint positive (c : cfg) (e : expr) : Prop :=
  match e with
  | Lit v => real c v /\ (0 < value c v)%Q
  | OfInt i => 0 < i < 2 ^ 31
  | Add a b | Mul a b | Div a b => positive c a /\ positive c b
  | _ => False
  end.
Fixpoint no_division (e : expr) : Prop :=
  match e with
  | Add a b | Mul a b => no_division a /\ no_division b
  | Div _ _ => False
  | _ => True
  end.
(** Roundings on the way from the literals to the result: the larger number for a sum, both for a product or quotient. *)
Fixpoint roundings (e : expr) : nat :=
  match e with
  | OfInt _ => 1
  | Add a b => S (Nat.max (roundings a) (roundings b))
  | Mul a b | Div a b => S (roundings a + roundings b)
  | _ => 0
  end.
(** At every step posits of the size of the exact result of that step have at least [f] fraction bits. *)
Fixpoint precise_steps (c : cfg) (f : Z) (e : expr) : Prop :=
  let step op a b := precise_steps c f a /\ precise_steps c f b /\
    forall x y, eval c a = Ok x -> eval c b = Ok y -> precise c f (op (value c x) (value c y)) in
  match e with
  | OfInt i => precise c f (inject_Z i)
  | Add a b => step Qplus a b
  | Mul a b => step Qmult a b
  | Div a b => step Qdiv a b
  | _ => True
  end.

(** ** Running sums and sums of products with the operators + and * *)
Fixpoint run_sum (c : cfg) (s : Z) (l : list Z) : res Z :=
  match l with [] => Ok s | x :: t => let! r := p_add c s x in run_sum c r t end.
Fixpoint run_dot (c : cfg) (s : Z) (l : list (Z * Z)) : res Z :=
  match l with [] => Ok s | (x, y) :: t => let! p := p_mul c x y in let! r := p_add c s p in run_dot c r t end.
Definition sum_exact (c : cfg) (l : list Z) : Q := fold_right (fun x s => value c x + s)%Q 0%Q l.
Definition sum_magnitude (c : cfg) (l : list Z) : Q := fold_right (fun x s => Qabs (value c x) + s)%Q 0%Q l.
(** The exact result of every step is zero or of a size with at least [f] fraction bits. *)
Fixpoint sum_precise (c : cfg) (f s : Z) (l : list Z) : Prop :=
  match l with
  | [] => True
  | x :: t => precise c f (value c s + value c x) /\ forall r, p_add c s x = Ok r -> sum_precise c f r t
  end.
Fixpoint dot_precise (c : cfg) (f s : Z) (l : list (Z * Z)) : Prop :=
  match l with
  | [] => True
  | (x, y) :: t => precise c f (value c x * value c y) /\ forall p, p_mul c x y = Ok p -> precise c f (value c s + value c p) /\
      forall r, p_add c s p = Ok r -> dot_precise c f r t
  end.
