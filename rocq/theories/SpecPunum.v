(** Projective unums. The points of an alphabet, their negatives and reciprocals, 0 and infinity cut the projective line
    into points and the open intervals between neighbours; each of these is a pnum. *)
From Coq Require Import ZArith QArith List.
From Verif Require Import Spec SpecFloat.
Import ListNotations.
Open Scope Z_scope.

(** A point of the projective line: a number or the one infinity. *)
Inductive pr : Set := Fin (q : Q) | Inf.
Definition pr_eq (a b : pr) : Prop := match a, b with Fin p, Fin q => (p == q)%Q | Inf, Inf => True | _, _ => False end.
Definition pr_opp (a : pr) : pr := match a with Fin q => Fin (- q) | Inf => Inf end.
Definition pr_inv (a : pr) : pr := match a with Fin q => if Qeq_bool q 0 then Inf else Fin (/ q) | Inf => Fin 0 end.
(** [z] can be the sum or product of [x] and [y]; where it is undetermined it can be anything. *)
Definition sum_of (x y z : pr) : Prop :=
  match x, y with Fin p, Fin q => pr_eq z (Fin (p + q)) | Inf, Inf => True | _, _ => z = Inf end.
Definition product_of (x y z : pr) : Prop :=
  match x, y with
  | Fin p, Fin q => pr_eq z (Fin (p * q))
  | Inf, Inf => z = Inf
  | Fin q, Inf | Inf, Fin q => (q == 0)%Q \/ z = Inf
  end.

(** An alphabet: 1 and numbers beyond, in order, a power of two many. *)
Fixpoint ascending (last : Q) (e : list Q) : Prop := match e with [] => True | x :: e' => (last < x)%Q /\ ascending x e' end.
Definition well_formed (e : list Q) : Prop :=
  (exists x t, e = x :: t /\ (x == 1)%Q) /\ ascending 0 e /\ exists k : nat, length e = (2 ^ k)%nat.

(** With n numbers in the alphabet e1 < ... < en there are 4n points, counted from 0 upwards: 0, 1/en, ..., 1/e2,
    1 = e1, ..., en, infinity, and then the negatives, -en first. *)
Definition point (e : list Q) (k : Z) : pr :=
  let n := Z.of_nat (length e) in
  let pos k := if k =? 0 then 0%Q else if k <? n then (/ nth (Z.to_nat (n - k)) e 0)%Q else nth (Z.to_nat (k - n)) e 0%Q in
  if k <? 2 * n then Fin (pos k) else if k =? 2 * n then Inf else Fin (- pos (4 * n - k)).
(** The pnum [v], of 0 to 8n-1: at an even number a point, at an odd one the open interval from the point before it to the
    one after it. *)
Definition member (e : list Q) (v : Z) (x : pr) : Prop :=
  if Z.even v then pr_eq x (point e (v / 2))
  else exists q, x = Fin q /\
    match point e (v / 2) with Fin p => (p < q)%Q | Inf => True end /\
    match point e ((v / 2 + 1) mod (4 * Z.of_nat (length e))) with Fin p => (q < p)%Q | Inf => True end.
Definition is_pnum (e : list Q) (v : Z) : Prop := 0 <= v < 8 * Z.of_nat (length e).
(** [v] is met on the way from [first] upwards, through infinity if need be, to [last]. *)
Definition on_arc (e : list Q) (first last v : Z) : Prop :=
  is_pnum e v /\ (v - first) mod (8 * Z.of_nat (length e)) <= (last - first) mod (8 * Z.of_nat (length e)).
Definition in_arc (e : list Q) (first last : Z) (x : pr) : Prop := exists v, on_arc e first last v /\ member e v x.
(** A bound: no pnum at all, or those from first to last. *)
Inductive pbound : Set := PBound (empty : bool) (first last : Z).
Definition in_bound (e : list Q) (b : pbound) (x : pr) : Prop := let 'PBound empty f l := b in empty = false /\ in_arc e f l x.
(** A result that is a pnum or a bound. *)
Definition in_result (e : list Q) (r : Z + pbound) (x : pr) : Prop := match r with inl v => member e v x | inr b => in_bound e b x end.

(** Sums and products of two points are doubles. *)
Definition in_doubles (e : list Q) : Prop :=
  forall j k p q, 0 <= j < 4 * Z.of_nat (length e) -> 0 <= k < 4 * Z.of_nat (length e) -> point e j = Fin p -> point e k = Fin q ->
    is_float 11 52 (p + q) /\ is_float 11 52 (p * q).

(** Two pairs of numbers that are the same up to order and a common change of sign. *)
Definition same_pair (p q p' q' : Q) : Prop :=
  ((p' == p /\ q' == q) \/ (p' == q /\ q' == p) \/ (p' == - p /\ q' == - q) \/ (p' == - q /\ q' == - p))%Q.
