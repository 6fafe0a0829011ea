(** scripts/punum.py: projective unums over an alphabet of fractions.

    Python integers are Z and fractions Q. The functions are those for an Alphabet made of Fraction objects; with int or float
    points inv() is float division, which is not modelled. The methods that name undefined variables when called
    (slowsquare, slowtwice, sqrt and exp of exact numbers, __neg__ of Pbound) are not modelled, nor is the text output. *)
From Coq Require Import ZArith QArith Bool List.
From Verif Require Import Spec SpecFloat SpecPunum.
Import ListNotations.
Open Scope Z_scope.

(** A value or an exception. *)
Inductive py (A : Type) : Type := Ret (a : A) | Raise.
Arguments Ret {A} a.
Arguments Raise {A}.
Definition pbind {A B : Type} (x : py A) (f : A -> py B) : py B := match x with Ret a => f a | Raise => Raise end.
Notation "'let?' x ':=' e 'in' f" := (pbind e (fun x => f)) (at level 200, x name, e at level 200, f at level 200, right associativity).

(** Comparisons of fractions and floats, which Python does exactly. *)
Definition qlt (a b : Q) : bool := negb (Qle_bool b a).
Definition qeq (a b : Q) : bool := Qeq_bool a b.

(** The checks of Alphabet.__init__, lines 64-74. The number of one bits of the length is counted on its binary digits. *)
Fixpoint ones (p : positive) : Z := match p with xH => 1 | xO p => ones p | xI p => 1 + ones p end.
Fixpoint monotonic (last : Q) (e : list Q) : bool :=
  match e with [] => true | x :: e' => if qlt x 1 || Qle_bool x last then false else monotonic x e' end.
Definition alphabet (e : list Q) : py (list Q) :=
  match e with
  | [] => Raise
  | x :: _ =>
    if negb (qeq x 1) then Raise
    else if negb (match Z.of_nat (length e) with Zpos p => ones p | _ => 0 end =? 1) then Raise
    else if monotonic 0 e then Ret e else Raise
  end.

Section alphabet.
Variable E : list Q.
(** The number of pnums and the mask, lines 76-83. *)
Definition pn_n2 : Z := Z.shiftl (Z.of_nat (length E)) 3.
Definition pn_mask : Z := pn_n2 - 1.
(** rawpnum, one, zero, inf, next and prev, lines 88-105. *)
Definition pn_raw (x : Z) : Z := Z.land x pn_mask.
Definition pn_one : Z := pn_raw (Z.shiftr pn_n2 2).
Definition pn_zero : Z := 0.
Definition pn_inf : Z := pn_raw (Z.shiftr pn_n2 1).
Definition pn_next (x : Z) : Z := Z.land (x + 1) pn_mask.
Definition pn_prev (x : Z) : Z := Z.land (x - 1) pn_mask.
(** __neg__ and __invert__ of Pnum, lines 203-206. *)
Definition pn_neg (v : Z) : Z := pn_raw (- v).
Definition pn_inv (v : Z) : Z := pn_raw (- (v + Z.shiftr pn_n2 1)).
(** Predicates and abs, lines 213-237. *)
Definition pn_isinf (v : Z) : bool := v =? Z.shiftr pn_n2 1.
Definition pn_iszero (v : Z) : bool := v =? 0.
Definition pn_isexact (v : Z) : bool := Z.land v 1 =? 0.
Definition pn_isstrictlynegative (v : Z) : bool := Z.shiftr pn_n2 1 <? v.
Definition pn_abs (v : Z) : Z := if pn_isstrictlynegative v then pn_neg v else v.
Definition pn_isfractional (v : Z) : bool := let w := pn_abs v in (0 <? w) && (w <? Z.shiftr pn_n2 2).
(** fromexactsindex, lines 116-121. *)
Definition pn_fromexacts (idx : nat) : Z := pn_raw (Z.shiftr pn_n2 2 + Z.shiftl (Z.of_nat idx) 1).
(** eexacts[i]; the indices that occur are in range. *)
Definition pn_at (i : nat) : Q := nth i E 0%Q.

(** _searchvalue, lines 122-166. The loop shrinks hi - lo, so the length of the table bounds its rounds. [up] is the test that moves lo. *)
Fixpoint pn_bisect (up : nat -> bool) (rounds lo hi : nat) : nat * nat :=
  match rounds with
  | O => (lo, hi)
  | S r =>
    let mid := (lo + Nat.div2 (hi - lo))%nat in
    if (mid =? lo)%nat || (mid =? hi)%nat then (lo, hi)
    else if up mid then pn_bisect up r mid hi else pn_bisect up r lo mid
  end.
Definition pn_search_pos (x : Q) : Z :=
  let len := length E in
  if qlt x 1 then
    let '(lo, hi) := pn_bisect (fun mid => qlt x (/ pn_at mid)) len 0 len in
    if qeq (/ pn_at lo) x then pn_inv (pn_fromexacts lo)
    else if (hi <? len)%nat && qeq (/ pn_at hi) x then pn_inv (pn_fromexacts hi)
    else if (lo =? 0)%nat then pn_prev pn_one
    else if (len <=? hi)%nat then pn_next pn_zero
    else pn_inv (pn_next (pn_fromexacts lo))
  else
    let '(lo, hi) := pn_bisect (fun mid => qlt (pn_at mid) x) len 0 len in
    if qeq (pn_at lo) x then pn_fromexacts lo
    else if (hi <? len)%nat && qeq (pn_at hi) x then pn_fromexacts hi
    else if (lo =? 0)%nat then pn_next pn_one
    else if (len <=? hi)%nat then pn_prev pn_inf
    else pn_next (pn_fromexacts lo).
Definition pn_search (x : Q) : Z :=
  if qeq x 0 then pn_zero else if qlt x 0 then pn_neg (pn_search_pos (- x)) else pn_search_pos x.

(** convert, lines 106-115: of a fraction or integer, which becomes a float first, or of a float. float() rounds with [rnd], and
    raises OverflowError out of range. *)
Variable rnd : Q -> Z.
Inductive pyval : Set := PRat (q : Q) | PFlt (e : ieee).
Definition pn_convert (x : pyval) : py Z :=
  match x with
  | PRat q => match ieee_val 11 52 (rnd q) with FinVal y => Ret (pn_search y) | _ => Raise end
  | PFlt (FinVal y) => Ret (pn_search y)
  | PFlt (InfVal _) => Ret pn_inf
  | PFlt NaNVal => Raise
  end.

(** exactvalue, lines 341-356, without the recursion; [None] is math.inf. *)
Definition pn_positive_value (w : Z) : Q := pn_at (Z.to_nat (Z.shiftr (w - Z.shiftr pn_n2 2) 1)).
Definition pn_nonneg_value (w : Z) : Q := if pn_isfractional w then / pn_positive_value (pn_inv w) else pn_positive_value w.
Definition pn_exactvalue (v : Z) : option Q :=
  if pn_isinf v then None
  else if v =? 0 then Some 0%Q
  else if pn_isstrictlynegative v then Some (- pn_nonneg_value (pn_neg v))%Q
  else Some (pn_nonneg_value v).
(** _exacttimes and _exactplus, lines 238-245. An infinite operand gives infinity; that the discarded product of infinity and a
    fraction beyond the doubles raises OverflowError is not modelled. *)
Definition pn_exactop (op : Q -> Q -> Q) (a b : Z) : py Z :=
  if pn_isinf a || pn_isinf b then Ret pn_inf
  else match pn_exactvalue a, pn_exactvalue b with Some p, Some q => pn_convert (PRat (op p q)) | _, _ => Ret pn_inf end.

(** Pbound, lines 455-467, with the static methods of lines 488-508; a bound is a flag and two pnums. *)
Definition pb_one_of (v : Z) : pbound := PBound false v v.
Definition pb_everything : pbound := PBound false pn_zero (pn_prev pn_zero).
Definition pb_empty : pbound := PBound true pn_zero pn_zero.
Definition pb_finite : pbound := PBound false (pn_next pn_inf) (pn_prev pn_inf).
Definition pb_nonzero : pbound := PBound false (pn_next pn_zero) (pn_prev pn_zero).

(** The ends of a pnum, lines 286-287 and 333-334. *)
Definition pn_ends (v : Z) : Z * Z := if pn_isexact v then (v, v) else (pn_prev v, pn_next v).
(** The last lines of slowtimes and slowplus, 295-297 and 338-340. *)
Definition pn_close (abe : bool) (z1 z2 : Z) : pbound :=
  PBound false (if negb abe && pn_isexact z1 then pn_next z1 else z1) (if negb abe && pn_isexact z2 then pn_next z2 else z2).
(** slowtimes, lines 270-297. *)
Definition pn_times (a b : Z) : py pbound :=
  let ai := pn_isinf a in let a0 := pn_iszero a in let bi := pn_isinf b in let b0 := pn_iszero b in
  if ai && b0 || a0 && bi then Ret pb_everything
  else if ai || bi then Ret (pb_one_of pn_inf)
  else if a0 || b0 then Ret (pb_one_of pn_zero)
  else
    let abe := pn_isexact a && pn_isexact b in
    let '(x1, x2) := pn_ends a in
    let '(y1, y2) := pn_ends b in
    let '(x1, x2) := if pn_isstrictlynegative a then (x2, x1) else (x1, x2) in
    let '(y1, y2) := if pn_isstrictlynegative b then (y2, y1) else (y1, y2) in
    let? z1 := pn_exactop Qmult x1 y1 in
    let? z2 := pn_exactop Qmult x2 y2 in
    Ret (pn_close abe z1 z2).
(** slowplus, lines 317-340. It returns one of its arguments, a Pnum, if the other is zero, and a Pbound otherwise. *)
Definition pn_plus (a b : Z) : py (Z + pbound) :=
  let ai := pn_isinf a in let bi := pn_isinf b in
  if ai && bi then Ret (inr pb_everything)
  else if ai || bi then Ret (inr (pb_one_of pn_inf))
  else if pn_iszero a then Ret (inl b)
  else if pn_iszero b then Ret (inl a)
  else
    let abe := pn_isexact a && pn_isexact b in
    let '(x1, x2) := pn_ends a in
    let '(y1, y2) := pn_ends b in
    let? z1 := pn_exactop Qplus x1 y1 in
    let? z2 := pn_exactop Qplus x2 y2 in
    Ret (inr (pn_close abe z1 z2)).
(** __sub__, lines 201-202. *)
Definition pn_minus (a b : Z) : py (Z + pbound) := pn_plus a (pn_neg b).

(** Pbound methods, lines 468-484 and 535-539. Pnum has no __eq__, so iseverything compares two distinct objects and is
    false. iter goes on until it meets the last pnum, at most [pn_n2] of them. *)
Definition pb_iseverything (b : pbound) : bool := false.
Definition pb_complement (b : pbound) : pbound :=
  let 'PBound empty f l := b in
  if empty then pb_everything
  else if pb_iseverything b then pb_empty
  else PBound false (pn_next l) (pn_prev f).
Definition pb_invert (b : pbound) : pbound := let 'PBound _ f l := b in PBound false (pn_inv l) (pn_inv f).
Fixpoint pb_walk (rounds : nat) (f l : Z) : list Z :=
  f :: match rounds with O => [] | S r => if f =? l then [] else pb_walk r (pn_next f) l end.
Definition pb_iter (b : pbound) : list Z := let 'PBound empty f l := b in if empty then [] else pb_walk (Z.to_nat pn_n2) f l.
End alphabet.

(** p1, p2, p4, p8 and p8a, lines 167-187. *)
Definition al_p1 : list Q := [1]%Q.
Definition al_p2 : list Q := [1; 2]%Q.
Definition al_p4 : list Q := [1; 2; 4; 8]%Q.
Definition al_p8 : list Q := map (fun k => inject_Z (Z.shiftl 1 k)) [0; 1; 2; 3; 4; 5; 6; 7].
Definition al_p8a : list Q := flat_map (fun m => map (fun n => (2 ^ n * (4 + m)) # 4) [0; 1; 2; 3; 4; 5; 6; 7]) [0; 1; 2; 3].
