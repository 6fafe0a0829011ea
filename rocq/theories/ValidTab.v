(** scripts/validsgentable.py: the tables of sums and products of the exact pnums of an alphabet.

    The alphabets are those of punum.py made of fractions (options --p4 and --p8; --points gives integers, whose reciprocals
    are floats, and is not modelled). Rows are the numbers ai, bi and yi; the columns a, b and y are the operands and the
    result as fractions. Progress lines, tabulate, --pickle (which names modules and functions that are not imported) and
    --sparsetab (which subscripts a fraction once it reaches the list of points) are not modelled. *)
From Coq Require Import ZArith QArith Bool List.
From Verif Require Import Spec SpecFloat SpecPunum Punum.
Import ListNotations.
Open Scope Z_scope.

(** The choices of --op1, line 45. *)
Inductive vt_op1 : Set := VHalf | VTwice | VSquare | VExp2 | VFloat.
(** A loop that collects the rows of a table. *)
Fixpoint pmap {A B : Type} (f : A -> py B) (l : list A) : py (list B) :=
  match l with [] => Ret [] | x :: l' => let? y := f x in let? t := pmap f l' in Ret (y :: t) end.

Section tables.
Variable E : list Q.
Variable rnd : Q -> Z.
(** The list "whats", lines 159-172. *)
Definition vt_whats (i j : nat) : list (Z * Z) :=
  let a := pn_fromexacts E i in
  let b := pn_fromexacts E j in
  let ia := pn_inv E a in
  let ib := pn_inv E b in
  let m := pn_neg E in
  if (i =? 0)%nat then
    if (j =? 0)%nat then [(a, b); (m a, b)]
    else [(a, b); (a, m b); (m a, m ib); (a, m ib)]
  else if (i =? j)%nat then [(a, a); (a, m a); (ia, a); (ia, ia); (a, m ia)]
  else [(a, b); (a, m b); (ia, b); (m a, m ib); (m ia, m ib); (ia, m ib); (ia, m b); (a, m ib)].
(** The two loops, lines 129 and 153-155. *)
Definition vt_pairs : list (Z * Z) :=
  flat_map (fun i => flat_map (vt_whats i) (seq i (length E - i))) (seq 0 (length E)).
(** One row, lines 175-181. No pair has an infinite member, so exactvalue is never [None]. *)
Definition vt_row (op : Q -> Q -> Q) (x : Z * Z) : py (Z * Z * Z) :=
  match pn_exactvalue E (fst x), pn_exactvalue E (snd x) with
  | Some x1, Some x2 => let? uy := pn_convert E rnd (PRat (op x1 x2)) in Ret (x, uy)
  | _, _ => Raise
  end.
Definition vt_table (op : Q -> Q -> Q) : py (list (Z * Z * Z)) := pmap (vt_row op) vt_pairs.
(** The table "float", lines 134-136. *)
Definition vt_float : list (Z * option Q) :=
  flat_map (fun i => let a := pn_fromexacts E i in let ia := pn_inv E a in [(a, pn_exactvalue E a); (ia, pn_exactvalue E ia)]) (seq 0 (length E)).
(** A unary operation and the entry for its result, lines 101-108, 143-146 and 148. Pnum has __div__ but not __truediv__, so /
    raises; products are Pbound objects, which have no method exactvalue; math is not imported. *)
Definition pb_entry (b : pbound) : py Z := Raise.
Definition vt_unary (o : vt_op1) (two v : Z) : py Z :=
  match o with
  | VHalf => Raise
  | VTwice => let? b := pn_times E rnd v two in pb_entry b
  | VSquare => let? b := pn_times E rnd v v in pb_entry b
  | VExp2 => Raise
  | VFloat => Ret v
  end.
(** The unary tables, lines 139-151, for the operations other than "float". *)
Definition vt_unary_rows (o : vt_op1) (two : Z) (i : nat) : py (list (Z * Z)) :=
  let a := pn_fromexacts E i in
  let ia := pn_inv E a in
  let ma := pn_neg E a in
  let mia := pn_neg E ia in
  let? y := vt_unary o two a in
  let? iy := vt_unary o two ia in
  let? my := vt_unary o two ma in
  let? miy := vt_unary o two mia in
  Ret [(a, y); (ma, my); (ia, iy); (mia, miy)].
(** main, lines 86-181: the tables of the chosen operations. The loops of the code fill all tables side by side; the outcome is
    the same. An operation chosen twice gives one table with each row twice, which is not modelled. *)
Definition is_float_op (o : vt_op1) : bool := match o with VFloat => true | _ => false end.
Definition vt_main (op1 : list vt_op1) (op2 : list (Q -> Q -> Q)) : py (list (list (list (Z * Z))) * list (list (Z * Z * Z))) :=
  let? two := pn_convert E rnd (PRat 2) in
  let? t1 := pmap (fun o => pmap (vt_unary_rows o two) (seq 0 (length E))) (filter (fun o => negb (is_float_op o)) op1) in
  let? t2 := pmap vt_table op2 in
  Ret (t1, t2).
(** The default of --op1, lines 45 and 49. *)
Definition vt_default_op1 : list vt_op1 := [VHalf; VTwice; VSquare; VExp2; VFloat].
End tables.
