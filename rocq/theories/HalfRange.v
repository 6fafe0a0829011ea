(** The half precision numbers in a range, matlab/halfinrange.m, and the table compareposits.m and compareposits2.m make of
    them. A double is its bit pattern; [rnd] is the rounding of exact results to double. *)
From Coq Require Import ZArith QArith Bool List.
From Verif Require Import Res CInt SpecFloat FloatOps Asimd Soft MatHalf Dump.
Import ListNotations.
Open Scope Z_scope.
Open Scope res_scope.

(** sort in ascending order: equal elements keep their order and NaNs come last. Each element comes with the one that has
    the same index in another vector, which line 11 of halfinrange.m brings in the same order. *)
Definition m_before (a b : Z) : bool := f_lt 11 52 a b || (f_eq 11 52 a a && negb (f_eq 11 52 b b)).
Fixpoint m_insert (x : Z * Z) (l : list (Z * Z)) : list (Z * Z) :=
  match l with
  | [] => [x]
  | y :: r => if m_before (snd y) (snd x) then y :: m_insert x r else x :: l
  end.
Fixpoint m_sort (l : list (Z * Z)) : list (Z * Z) :=
  match l with [] => [] | x :: r => m_insert x (m_sort r) end.

Section gateway.
(** The parameters of halfprecision, as in [MatHalf]. *)
Variable little : bool.
Variable from_single : mclass -> Z -> Z.
(** halfinrange.m 4-11, with the patterns [z]; None is an error message of halfprecision. *)
Definition half_select (z : list Z) (mi ma : Z) : res (option (list Z * list Z)) :=
  let! r := array_of_half little from_single MDouble z None in
  match r with
  | None => Ok None
  | Some (y, _) =>
    let l := m_sort (filter (fun p => f_le 11 52 mi (snd p) && f_le 11 52 (snd p) ma) (combine z y)) in
    Ok (Some (map fst l, map snd l))
  end.
(** halfinrange.m 3. *)
Definition m_uint16s : list Z := map Z.of_nat (seq 0 (Z.to_nat 65536)).
Definition halfinrange (mi ma : Z) : res (option (list Z * list Z)) := half_select m_uint16s mi ma.
End gateway.

(** compareposits2.m 15, compareposits.m 15: dump2table([-length(u)/2:(length(u)/2-1);cast(u,'double');h]'), where the
    range has as many elements as [u]. *)
Definition half_table (rnd : Q -> Z) (u h : list Z) : option (table * summary) :=
  let n := Z.of_nat (length u) in
  let t := Tab (map (fun i => rnd (inject_Z (2 * Z.of_nat i - n) / 2)%Q) (seq 0 (length u))) (map (fun p => rnd (inject_Z p)) u) h (meandiff rnd h) in
  match describetab t with Some s => Some (t, s) | None => None end.
