(** The small functions of matlab/: the limits of half precision and the Morton order. A char array is the list of its
    rows, a digit is its number. *)
From Coq Require Import ZArith List Ascii String.
Import ListNotations.
Open Scope Z_scope.

(** MATLAB hex2dec of digits and upper case letters. *)
Definition hex_digit (c : ascii) : Z :=
  let n := Z.of_nat (nat_of_ascii c) in if n <? 58 then n - 48 else n - 55.
Fixpoint hex2dec_from (a : Z) (s : string) : Z :=
  match s with EmptyString => a | String c r => hex2dec_from (16 * a + hex_digit c) r end.
Definition hex2dec (s : string) : Z := hex2dec_from 0 s.
(** MATLAB uint16 of a whole number: it saturates. *)
Definition m_uint16 (x : Z) : Z := Z.max 0 (Z.min 65535 x).
(** halfprecisionmax.m 41-49. *)
Definition halfprecisionmax : Z := m_uint16 (hex2dec "7BFF").
(** halfprecisionmin.m 41-49. *)
Definition halfprecisionmin : Z := m_uint16 (hex2dec "0001").

(** MATLAB dec2base for a base that is a power of two: as many digits as the greatest number needs, and at least one. *)
Definition m_width (b m : Z) : nat := Z.to_nat (Z.log2 m / Z.log2 b + 1).
Definition m_digits (b : Z) (w : nat) (x : Z) : list Z := map (fun k => (x / b ^ Z.of_nat k) mod b) (rev (seq 0 w)).
Definition dec2base (b : Z) (xs : list Z) : list (list Z) := map (m_digits b (m_width b (fold_right Z.max 0 xs))) xs.
(** m(:,k+1), an error if the rows are shorter; str2num of a column of digits gives their numbers. *)
Definition m_col (k : nat) (m : list (list Z)) : option (list Z) :=
  fold_right (fun row acc => match nth_error row k, acc with Some x, Some l => Some (x :: l) | _, _ => None end) (Some []) m.
(** bin2dec([x y]) for columns of binary digits. *)
Definition bin2dec (x y : list Z) : list Z := map (fun p => 2 * fst p + snd p) (combine x y).

Definition obind {A B} (x : option A) (f : A -> option B) : option B := match x with Some a => f a | None => None end.
(** morton.m 10-19; None is an index out of range. Line 15 is the end of the comment before it and only displays b2. *)
Definition morton (n : nat) : option (list Z) :=
  let linind4 := map Z.of_nat (seq 0 (Nat.pow 4 n)) in
  let ind4str := dec2base 4 linind4 in
  obind (m_col 0 ind4str) (fun d1 => obind (m_col 1 ind4str) (fun d2 =>
  let b1 := dec2base 2 d1 in
  let b2 := dec2base 2 d2 in
  obind (m_col 0 b1) (fun b11 => obind (m_col 0 b2) (fun b21 => obind (m_col 1 b1) (fun b12 => obind (m_col 1 b2) (fun b22 =>
  let r := map (Z.add 1) (bin2dec b11 b21) in
  let c := map (Z.add 1) (bin2dec b12 b22) in
  Some (map (fun p => 2 ^ Z.of_nat n * (snd p - 1) + fst p) (combine r c)))))))).
