(** Reading printed numbers: the specification of the stream inserters. *)
From Coq Require Import ZArith Bool String Ascii.
Open Scope Z_scope.

(** The digit a character stands for. *)
Definition digit_of (a : ascii) : option Z :=
  let n := Z.of_N (N_of_ascii a) in
  if (48 <=? n) && (n <=? 57) then Some (n - 48)
  else if (97 <=? n) && (n <=? 102) then Some (n - 87)
  else None.
Fixpoint read_from (b acc : Z) (s : string) : option Z :=
  match s with
  | EmptyString => Some acc
  | String a t =>
    match digit_of a with
    | Some d => if d <? b then read_from b (acc * b + d) t else None
    | None => None
    end
  end.
(** [s] is a numeral of the natural number [z] in base [b]. *)
Definition numeral (b : Z) (s : string) (z : Z) : Prop := s <> EmptyString /\ read_from b 0 s = Some z.
(** [s] is a decimal numeral of [z], with a leading minus sign if [z] is negative. *)
Definition signed_numeral (s : string) (z : Z) : Prop :=
  (0 <= z /\ numeral 10 s z) \/ (z < 0 /\ exists t, s = String "-" t /\ numeral 10 t (- z)).
(** The base a stream with these base flags (decimal, octal, hexadecimal) writes integers in. *)
Definition base_of (dec oct hex : bool) : Z :=
  match dec, oct, hex with
  | false, true, false => 8
  | false, false, true => 16
  | _, _, _ => 10
  end.
(** Texts one after the other, each after a blank. *)
Fixpoint spaced (ts : list string) : string :=
  match ts with
  | nil => EmptyString
  | cons t r => (String " " t ++ spaced r)%string
  end.
