(** Reading a generated C++ file back: one namespace with array definitions in it. *)
From Coq Require Import ZArith List Bool String Ascii.
From Verif Require Import SpecPrint.
From Verif Require Res.
Import ListNotations.
Open Scope Z_scope.
Open Scope string_scope.

(** The text after the prefix [p]. *)
Fixpoint after (p s : string) : option string :=
  match p, s with
  | EmptyString, _ => Some s
  | String a p', String b s' => if Ascii.eqb a b then after p' s' else None
  | String _ _, EmptyString => None
  end.
(** The text before and after the first character [a]. *)
Fixpoint upto_char (a : ascii) (s : string) : option (string * string) :=
  match s with
  | EmptyString => None
  | String b t =>
    if Ascii.eqb a b then Some (EmptyString, t)
    else match upto_char a t with Some (u, v) => Some (String b u, v) | None => None end
  end.
(** Blanks and newlines dropped. *)
Fixpoint no_blanks (s : string) : string :=
  match s with
  | String a t => if Ascii.eqb a " " || Ascii.eqb a "010" then no_blanks t else s
  | EmptyString => EmptyString
  end.
(** A decimal integer literal, possibly after a minus sign. *)
Definition read_int (s : string) : option Z :=
  match s with
  | EmptyString => None
  | String "-" EmptyString => None
  | String "-" t => match read_from 10 0 t with Some z => Some (- z) | None => None end
  | _ => read_from 10 0 s
  end.
(** The initialisers up to the closing brace, each followed by a comma; [tok] is the text since the last comma. *)
Fixpoint read_entries (tok s : string) : option (list Z * string) :=
  match s with
  | EmptyString => None
  | String a t =>
    if Ascii.eqb a "," then
      match read_int tok, read_entries EmptyString t with
      | Some z, Some (l, r) => Some (z :: l, r)
      | _, _ => None
      end
    else if Ascii.eqb a "}" then (match tok with EmptyString => Some (nil, t) | _ => None end)
    else read_entries (tok ++ String a EmptyString) t
  end.
Notation "'do' p <- x ; y" := (match x with Some p => y | None => None end) (at level 200, p pattern, x at level 100, y at level 200).
(** [type name[] = { entries };], and the text after it. *)
Definition read_array (s : string) : option (string * string * list Z * string) :=
  do (ty, s1) <- upto_char " " s;
  do (name, s2) <- upto_char "[" s1;
  do s3 <- after "] = {" s2;
  do (l, s4) <- read_entries EmptyString (no_blanks s3);
  do s5 <- after ";" s4;
  Some (ty, name, l, s5).
(** Array definitions up to the brace that closes the namespace, after which nothing but blanks follows. *)
Fixpoint read_arrays (fuel : nat) (s : string) : option (list (string * string * list Z)) :=
  match fuel with
  | O => None
  | S m =>
    match after "}" (no_blanks s) with
    | Some t => match no_blanks t with EmptyString => Some nil | _ => None end
    | None =>
      do (ty, name, l, t) <- read_array (no_blanks s);
      do r <- read_arrays m t;
      Some ((ty, name, l) :: r)
    end
  end.
(** The include directive, which takes a line of its own. *)
Definition include_line : string := "#include <stdint.h>" ++ String "010" EmptyString.
(** The namespace, and the type, name and entries of every array in it, in order. *)
Definition read_file (s : string) : option (string * list (string * string * list Z)) :=
  do s1 <- after include_line s;
  do s2 <- after "namespace " (no_blanks s1);
  do (ns, s3) <- upto_char " " s2;
  do s4 <- after "{" (no_blanks s3);
  do s5 <- after "//" (no_blanks s4);
  do (comment, s6) <- upto_char "010" s5;
  do l <- read_arrays (String.length s6) s6;
  Some (ns, l).

(** A file with one array and no namespace. *)
Definition read_array_file (s : string) : option (string * string * list Z) :=
  do s1 <- after include_line s;
  do (ty, name, l, t) <- read_array (no_blanks s1);
  match no_blanks t with EmptyString => Some (ty, name, l) | _ => None end.

(** The values of the integer types of the files. *)
Definition c_fits (ty : string) (z : Z) : Prop :=
  (ty = "int8_t" /\ -128 <= z < 128) \/ (ty = "int16_t" /\ -32768 <= z < 32768) \/ (ty = "uint32_t" /\ 0 <= z < 2 ^ 32) \/
  (ty = "uint16_t" /\ 0 <= z < 2 ^ 16).
(** The array called [name], of the given type, has exactly [n] entries, the [i]th of which is the value of [a i] and
    a value of the type. *)
Definition defines (l : list (string * string * list Z)) (ty name : string) (n : Z) (a : Z -> Res.res Z) : Prop :=
  exists zs, In (ty, name, zs) l /\ (forall ty' zs', In (ty', name, zs') l -> ty' = ty /\ zs' = zs) /\
  Z.of_nat (List.length zs) = n /\ Forall (c_fits ty) zs /\
  forall i, 0 <= i < n -> a i = Res.Ok (nth (Z.to_nat i) zs 0).
(** The text without newline characters. *)
Definition one_line (s : string) : Prop := upto_char "010" s = None.
