(** The text output of the listing program, src/listposits.cpp.

    The letter p is left out: it writes posit_formatter<X>(x), which is not defined in the repository. [show] is what
    the stream writes for a double, [showf] for a float, both given by their bits, [tname] the name typeid gives to an integer
    type, and [pw n] the double pow(2,n). Streams are those of [Print]. *)
From Coq Require Import ZArith Bool List String Ascii.
From Verif Require Import Res CInt Cfg Traits Unpacked Posit ListP Dump Print.
Import ListNotations.
Open Scope Z_scope.
Open Scope res_scope.

(** '\t' and std::endl. *)
Definition w_tab : string := String "009" EmptyString.
Definition w_endl : string := String "010" EmptyString.

Section show.
Variable show showf : Z -> string.
Variable tname : ity -> string.
Variable pw : Z -> Z.

(** listposits.cpp 124-137: what is written for one letter of the format. *)
Definition t_field (c : cfg) (v : Z) (up : unpacked) (l : ulow) (ch : ascii) (o : stream) : res stream :=
  match ch with
  | "i" => Ok (put_int (tPT c) (cast (tPT c) v) (put w_tab o))
  | "o" => Ok (put_int (tPT c) (cast (tPT c) (cast (tU c) v)) (put w_tab o))
  | "b" => Ok (put_bits (cN c) v (put w_tab o))
  | "k" => Ok (put_int (tPT c) (cast (tPT c) (lreg l)) (setf only_dec (put w_tab o)))
  | "r" => let! m := cmul (common (tS c) (tPT c)) (REG_SCALE c) (cast (tPT c) (lreg l)) in Ok (put (show (pw m)) (put w_tab o))
  | "e" => Ok (put_int (tPT c) (cast (tPT c) (uexp up)) (setf only_dec (put w_tab o)))
  | "u" => Ok (print_unpacked (cF c) (c_E c) up (put w_tab o))
  | "v" => let! b := p_to_float c double_trait v in Ok (put (show b) (put w_tab o))
  | _ => Ok o
  end%char.
(** listposits.cpp 122-138. *)
Fixpoint t_fields (c : cfg) (v : Z) (up : unpacked) (l : ulow) (format : string) (o : stream) : res stream :=
  match format with
  | EmptyString => Ok o
  | String ch rest => let! o := t_field c v up l ch o in t_fields c v up l rest o
  end.
(** listposits.cpp 108-139. *)
Definition t_print1 (c : cfg) (format : string) (v : Z) (o : stream) : res stream :=
  let! up := unpack c v in
  let! l := unpack_low c v in
  t_fields c v up l format o.
(** listposits.cpp 330-338 and 348-356: the line of one posit. *)
Definition t_posit (c : cfg) (format : string) (v : Z) (o : stream) : res stream :=
  let! o := t_print1 c format v o in
  let! o := (if d_has "I" format then let! x := p_inv c v in t_print1 c format x o else Ok o) in
  let! o := (if d_has "2" format then let! t := p_of_int c 2 in let! x := p_mul c v t in t_print1 c format x o else Ok o) in
  let! o := (if d_has "A" format then let! t := p_of_int c 2 in let! x := p_div c v t in t_print1 c format x o else Ok o) in
  Ok (put w_endl o).
Fixpoint t_posits (c : cfg) (format : string) (l : list Z) (o : stream) : res stream :=
  match l with
  | [] => Ok o
  | v :: r => let! o := t_posit c format v o in t_posits c format r o
  end.

(** listposits.cpp 301-314: the heading of one letter. There is none for the letter o. *)
Definition t_name (ch : ascii) : string :=
  match ch with
  | "i"%char => w_tab ++ "signed_int"
  | "p"%char => w_tab ++ "posit"
  | "b"%char => w_tab ++ "bits"
  | "k"%char => w_tab ++ "k"
  | "e"%char => w_tab ++ "exponent"
  | "u"%char => w_tab ++ "unpacked"
  | "r"%char => w_tab ++ "regime"
  | "v"%char => w_tab ++ "float"
  | _ => EmptyString
  end.
(** listposits.cpp 299-317. *)
Fixpoint t_names (format : string) : string :=
  match format with EmptyString => EmptyString | String ch r => t_name ch ++ t_names r end.
(** listposits.cpp 284-294. *)
Definition t_looping (c : cfg) (format : string) (o : stream) : res stream :=
  if d_has "U" format then
    let! t := cshl c_int 1 (cN c) in
    let! m := csub c_int t 1 in
    let o := put_int (tNT c) 0 (setf only_dec (put "looping unsigned " o)) in
    Ok (put w_endl (put_int (tNT c) (cast (tNT c) m) (put " to " o)))
  else
    let o := put_int (tPT c) (cast (tPT c) (P_MINNEG c)) (setf only_dec (put "looping signed " o)) in
    Ok (put w_endl (put_int (tPT c) (cast (tPT c) (P_MAXPOS c)) (put " to " o))).

(** listposits.cpp 260-261: the double value of a posit made from the pattern [n] taken as an int, X(n). It does not compile for
    64 bit holders, for which the constructor is ambiguous. *)
Definition t_of (c : cfg) (n : Z) : res Z := let! x := p_of_int c n in p_to_float c double_trait x.
(** listposits.cpp 251-253, 258. *)
Definition t_pattern (c : cfg) (n : Z) (o : stream) : stream :=
  put w_endl (put_bits (cH c) n (put " " (put_int (tPT c) (cast (tPT c) n) o))).
(** std::cout << a << b << std::endl, with a text and a number for b. *)
Definition t_line (a b : string) (o : stream) : stream := put w_endl (put b (put a o)).
Definition t_num (a : string) (n : Z) (o : stream) : stream := put w_endl (put_int c_int n (put a o)).
(** listposits.cpp 233-261: the overview. *)
Definition t_overview (c : cfg) (o : stream) : res stream :=
  let o := put w_endl (put w_endl (put "posit" o)) in
  let o := t_line "holding type:" (tname (tS c)) o in
  let o := t_num "holding size bits: " (cH c) o in
  let o := t_num "totalbits:" (cN c) o in
  let o := t_line "fractiontype:" (tname (uint (cF c))) o in
  let o := t_num "fractiontype size bits:" (cF c) o in
  let o := t_num "exponent size bits:" (ces c) o in
  let o := t_line "exponent type:" (tname (sint (c_E c))) o in
  let o :=
    match csp c with
    | WithInf =>
      t_pattern c (P_PINF c) (put "infinity " (t_line "without signed infinity and NaN" "" o))
    | _ =>
      let o := t_pattern c (P_PINF c) (put "+infinity: " (t_line "with signed infinity and NaN" "" o)) in
      t_pattern c (P_NAN c) (put "nan: " (t_pattern c (P_NINF c) (put "-infinity: " o)))
    end in
  let! h := t_of c (P_HALF c) in
  let! t := t_of c (P_TWO c) in
  let o := put w_endl (put (show t) (put " twice=" (put (show h) (put " half=" o)))) in
  let! m := t_of c (P_MINNEG c) in
  let! x := p_of_int c (P_MAXPOS c) in
  let o := put " max=" (put_bits (cN c) (P_MINNEG c) (put " " (put (show m) (put " min=" o)))) in
  let! o := print_posit showf c x o in
  Ok (put w_endl o).

(** listposits.cpp 187-386: all of the output for a format that is not empty and has none of the letters h, B and p. The
    stream is std::cout as the program finds it. [fuel] as in [ListP]; undefined behaviour of the loop itself is put first,
    as in [d_file]. *)
Definition t_output (c : cfg) (format : string) (fuel : nat) : option (res stream) :=
  let start := Stream only_dec EmptyString in
  let over := if d_has "N" format then Ok start else t_overview c start in
  if negb (d_has "N" format) && d_has "H" format then Some over
  else
    match (if d_has "U" format then lp_unsigned c fuel else lp_signed c fuel) with
    | None => None
    | Some (UB w) => Some (UB w)
    | Some (Ok l) => Some (
      let! o := over in
      let! o := t_looping c format o in
      t_posits c format l (put w_endl (put (t_names format) o)))
    end.
End show.
