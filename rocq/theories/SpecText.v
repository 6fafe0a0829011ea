(** What the lines of a text listing are to show. *)
From Coq Require Import ZArith QArith Qabs Bool List String Ascii Sorted.
From Verif Require Import Res CInt Cfg Spec SpecFloat SpecPrint SpecDump Posit.
Import ListNotations.
Open Scope Z_scope.

Definition tab : string := String "009" EmptyString.
Definition nl : string := String "010" EmptyString.
(** Whether a format contains a letter. *)
Definition asks (ch : ascii) (format : string) : bool := existsb (Ascii.eqb ch) (list_ascii_of_string format).
(** The columns a format asks for. *)
Definition is_column (ch : ascii) : bool := existsb (Ascii.eqb ch) ["i"; "o"; "b"; "k"; "r"; "e"; "u"; "v"]%char.
Fixpoint columns_of (format : string) : list ascii :=
  match format with EmptyString => [] | String ch r => if is_column ch then ch :: columns_of r else columns_of r end.
Definition column_name (ch : ascii) : string :=
  match ch with
  | "i"%char => "signed_int" | "o"%char => "unsigned_int" | "b"%char => "bits" | "k"%char => "k" | "r"%char => "regime"
  | "e"%char => "exponent" | "u"%char => "unpacked" | "v"%char => "float" | _ => EmptyString
  end.
(** Texts each after a tab. *)
Fixpoint tabbed (ts : list string) : string :=
  match ts with [] => EmptyString | t :: r => (tab ++ t ++ tabbed r)%string end.
(** Lines of them. *)
Fixpoint lines (rows : list (list string)) : string :=
  match rows with [] => EmptyString | r :: rest => (tabbed r ++ nl ++ lines rest)%string end.

(** [k] is the regime of [q], the power of 2^(2^es) below it. *)
Definition regime_of (c : cfg) (q : Q) (k : Z) : Prop := (pow2 (k * 2 ^ ces c) <= Qabs q < pow2 ((k + 1) * 2 ^ ces c))%Q.
Definition exponent_of (q : Q) (e : Z) : Prop := (pow2 e <= Qabs q < pow2 (e + 1))%Q.
(** An unpacked number: sign, exponent, fraction. *)
Definition unpacked_text (c : cfg) (v : Z) (t : string) : Prop :=
  (real c v -> v <> 0 -> exists e f te tf tb, (value c v == uvalue (cF c) (v <? 0) e f)%Q /\ 0 <= f < 2 ^ cF c /\
    t = ("up(" ++ (if (v <? 0)%Z then "-" else "+") ++ " exp (dec) = " ++ te ++ " fraction (hex) = " ++ tf ++ " (bin) = " ++ tb ++ ")")%string /\
    signed_numeral te e /\ numeral 16 tf f /\ numeral 2 tb f /\ Z.of_nat (String.length tb) = cF c) /\
  (v = 0 -> t = "up(0)"%string) /\ (is_nan c v -> t = "up(nan)"%string) /\
  (is_inf c v -> t = if v <? 0 then "up(-infinity)"%string else "up(+infinity)"%string).
(** [t] is what the column [ch] is to show for the posit [v]. [show] is the text of a double and [pw n] the double 2^n. *)
Definition column (show : Z -> string) (pw : Z -> Z) (c : cfg) (v : Z) (ch : ascii) (t : string) : Prop :=
  let number := real c v /\ v <> 0 in
  match ch with
  | "i"%char => signed_numeral t v
  | "o"%char => numeral 10 t (v mod 2 ^ cN c)
  | "b"%char => numeral 2 t (v mod 2 ^ cN c) /\ Z.of_nat (String.length t) = cN c
  | "k"%char => exists k, signed_numeral t k /\ (number -> regime_of c (value c v) k) /\ (~ number -> k = 0)
  | "r"%char => exists k, t = show (pw (k * 2 ^ ces c)) /\ (number -> regime_of c (value c v) k) /\ (~ number -> k = 0)
  | "e"%char => exists e, signed_numeral t e /\ (number -> exponent_of (value c v) e) /\ (~ number -> e = 0)
  | "u"%char => unpacked_text c v t
  | "v"%char => exists b, t = show b /\ (real c v -> is_double b (value c v)) /\ (is_nan c v -> ieee_val 11 52 b = NaNVal) /\
      (is_inf c v -> ieee_val 11 52 b = InfVal (v <? 0))
  | _ => False
  end.
(** The posits shown in the line of [v]: itself, and its inverse, double and half if the format asks for them. *)
Definition shown (c : cfg) (format : string) (v : Z) (xs : list Z) : Prop := exists a b d, xs = v :: a ++ b ++ d /\
  (if asks "I" format then exists x, p_inv c v = Ok x /\ a = [x] else a = []) /\
  (if asks "2" format then exists t x, p_of_int c 2 = Ok t /\ p_mul c v t = Ok x /\ b = [x] else b = []) /\
  (if asks "A" format then exists t x, p_of_int c 2 = Ok t /\ p_div c v t = Ok x /\ d = [x] else d = []).
(** The texts of a line: those of every posit shown, column by column. *)
Definition line_of (show : Z -> string) (pw : Z -> Z) (c : cfg) (format : string) (v : Z) (row : list string) : Prop :=
  exists xs, shown c format v xs /\ Forall2 (fun p t => column show pw c (fst p) (snd p) t) (list_prod xs (columns_of format)) row.

(** What is listed: with the letter U every pattern in the order of unsigned patterns, otherwise every number in increasing order. *)
Definition listed (c : cfg) (format : string) (l : list Z) : Prop :=
  if asks "U" format then (forall v, In v l <-> pattern c v) /\ StronglySorted (fun a b => a mod 2 ^ cN c < b mod 2 ^ cN c) l
  else (forall v, In v l <-> real c v) /\ StronglySorted (fun a b => (value c a < value c b)%Q) l.
(** The bounds announced before. *)
Definition bounds_text (c : cfg) (format ta tb : string) : Prop :=
  if asks "U" format then numeral 10 ta 0 /\ numeral 10 tb (2 ^ cN c - 1) else signed_numeral ta (- maxreal c) /\ signed_numeral tb (maxreal c).
(** The columns that have a name in the heading of the program. *)
Definition named (ch : ascii) : bool := negb (Ascii.eqb ch "o").

(** A pattern in decimal and in as many bits as the holder has. *)
Definition special_text (c : cfg) (t : string) (v : Z) : Prop :=
  exists ta tb, t = (ta ++ " " ++ tb)%string /\ signed_numeral ta v /\ numeral 2 tb (v mod 2 ^ cH c) /\ Z.of_nat (String.length tb) = cH c.
(** The parts of the overview: types and sizes; [tname] names an integer type, given by its width and signedness. *)
Definition sizes_text (tname : ity -> string) (c : cfg) (t : string) : Prop := exists th tn tf te,
  t = ("posit" ++ nl ++ nl ++ "holding type:" ++ tname (Ity (cH c) true) ++ nl ++ "holding size bits: " ++ th ++ nl ++ "totalbits:" ++ tn ++ nl ++
    "fractiontype:" ++ tname (Ity (cF c) false) ++ nl ++ "fractiontype size bits:" ++ tf ++ nl ++ "exponent size bits:" ++ te ++ nl ++ "exponent type:" ++ tname (Ity (c_E c) true) ++ nl)%string /\
  numeral 10 th (cH c) /\ numeral 10 tn (cN c) /\ numeral 10 tf (cF c) /\ numeral 10 te (ces c).
(** The special patterns. *)
Definition specials_text (c : cfg) (t : string) : Prop :=
  match csp c with
  | WithInf => exists ti i, t = ("without signed infinity and NaN" ++ nl ++ "infinity " ++ ti ++ nl)%string /\ special_text c ti i /\ is_inf c i
  | WithNanInf => exists tp tm tn p m n, t = ("with signed infinity and NaN" ++ nl ++ "+infinity: " ++ tp ++ nl ++ "-infinity: " ++ tm ++ nl ++ "nan: " ++ tn ++ nl)%string /\
      special_text c tp p /\ special_text c tm m /\ special_text c tn n /\ is_pinf c p /\ is_ninf c m /\ is_nan c n
  | WithNan => exists tn n, t = ("without infinity, with NaN" ++ nl ++ "nan: " ++ tn ++ nl)%string /\ special_text c tn n /\ is_nan c n
  end.
