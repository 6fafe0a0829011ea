(** Model of the stream inserters (operator <<): posit.h 566-591, unpacked.h 471-499, positf.h 208-213, posit8.cpp 9-13,
    posit10.cpp 9-13, posit12.cpp 9-13, binary8.hpp 169-173, simdposit8.hpp 127-136, simd/asimd_base.h 353-378.

    A stream is modelled by the three base flags of its format flags and the text written to it. The remaining flags
    (showbase, showpos, uppercase), field width, fill character and locale are left at their defaults, and writing never
    fails. *)
From Coq Require Import ZArith List Bool String Ascii.
From Verif Require Import Res CInt Bits Traits Unpacked Cfg Posit.
Import ListNotations.
Open Scope Z_scope.

(** std::ios_base::fmtflags & std::ios_base::basefield. *)
Record flags : Set := Flags { f_dec : bool; f_oct : bool; f_hex : bool }.
Definition only_dec : flags := Flags true false false.
Definition only_oct : flags := Flags false true false.
Definition only_hex : flags := Flags false false true.
Definition flags_eqb (a b : flags) : bool :=
  Bool.eqb (f_dec a) (f_dec b) && Bool.eqb (f_oct a) (f_oct b) && Bool.eqb (f_hex a) (f_hex b).

Record stream : Set := Stream { s_flags : flags; s_text : string }.

(** ons << "text" *)
Definition put (t : string) (o : stream) : stream := Stream (s_flags o) (s_text o ++ t).
(** ons.setf(f, std::ios::basefield), and the manipulators std::dec and std::hex. *)
Definition setf (f : flags) (o : stream) : stream := Stream f (s_text o).

(** The character of a digit: 0..9, a..f. *)
Definition digit (d : Z) : ascii := ascii_of_N (Z.to_N (if d <? 10 then 48 + d else 87 + d)).
(** The digits of z >= 0 in base b, without leading zeros. *)
Fixpoint digits_from (fuel : nat) (b z : Z) (acc : string) : string :=
  match fuel with
  | O => acc
  | S m => let acc' := String (digit (z mod b)) acc in
    if z / b =? 0 then acc' else digits_from m b (z / b) acc'
  end.
Definition digits (b z : Z) : string := digits_from (S (Z.to_nat (Z.log2 z))) b z EmptyString.
Definition decimal (z : Z) : string := if z <? 0 then String "-" (digits 10 (- z)) else digits 10 z.

(** ons << z for an integer type of more than 8 bits (std::num_put): octal and hexadecimal print the bits of the type. *)
Definition put_int (t : ity) (z : Z) (o : stream) : stream :=
  put (if flags_eqb (s_flags o) only_oct then digits 8 (wrapu (iw t) z)
       else if flags_eqb (s_flags o) only_hex then digits 16 (wrapu (iw t) z)
       else decimal z) o.
(** ons << z for int8_t, uint8_t and char: the character. *)
Definition put_char (z : Z) (o : stream) : stream := put (String (ascii_of_N (Z.to_N (wrapu 8 z))) EmptyString) o.
(** ons << z for an integer type. *)
Definition put_val (t : ity) (z : Z) (o : stream) : stream := if iw t =? 8 then put_char z o else put_int t z o.
(** ons << std::bitset<n>(z). *)
Fixpoint bits_text (n : nat) (z : Z) : string :=
  match n with
  | O => EmptyString
  | S m => String (if Z.testbit z (Z.of_nat m) then "1" else "0") (bits_text m z)
  end.
Definition put_bits (n z : Z) (o : stream) : stream := put (bits_text (Z.to_nat n) z) o.

(** typehelpers.hpp 194-218. *)
Definition printable (t : ity) : ity := if iw t =? 8 then Ity 16 (isg t) else t.

(** unpacked.h 471-499. *)
Definition print_unpacked (F E : Z) (u : unpacked) (o : stream) : stream :=
  match utyp u with
  | Regular =>
    let o := put (if uneg u then "-" else "+") (put "up(" o) in
    let o := setf only_dec (put " exp (dec) = " o) in
    let o := put_val (printable (sint E)) (uexp u) o in
    let o := setf only_hex (put " fraction (hex) = " o) in
    let o := put_val (printable (uint F)) (ufrac u) o in
    let o := setf only_dec (put " (bin) = " o) in
    put ")" (put_bits F (ufrac u) o)
  | Infinity => put (if uneg u then "up(-infinity)" else "up(+infinity)") o
  | NaN => put "up(nan)" o
  | Zero => put "up(0)" o
  end.

(** posit.h 566-591. [show] is what the stream writes for a float, given by its bits, in decimal mode. *)
Definition print_posit (show : Z -> string) (c : cfg) (v : Z) (o : stream) : res stream :=
  let f := s_flags o in
  let o := setf only_dec o in
  let! o :=
    (if flags_eqb f only_hex then Ok (put_val (tS c) v o)
     else if flags_eqb f only_dec then let! b := p_to_float c single_trait v in Ok (put (show b) o)
     else if flags_eqb f only_oct then let! u := unpack c v in Ok (print_unpacked (cF c) (c_E c) u o)
     else Ok o) in
  Ok (setf f o).

(** positf.h 208-213. *)
Definition print_positf (c : cfg) (v : Z) (o : stream) : res stream :=
  let! u := unpack c v in Ok (print_unpacked (cF c) (c_E c) u o).

(** posit8.cpp 9-13, posit10.cpp 9-13, posit12.cpp 9-13, with uu() of posit8.hpp 109, posit10.hpp 119, posit12.hpp 101: the
    N bit pattern as unsigned int. *)
Definition print_tab (N v : Z) (o : stream) : stream :=
  put ")" (put_val (uint 32) (wrapu N v) (put "posit(" o)).

(** binary8.hpp 169-173. *)
Definition print_binary8 (v : Z) (o : stream) : stream :=
  put ")" (put_val (sint 8) v (put "binary8tab(" o)).

(** simdposit8.hpp 127-136: the 32 bytes of a vector. *)
Definition print_m256i (bytes : list Z) (o : stream) : stream :=
  let o := setf only_hex (put "256i(" o) in
  let o := fold_left (fun o b => put_val (sint 32) b (put " " o)) bytes o in
  put ")" (setf only_dec o).

(** simd/asimd_base.h 353-378 [printout] with element type written as [t]. The declarations DECLAREOSTREAM and
    DECLAREOSTREAMT choose t: the element type of simd_i16_8, simd_i16_16, simd_i32_4 and simd_i32_8 (asimd_16.h 316-317,
    asimd_32.h 338-342), int32_t and uint32_t for the 8 bit vectors (asimd_8.h 455-458). *)
Definition print_simd (name : string) (t : ity) (l : list Z) (o : stream) : stream :=
  let o := put "[" (put name o) in
  put "]" (fold_left (fun o x => put_val t (cast t x) (put " " o)) l o).
