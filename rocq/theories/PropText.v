(** The text listing of the posits. *)
From Coq Require Import ZArith QArith List String Ascii Sorted Lia.
From Verif Require Import Res CInt Cfg Spec SpecFloat SpecPrint SpecDump Print TextList SpecText TextProof5.
Import ListNotations.
Open Scope Z_scope.

(** C152. Full statement: the listing program, asked for text, writes an overview of the format (sizes of its types, the
    patterns of infinity and NaN, the values one half, two, least and greatest), the range it lists, a heading with the name
    of every column asked for, and one line for every posit of that range, with one text in every column: the pattern as a
    signed and as an unsigned number and in bits, the regime, the power of two of the regime, the exponent, the unpacked form and
    the value; if asked, also those of the inverse, the double and the half of the posit.
    Missing: the unsigned number for formats other than 8 bits in 8 bits (C152_unsigned_refuted); its name in the heading
    (C152_heading_refuted); the infinities of a format that has none (C152_infinity_refuted); the value one half
    (C152_half_refuted), and two, least and greatest except as below; the loops that overflow (C104). The letter p is not
    modelled. [show] and [showf] are what the stream writes for a double and for a float, [tname] the name of a type, [pw n] what
    pow(2,n) gives. *)
Theorem C152_lines_partial : forall show showf tname pw c format m o, valid_cfg c -> frac_fits c -> float_covers c 11 52 ->
  asks "p" format = false -> (asks "o" format = true -> cH c = 8 /\ cN c = 8) -> (asks "U" format = true -> cH c < 64 /\ cN c <= 30) ->
  asks "N" format = true \/ asks "H" format = false ->
  t_output show showf tname pw c format m = Some (Ok o) ->
  exists over ta tb heading l rows,
    s_text o = (over ++ "looping " ++ (if asks "U" format then "unsigned " else "signed ") ++ ta ++ " to " ++ tb ++ nl ++ heading ++ nl ++ lines rows)%string /\
    (if asks "N" format then over = ""%string else exists o', t_output show showf tname pw c "H" 0 = Some (Ok o') /\ over = s_text o') /\ bounds_text c format ta tb /\
    (asks "o" format = false -> heading = tabbed (map column_name (columns_of format))) /\
    listed c format l /\ Forall2 (line_of show pw c format) l rows.
Proof. exact lines_right. Qed.
Print Assumptions C152_lines_partial.

(** Without an overview there is such a listing, unless a loop overflows (C104_signed_refuted, C104_unsigned_31_refuted). *)
Theorem C152_output_partial : forall show showf tname pw c format, valid_cfg c -> frac_fits c -> float_covers c 11 52 ->
  (asks "o" format = true -> cH c = 8 /\ cN c = 8) -> (asks "U" format = true -> cH c < 64 /\ cN c <= 30) ->
  (asks "I" format = true \/ asks "2" format = true \/ asks "A" format = true -> mul_fits c /\ roomy c) -> asks "N" format = true ->
  (asks "U" format = false -> cH c < 32 \/ cN c < cH c \/ csp c = WithNanInf) ->
  exists n, forall m, (n <= m)%nat -> exists o, t_output show showf tname pw c format m = Some (Ok o).
Proof. exact output_there. Qed.
Print Assumptions C152_output_partial.

(** The overview: the sizes are right, the special patterns for formats with an infinity, and for formats without exponent
    bits the least and greatest number. *)
Theorem C152_overview_partial : forall show showf tname pw c format m o, valid_cfg c -> frac_fits c -> float_covers c 11 52 -> cH c < 64 ->
  asks "N" format = false -> asks "H" format = true -> t_output show showf tname pw c format m = Some (Ok o) ->
  exists ts tp h w l b x,
    s_text o = (ts ++ tp ++ " half=" ++ show h ++ " twice=" ++ show w ++ nl ++ " min=" ++ show l ++ " " ++ b ++ " max=" ++ showf x ++ nl)%string /\
    sizes_text tname c ts /\ (csp c <> WithNan -> specials_text c tp) /\
    numeral 2 b (- maxreal c mod 2 ^ cN c) /\ Z.of_nat (String.length b) = cN c /\
    (ces c = 0 -> is_double l (value c (- maxreal c))) /\
    (ces c = 0 -> float_covers c 8 23 -> pt_holds c 8 -> exists r, ieee_val 8 23 x = FinVal r /\ (r == value c (maxreal c))%Q).
Proof. exact overview_right. Qed.
Print Assumptions C152_overview_partial.

(** The text of the unsigned column. *)
Theorem C152_unsigned_refuted : forall show showf tname pw c m o, valid_cfg c -> frac_fits c -> float_covers c 11 52 -> ~ (cH c = 8 /\ cN c = 8) ->
  t_output show showf tname pw c "No" m = Some (Ok o) ->
  exists head l rows, s_text o = (head ++ lines rows)%string /\ (forall v, In v l <-> real c v) /\
    Forall2 (fun v row => exists t, row = [t] /\ (v < 0 -> signed_numeral t (if cH c =? 8 then v mod 2 ^ 8 else v) /\ ~ numeral 10 t (v mod 2 ^ cN c))) l rows.
Proof. exact o_wrong'. Qed.
Print Assumptions C152_unsigned_refuted.

(** With the letter o there are more columns than names. *)
Theorem C152_heading_refuted : forall show showf tname pw c format m o, valid_cfg c -> frac_fits c -> float_covers c 11 52 ->
  asks "p" format = false -> cH c = 8 /\ cN c = 8 -> asks "N" format = true -> asks "o" format = true ->
  t_output show showf tname pw c format m = Some (Ok o) ->
  exists before names l rows, s_text o = (before ++ nl ++ tabbed (map column_name names) ++ nl ++ lines rows)%string /\
    (List.length names < List.length (columns_of format))%nat /\ Forall2 (line_of show pw c format) l rows.
Proof. exact heading_wrong. Qed.
Print Assumptions C152_heading_refuted.

(** For formats with NaN but no infinity the overview announces two infinities, and shows the pattern of NaN for both. *)
Theorem C152_infinity_refuted : forall show showf tname pw c format m o, valid_cfg c -> csp c = WithNan ->
  asks "N" format = false -> asks "H" format = true -> t_output show showf tname pw c format m = Some (Ok o) ->
  exists before tp tm rest, s_text o = (before ++ "with signed infinity and NaN" ++ nl ++ "+infinity: " ++ tp ++ nl ++ "-infinity: " ++ tm ++ nl ++ rest)%string /\
    (forall s, s = tp \/ s = tm -> exists v, special_text c s v /\ is_nan c v) /\ ~ exists v, is_inf c v.
Proof. exact infinity_wrong. Qed.
Print Assumptions C152_infinity_refuted.

(** What it shows for one half is a number from 1 on. *)
Theorem C152_half_refuted : forall show showf tname pw c format m o, valid_cfg c -> frac_fits c -> float_covers c 11 52 -> cH c < 64 ->
  asks "N" format = false -> asks "H" format = true -> t_output show showf tname pw c format m = Some (Ok o) ->
  exists before h rest, s_text o = (before ++ " half=" ++ show h ++ rest)%string /\ ~ is_double h (1 # 2) /\ exists q, is_double h q /\ (1 <= q)%Q.
Proof. exact half_not. Qed.
Print Assumptions C152_half_refuted.

(** The posits of 4 bits with one exponent bit, in text. The format meets all conditions. *)
Example C152_ex_cfg : valid_cfg (Cfg 8 4 1 8 WithNan) /\ frac_fits (Cfg 8 4 1 8 WithNan) /\ float_covers (Cfg 8 4 1 8 WithNan) 11 52 /\ mul_fits (Cfg 8 4 1 8 WithNan) /\ roomy (Cfg 8 4 1 8 WithNan).
Proof. exact ex_meets. Qed.
Example C152_ex : exists o, t_output (fun _ => "d"%string) (fun _ => "f"%string) (fun _ => "t"%string) (fun n => n) (Cfg 8 4 1 8 WithNan) "Nibk" 20 = Some (Ok o) /\
  s_text o = ("looping signed -7 to 7" ++ nl ++ tabbed ["signed_int"; "bits"; "k"]%string ++ nl ++
    lines [["-7"; "1001"; "2"]; ["-6"; "1010"; "1"]; ["-5"; "1011"; "0"]; ["-4"; "1100"; "0"]; ["-3"; "1101"; "-1"]; ["-2"; "1110"; "-1"]; ["-1"; "1111"; "-2"];
      ["0"; "0000"; "0"]; ["1"; "0001"; "-2"]; ["2"; "0010"; "-1"]; ["3"; "0011"; "-1"]; ["4"; "0100"; "0"]; ["5"; "0101"; "0"]; ["6"; "0110"; "1"]; ["7"; "0111"; "2"]]%string)%string.
Proof. exact ex_text. Qed.
Example C152_ex_overview : exists o, t_output (fun _ => "d"%string) (fun _ => "f"%string) (fun _ => "t"%string) (fun n => n) (Cfg 8 4 1 8 WithNan) "H" 20 = Some (Ok o) /\ (100 < String.length (s_text o))%nat.
Proof. exact ex_over. Qed.
