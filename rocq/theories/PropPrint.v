(** Writing numbers to streams: C136, C137, C138. *)
From Coq Require Import ZArith QArith List Bool String Ascii Lia.
From Verif Require Import Res CInt Unpacked Cfg Spec SpecFloat Posit Configs Examples Print SpecPrint PrintProof PrintProof2.
Import ListNotations.
Open Scope Z_scope.

(** C136. Writing a posit to a stream. A stream has base flags (decimal, octal, hexadecimal). Full claim: with the
    hexadecimal flag the bit pattern is written as a decimal number, with the octal flag sign, exponent and fraction, with the
    decimal flag what the stream writes for the float value, different posits give different texts, and the stream
    has the same base flags afterwards as before. *)
Theorem C136_base_restored show c v o o' : print_posit show c v o = Ok o' -> s_flags o' = s_flags o.
Proof. exact (posit_base show c v o o'). Qed.
Print Assumptions C136_base_restored.
(** Missing: posits held in 8 bits. *)
Theorem C136_pattern_partial show c v s : valid_cfg c -> cH c <> 8 ->
  exists t, print_posit show c v (Stream only_hex s) = Ok (Stream only_hex (s ++ t)) /\ signed_numeral t v.
Proof. exact (fun _ => posit_hex show c v s). Qed.
Print Assumptions C136_pattern_partial.
(** Those are written as one character, which never is a numeral of the pattern. *)
Theorem C136_pattern_refuted show c v s : cH c = 8 -> -128 <= v < 128 ->
  exists t, print_posit show c v (Stream only_hex s) = Ok (Stream only_hex (s ++ t)) /\ ~ signed_numeral t v.
Proof. exact (posit_hex_char show c v s). Qed.
Print Assumptions C136_pattern_refuted.
Theorem C136_pattern_distinct show c v w s : - 2 ^ (cH c - 1) <= v < 2 ^ (cH c - 1) -> - 2 ^ (cH c - 1) <= w < 2 ^ (cH c - 1) ->
  print_posit show c v (Stream only_hex s) = print_posit show c w (Stream only_hex s) -> v = w.
Proof. exact (posit_hex_distinct show c v w s). Qed.
Print Assumptions C136_pattern_distinct.
Theorem C136_fields show c v s : valid_cfg c -> frac_fits c -> real c v -> v <> 0 ->
  exists e f te tf tb, (value c v == uvalue (cF c) (v <? 0) e f)%Q /\ 0 <= f < 2 ^ cF c /\
    print_posit show c v (Stream only_oct s) = Ok (Stream only_oct
      (s ++ "up(" ++ (if v <? 0 then "-" else "+") ++ " exp (dec) = " ++ te ++ " fraction (hex) = " ++ tf ++ " (bin) = " ++ tb ++ ")")) /\
    signed_numeral te e /\ numeral 16 tf f /\ numeral 2 tb f /\ Z.of_nat (String.length tb) = cF c.
Proof. exact (posit_oct show c v s). Qed.
Print Assumptions C136_fields.
Theorem C136_fields_special show c v s : valid_cfg c -> pattern c v ->
  (v = 0 -> print_posit show c v (Stream only_oct s) = Ok (Stream only_oct (s ++ "up(0)"))) /\
  (is_nan c v -> print_posit show c v (Stream only_oct s) = Ok (Stream only_oct (s ++ "up(nan)"))) /\
  (is_inf c v -> print_posit show c v (Stream only_oct s) = Ok (Stream only_oct (s ++ if v <? 0 then "up(-infinity)" else "up(+infinity)"))).
Proof. exact (posit_oct_special show c v s). Qed.
Print Assumptions C136_fields_special.
Theorem C136_fields_distinct show c v w s : valid_cfg c -> frac_fits c -> pattern c v -> pattern c w ->
  print_posit show c v (Stream only_oct s) = print_posit show c w (Stream only_oct s) -> v = w.
Proof. exact (posit_oct_distinct show c v w s). Qed.
Print Assumptions C136_fields_distinct.
(** [show] is what the stream writes for a float, given by its bits. *)
Theorem C136_float show c v s : valid_cfg c -> frac_fits c -> pt_holds c 8 -> float_covers c 8 23 -> real c v ->
  exists b r, print_posit show c v (Stream only_dec s) = Ok (Stream only_dec (s ++ show b)) /\ 0 <= b < 2 ^ 32 /\
    ieee_val 8 23 b = FinVal r /\ (r == value c v)%Q.
Proof. exact (posit_dec show c v s). Qed.
Print Assumptions C136_float.
(** In decimal mode different posits can give the same text, whatever the stream writes for a float; with none of the base
    flags set nothing at all is written. *)
Theorem C136_float_distinct_refuted : exists v w, v <> w /\ real p32 v /\ real p32 w /\
  forall show s, print_posit show p32 v (Stream only_dec s) = print_posit show p32 w (Stream only_dec s).
Proof. exact posit_dec_same. Qed.
Print Assumptions C136_float_distinct_refuted.
Theorem C136_no_base_refuted show c v s : print_posit show c v (Stream (Flags false false false) s) = Ok (Stream (Flags false false false) s).
Proof. exact (posit_no_base show c v s). Qed.
Print Assumptions C136_no_base_refuted.
Example C136_ex : let show := fun _ => "?"%string in
  valid_cfg p16 /\ frac_fits p16 /\ pt_holds p16 8 /\ float_covers p16 8 23 /\ real p16 (-20481) /\
  print_posit show p16 (-20481) (Stream only_hex "x = ") = Ok (Stream only_hex "x = -20481") /\
  print_posit show p16 (-20481) (Stream only_oct "x = ") = Ok (Stream only_oct "x = up(- exp (dec) = 1 fraction (hex) = 10 (bin) = 0000000000010000)") /\
  print_posit show p16 (-20481) (Stream only_dec "x = ") = Ok (Stream only_dec "x = ?") /\
  print_posit show p8 65 (Stream only_hex "x = ") = Ok (Stream only_hex "x = A").
Proof. cbv zeta. conj; try (vm_compute; reflexivity); ex. Qed.

(** C137. Writing an Unpacked. Full claim: sign, exponent and fraction are written, different numbers give different
    texts, and the base of the stream is left alone. *)
Theorem C137_fields F E u fl s : utyp u = Regular -> 0 < F -> 0 <= ufrac u < 2 ^ F ->
  exists te tf tb, print_unpacked F E u (Stream fl s) =
      Stream only_dec (s ++ "up(" ++ (if uneg u then "-" else "+") ++ " exp (dec) = " ++ te ++ " fraction (hex) = " ++ tf ++ " (bin) = " ++ tb ++ ")") /\
    signed_numeral te (uexp u) /\ numeral 16 tf (ufrac u) /\ numeral 2 tb (ufrac u) /\ Z.of_nat (String.length tb) = F.
Proof. exact (unpacked_fields F E u fl s). Qed.
Print Assumptions C137_fields.
Theorem C137_special F E u fl s : utyp u <> Regular ->
  print_unpacked F E u (Stream fl s) =
    Stream fl (s ++ match utyp u with Infinity => if uneg u then "up(-infinity)" else "up(+infinity)" | NaN => "up(nan)" | _ => "up(0)" end).
Proof. exact (unpacked_special F E u fl s). Qed.
Print Assumptions C137_special.
Theorem C137_distinct F E u u' fl fl' s : 0 < F -> 0 <= ufrac u < 2 ^ F -> 0 <= ufrac u' < 2 ^ F ->
  s_text (print_unpacked F E u (Stream fl s)) = s_text (print_unpacked F E u' (Stream fl' s)) ->
  utyp u = utyp u' /\ (utyp u = Infinity -> uneg u = uneg u') /\ (utyp u = Regular -> uneg u = uneg u' /\ uexp u = uexp u' /\ ufrac u = ufrac u').
Proof. exact (unpacked_distinct F E u u' fl fl' s). Qed.
Print Assumptions C137_distinct.
(** Missing: numbers other than zero, infinity and NaN on streams in another base than decimal; they make the stream decimal. *)
Theorem C137_base_partial F E u o : utyp u <> Regular \/ s_flags o = only_dec -> s_flags (print_unpacked F E u o) = s_flags o.
Proof. exact (unpacked_base F E u o). Qed.
Print Assumptions C137_base_partial.
Theorem C137_base_refuted F E u o : utyp u = Regular -> s_flags (print_unpacked F E u o) = only_dec.
Proof. exact (unpacked_base_lost F E u o). Qed.
Print Assumptions C137_base_refuted.
(** PositF writes itself in this form whatever the base, and makes the stream decimal. *)
Theorem C137_positf c v s fl : valid_cfg c -> frac_fits c -> real c v -> v <> 0 ->
  exists e f te tf tb, (value c v == uvalue (cF c) (v <? 0) e f)%Q /\ 0 <= f < 2 ^ cF c /\
    print_positf c v (Stream fl s) = Ok (Stream only_dec
      (s ++ "up(" ++ (if v <? 0 then "-" else "+") ++ " exp (dec) = " ++ te ++ " fraction (hex) = " ++ tf ++ " (bin) = " ++ tb ++ ")")) /\
    signed_numeral te e /\ numeral 16 tf f /\ numeral 2 tb f /\ Z.of_nat (String.length tb) = cF c.
Proof. exact (positf_oct c v s fl). Qed.
Print Assumptions C137_positf.
Example C137_ex : print_unpacked 8 16 (U Regular true (-3) 0xA0) (Stream only_hex "u = ") =
    Stream only_dec "u = up(- exp (dec) = -3 fraction (hex) = a0 (bin) = 10100000)" /\
  utyp (U Regular true (-3) 0xA0) = Regular /\ 0 <= 0xA0 < 2 ^ 8 /\
  signed_numeral "-3" (-3) /\ numeral 16 "a0" 0xA0 /\
  print_positf p16 (-20481) (Stream only_hex "") = Ok (Stream only_dec "up(- exp (dec) = 1 fraction (hex) = 10 (bin) = 0000000000010000)").
Proof.
  split; [reflexivity|]. split; [reflexivity|]. split; [lia|]. split; [right; split; [lia|]; exists "3"%string; repeat split; discriminate|].
  split; [split; [discriminate|reflexivity]|]. vm_compute. reflexivity.
Qed.

(** C138. Writing the tabulated classes and the integer vectors. Full claim: posit8, posit10, posit12 and binary8tab are
    written as their bit pattern, a number in the base of the stream, vectors as the numbers they hold, and the
    base of the stream is left alone. *)
Theorem C138_tabulated N v fl s : N = 8 \/ N = 10 \/ N = 12 -> exists d, print_tab N v (Stream fl s) = Stream fl (s ++ "posit(" ++ d ++ ")") /\
  numeral (base_of (f_dec fl) (f_oct fl) (f_hex fl)) d (v mod 2 ^ N).
Proof. exact (fun H => tab_text N v fl s ltac:(lia)). Qed.
Print Assumptions C138_tabulated.
(** What is missing for binary8tab: its pattern is written as one character, never a numeral of it. *)
Theorem C138_binary8_partial v fl s : -128 <= v < 128 ->
  exists a, print_binary8 v (Stream fl s) = Stream fl (s ++ "binary8tab(" ++ String a ")") /\ Z.of_N (N_of_ascii a) = v mod 256.
Proof. exact (binary8_char v fl s). Qed.
Print Assumptions C138_binary8_partial.
Theorem C138_binary8_refuted v fl s : -128 <= v < 128 -> exists t, print_binary8 v (Stream fl s) = Stream fl (s ++ "binary8tab(" ++ t ++ ")") /\
  ~ numeral (base_of (f_dec fl) (f_oct fl) (f_hex fl)) t (v mod 256) /\ ~ signed_numeral t v.
Proof. exact (binary8_not v fl s). Qed.
Print Assumptions C138_binary8_refuted.
(** The vectors of 16 and 32 bit elements, and the 8 bit ones, written as 32 bit numbers. *)
Theorem C138_vector name w l s : w = 16 \/ w = 32 -> Forall (fun x => - 2 ^ (w - 1) <= x < 2 ^ (w - 1)) l -> exists ts,
  print_simd name (sint w) l (Stream only_dec s) = Stream only_dec (s ++ name ++ "[" ++ spaced ts ++ "]") /\ Forall2 signed_numeral ts l.
Proof. exact (simd_signed name w l s). Qed.
Print Assumptions C138_vector.
Theorem C138_vector_unsigned name l s : Forall (fun x => 0 <= x < 2 ^ 32) l -> exists ts,
  print_simd name (uint 32) l (Stream only_dec s) = Stream only_dec (s ++ name ++ "[" ++ spaced ts ++ "]") /\ Forall2 signed_numeral ts l.
Proof. exact (simd_unsigned name l s). Qed.
Print Assumptions C138_vector_unsigned.
Theorem C138_vector_base name t l o : s_flags (print_simd name t l o) = s_flags o.
Proof. exact (simd_flags name t l o). Qed.
Print Assumptions C138_vector_base.
(** The bytes of a 256 bit vector, in hexadecimal; the stream is decimal afterwards, whatever it was. *)
Theorem C138_bytes_base_refuted bytes fl s : Forall (fun b => 0 <= b < 256) bytes -> exists ts,
  print_m256i bytes (Stream fl s) = Stream only_dec (s ++ "256i(" ++ spaced ts ++ ")") /\ Forall2 (numeral 16) ts bytes.
Proof. exact (m256i_text bytes fl s). Qed.
Print Assumptions C138_bytes_base_refuted.
Example C138_ex : print_tab 10 (-3) (Stream only_dec "") = Stream only_dec "posit(1021)" /\ print_tab 8 (-3) (Stream only_hex "") = Stream only_hex "posit(fd)" /\
  print_binary8 65 (Stream only_dec "") = Stream only_dec "binary8tab(A)" /\
  print_simd "i16_8" (sint 16) [-5; 300] (Stream only_dec "") = Stream only_dec "i16_8[ -5 300]" /\
  print_m256i [255; 1] (Stream only_oct "") = Stream only_dec "256i( ff 1)".
Proof. vm_compute. auto. Qed.
