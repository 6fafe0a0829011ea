(** Whole programs: every value computed stays inside the format. *)
From Coq Require Import ZArith QArith List Lia.
From Verif Require Import Res Traits Cfg Spec SpecFloat SpecProg SpecProg2 Unpacked Posit Posit2 Configs Examples Prog2 Prog3 Prog4.
Import ListNotations.
Open Scope Z_scope.

(** C130. Full statement: whatever sequence of operations a program runs, every value it gets is a pattern of the
    format. Proved for programs that avoid the two exits when totalbits is smaller than the holder (see computed);
    what is missing is refuted below. *)
Theorem C130_closed_partial c v : valid_cfg c -> exp_ok c -> computed c v -> pattern c v.
Proof. exact (fun V X K => computed_pattern c v K V X). Qed.
Print Assumptions C130_closed_partial.
Theorem C130_exit_refuted : exists c a n r s, valid_cfg c /\ exp_ok c /\ computed c a /\ computed c n /\
  p_neg c n = Ok r /\ ~ pattern c r /\ p_next c a = Ok s /\ ~ pattern c s.
Proof. exact computed_exit. Qed.
Print Assumptions C130_exit_refuted.
(** A program that starts from finite values and never divides by zero meets only numbers: no NaN, no infinity. *)
Theorem C130_finite c v : valid_cfg c -> exp_ok c -> finite c v -> real c v.
Proof. exact (fun V X K => finite_real c v K V X). Qed.
Print Assumptions C130_finite.
Example C130_ex : valid_cfg p16 /\ exp_ok p16 /\ finite p16 30281 /\ computed p16 (-32768) /\ cN p16 = cH p16 /\ valid_cfg p10 /\ exp_ok p10 /\ cN p10 < cH p10.
Proof.
  conj; [valid_hyp|vm_compute; reflexivity| | |reflexivity|valid_hyp|vm_compute; reflexivity|reflexivity].
  - (* 3 * (3/7) + 7 * 7 *)
    assert (A : finite p16 22528) by (apply (f_int _ 3); reflexivity). assert (B : finite p16 26112) by (apply (f_int _ 7); reflexivity).
    apply (f_dot _ [(22528, 11117); (26112, 26112)]); [|reflexivity]. constructor; [split|constructor; [split; exact B|constructor]]; cbn [fst snd]; [exact A|].
    apply (f_div _ 22528 26112); [exact A|exact B|discriminate|reflexivity].
  - (* 3 / 0 *)
    apply (k_div _ 22528 0); [apply (k_int _ 3); reflexivity|apply k_const; left; reflexivity|reflexivity].
Qed.

(** C131. Full statement: a program over a posit type runs without undefined behaviour. Proved when the largest and the
    smallest number are less than max(32, bits of FT) binary orders apart: for 8 and 16 bit types filling their holder
    with any patterns as input, for other types with numbers as input. The bound is exact. Beyond it the statement is
    refuted, for instance for the 16 bit type with one exponent bit. *)
Theorem C131_defined_partial c e : valid_cfg c -> cN c = cH c -> cH c <= 16 -> add_fits c ->
  (cN c - 2 + maxk c) * 2 ^ ces c < Z.max 32 (cF c) -> literals_ok c e -> exists r, eval c e = Ok r /\ pattern c r.
Proof. exact (eval_pattern c e). Qed.
Print Assumptions C131_defined_partial.
Theorem C131_numbers c : valid_cfg c -> exp_ok c -> roomy c -> add_fits c ->
  ((forall e, tame c e -> exists r, eval c e = Ok r /\ real c r) <-> (cN c - 2 + maxk c) * 2 ^ ces c < Z.max 32 (cF c)).
Proof. exact (eval_exact c). Qed.
Print Assumptions C131_numbers.
(** With fma, sums of two products, and dot of vectors of up to n elements anywhere in the program: exactly when the range
    of the products leaves room for the sum (C135). *)
Theorem C131_products c n : valid_cfg c -> exp_ok c -> roomy c -> add_fits c -> (cH c = 8 -> cN c + ces c < 8 -> cF c <= 32) -> 3 <= n < 2 ^ 31 ->
  ((forall e, tame_prog c n e -> exists r, run c e = Ok r /\ real c r) <->
   2 * (cN c - 2 + maxk c) * 2 ^ ces c + Z.max (Z.min (Z.log2 (n - 1)) (cF c - 1)) (if cF c <? 32 then 0 else 2) < Z.max 32 (cF c)).
Proof. exact (run_iff c n). Qed.
Print Assumptions C131_products.
Theorem C131_wide_refuted : exists c e, valid_cfg c /\ exp_ok c /\ roomy c /\ add_fits c /\ tame c e /\ eval c e = UB ShiftCount.
Proof. exact eval_wide. Qed.
Print Assumptions C131_wide_refuted.
(** Hypotheses: the 8 bit types without exponent bits, with and without infinities, and a 16 bit type with a wide FT. *)
Example C131_ex : valid_cfg p8 /\ cN p8 = cH p8 /\ cH p8 <= 16 /\ add_fits p8 /\ (cN p8 - 2 + maxk p8) * 2 ^ ces p8 < Z.max 32 (cF p8) /\
  literals_ok p8 (Div (OfInt 3) (Sub (Sqrt (Lit (-128))) (Next (Lit 127)))) /\ eval p8 (Div (OfInt 3) (Sub (Sqrt (Lit (-128))) (Next (Lit 127)))) = Ok 104 /\
  tame p8 (Half (Div (OfInt 3) (Add (Lit 64) (OfInt 6)))) /\ eval p8 (Half (Div (OfInt 3) (Add (Lit 64) (OfInt 6)))) = Ok 13 /\
  valid_cfg p10 /\ exp_ok p10 /\ roomy p10 /\ add_fits p10 /\ (cN p10 - 2 + maxk p10) * 2 ^ ces p10 < Z.max 32 (cF p10).
Proof.
  conj; try (first [valid_hyp | compute_hyp]); cbn [literals_ok tame]; unfold pattern, real; conj; try lia; vm_compute; discriminate.
Qed.
(** dot of (3, 1/3) and (fma(2,3,-1), 3*1/3 + 1*1) with the 8 bit type. *)
Example C131_products_ex : let third := P2 ODiv (PInt 1) (PInt 3) in
  let e := PDot (PCons (PInt 3) (PFma (PInt 2) (PInt 3) (P1 ONeg (PInt 1))) (PCons third (PSum (PInt 3) third (PLit 64) (PLit 64)) PNil)) in
  valid_cfg p8 /\ exp_ok p8 /\ roomy p8 /\ add_fits p8 /\ (cH p8 = 8 -> cN p8 + ces p8 < 8 -> cF p8 <= 32) /\ tame_prog p8 (2 ^ 31 - 1) e /\ run p8 e = Ok 123 /\
  2 * (cN p8 - 2 + maxk p8) * 2 ^ ces p8 + Z.max (Z.min (Z.log2 (2 ^ 31 - 1 - 1)) (cF p8 - 1)) (if cF p8 <? 32 then 0 else 2) < Z.max 32 (cF p8).
Proof.
  cbv zeta. conj; first [valid_hyp | compute_hyp | discriminate | exact I | (intros _; vm_compute; discriminate) | (vm_compute; split; reflexivity) | idtac].
Qed.
