(** The regime of a word, tests/testregime.cpp. *)
From Coq Require Import ZArith QArith Qabs Lia Bool List.
From Verif Require Import Res Bits Cfg Spec Configs Examples Regime RegimeProof.
Import ListNotations.
Open Scope Z_scope.

(** C159. The regime of a 32 bit word is told by the run of equal bits it starts with: one less than its length for ones, minus its length for zeros.
    The regime takes the run and the bit that ends it, if there is one. *)
Theorem C159_extract p b l :
  - 2 ^ 31 <= p < 2 ^ 31 -> bits_of 32 p = b :: l ->
  let r := Z.of_nat (run b (b :: l)) in rg_extract p = Ok (if b then r - 1 else - r, Z.min 32 (r + 1)).
Proof. exact (extract_ok p b l). Qed.
Print Assumptions C159_extract.
(** Applied to the int that starts with the bits of a positive posit after its sign, it gives the regime of the posit: the posit is at least the
    regime's power of 2^2^es and below the next one. *)
Theorem C159_posit c v :
  valid_cfg c -> cN c <= 32 -> real c v -> 0 < v ->
  exists k rs, rg_extract (let w := v * 2 ^ (33 - cN c) in if w <? 2 ^ 31 then w else w - 2 ^ 32) = Ok (k, rs) /\
    (pow2 (k * 2 ^ ces c) <= value c v)%Q /\ (value c v < pow2 ((k + 1) * 2 ^ ces c))%Q.
Proof. exact (extract_posit c v). Qed.
Print Assumptions C159_posit.
Example C159_ex : bits_of 32 (-536870912) = true :: true :: true :: repeat false 29 /\ rg_extract (-536870912) = Ok (2, 4) /\
  rg_extract 0 = Ok (-32, 32) /\ rg_extract (-1) = Ok (31, 32) /\ valid_cfg p12 /\ cN p12 <= 32 /\ real p12 300 /\ rg_extract (300 * 2 ^ 21) = Ok (-2, 3).
Proof. ex. Qed.
