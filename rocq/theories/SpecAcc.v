(** How accurate posits are: fraction bits of a given size, relative error. *)
From Coq Require Import ZArith QArith Qabs.
From Verif Require Import Cfg Spec.
Open Scope Z_scope.

(** Fraction bits of the posits of binary exponent [e] (2^e <= |x| < 2^(e+1)): totalbits without the sign, the
    regime and esbits. The regime k = e / 2^esbits takes k+2 bits when it is not negative and 1-k bits when it is.
    Negative at the ends of the range, where exponent bits are cut off too. *)
Definition fracbits (c : cfg) (e : Z) : Z :=
  let k := e / 2 ^ ces c in cN c - 1 - (if 0 <=? k then k + 2 else 1 - k) - ces c.

(** The posit [v] has a relative error below 2^-f as an approximation of [x], where f is the number of fraction bits
    at the size of [x]. *)
Definition accurate (c : cfg) (x : Q) (v : Z) : Prop :=
  forall e, scale x e -> 0 <= fracbits c e -> (Qabs (value c v - x) < pow2 (- fracbits c e) * Qabs x)%Q.

(** The same at the ends of the range: from the least positive posit up to useed = 2^2^esbits times the largest,
    the posit [v] is not larger than [x] in magnitude, and less than a factor of useed smaller. *)
Definition within_useed (c : cfg) (x : Q) (v : Z) : Prop :=
  (value c 1 <= Qabs x)%Q -> (Qabs x < pow2 (2 ^ ces c) * value c (maxreal c))%Q ->
  (Qabs (value c v) <= Qabs x)%Q /\ (Qabs x < pow2 (2 ^ ces c) * Qabs (value c v))%Q.
