(** The numbers of the class binary8tab: the 8 bit IEEE-like format with 5 exponent and 2 fraction bits. *)
From Coq Require Import ZArith QArith.
From Verif Require Import Spec.
Open Scope Z_scope.

(** The member of a binary8tab, a signed byte. *)
Definition is_b8 (v : Z) : Prop := -128 <= v < 128.
(** The number it stands for. *)
Definition b8_val (v : Z) : ieee := ieee_val 5 2 (v mod 256).
