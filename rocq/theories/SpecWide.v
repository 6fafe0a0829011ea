(** Numbers of two 64 bit words. *)
From Coq Require Import ZArith.
Open Scope Z_scope.

Definition word (x : Z) : Prop := 0 <= x < 2 ^ 64.
Definition wide (hi lo : Z) : Z := hi * 2 ^ 64 + lo.
