(** The posit nearest to a number, and its row in a table. *)
From Coq Require Import ZArith QArith Qabs.
From Verif Require Import Cfg Spec SpecDump Dump TestSum.
Open Scope Z_scope.

(** [v] is nearest to [q]; of two equally near it is the lower one. *)
Definition nearest_posit (c : cfg) (q : Q) (v : Z) : Prop :=
  real c v /\ forall w, real c w -> (Qabs (value c v - q) <= Qabs (value c w - q))%Q /\
    ((Qabs (value c v - q) == Qabs (value c w - q))%Q -> (value c v <= value c w)%Q).
(** [e] is the row of the posit [v] in the table. *)
Definition entry_of (c : cfg) (t : table) (v : Z) (e : entry) : Prop :=
  is_double (e_signed e) (inject_Z v) /\ is_double (e_float e) (value c v) /\
  fromindex t MSigned (e_index e) = Some (e_signed e) /\ fromindex t MUnsigned (e_index e) = Some (e_unsigned e) /\ fromindex t MFloat (e_index e) = Some (e_float e).
