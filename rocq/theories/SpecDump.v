(** What the table of posits made in MATLAB should hold. *)
From Coq Require Import ZArith QArith List.
From Verif Require Import Spec SpecFloat Dump.
Open Scope Z_scope.

(** [d] is a double with the value [q]. *)
Definition is_double (d : Z) (q : Q) : Prop := 0 <= d < 2 ^ 64 /\ exists x, ieee_val 11 52 d = FinVal x /\ (x == q)%Q.
(** [m] is a greatest (least) number of the list. *)
Definition greatest_of (l : list Z) (m : Z) : Prop := In m l /\ (exists x, ieee_val 11 52 m = FinVal x) /\
  forall d x, In d l -> ieee_val 11 52 d = FinVal x -> ext_le (FinVal x) (ieee_val 11 52 m).
Definition least_of (l : list Z) (m : Z) : Prop := In m l /\ (exists x, ieee_val 11 52 m = FinVal x) /\
  forall d x, In d l -> ieee_val 11 52 d = FinVal x -> ext_le (ieee_val 11 52 m) (FinVal x).

(** The columns of the table have one length. *)
Definition rectangular (t : table) : Prop :=
  List.length (t_unsigned t) = List.length (t_signed t) /\ List.length (t_float t) = List.length (t_signed t) /\ List.length (t_res t) = List.length (t_signed t).
(** The rows: signed, unsigned, value, resolution. *)
Definition rows (t : table) : list (Z * Z * Z * Z) := combine (combine (combine (t_signed t) (t_unsigned t)) (t_float t)) (t_res t).
(** A row lies within the limits. *)
Definition within (mi ma : Z) (exclusive : bool) (r : Z * Z * Z * Z) : Prop :=
  match r with (_, _, f, _) =>
    ext_le (ieee_val 11 52 mi) (ieee_val 11 52 f) /\ ext_le (ieee_val 11 52 f) (ieee_val 11 52 ma) /\
    (exclusive = true -> ~ ext_le (ieee_val 11 52 f) (ieee_val 11 52 mi) /\ ~ ext_le (ieee_val 11 52 ma) (ieee_val 11 52 f))
  end.
