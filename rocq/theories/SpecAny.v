(** What the emulated small floats promise. *)
From Coq Require Import ZArith QArith Qabs.
From Verif Require Import Spec SpecFloat.
Open Scope Z_scope.

(** Smallest positive normal number of a format with [eb] exponent bits. *)
Definition least_normal (eb : Z) : Q := pow2 (2 - 2 ^ (eb - 1)).

(** The extended number that the implementation format of [eb'] exponent bits sees in the pattern [v]: its
    IEEE value, with numbers below the normal range of the implementation format counted as zero. *)
Definition seen (eb fb eb' v : Z) : ieee :=
  match ieee_val eb fb v with
  | FinVal q => if Qle_bool (least_normal eb') (Qabs q) then FinVal q else FinVal 0
  | e => e
  end.

(** The exact result rounded to the implementation format. *)
Definition x_round (eb fb : Z) (rnd : Q -> Z) (e : ieee) : ieee :=
  match e with FinVal x => ieee_val eb fb (rnd x) | _ => e end.

(** [r] is the number of the format for the extended number [e]: the same special value, zero for numbers
    below the normal range, and otherwise the truncation, which for numbers beyond the largest one is the
    largest one. *)
Definition float_for (eb fb : Z) (e : ieee) (r : Z) : Prop :=
  0 <= r < 2 ^ (eb + fb + 1) /\
  match e with
  | FinVal w => ((least_normal eb <= Qabs w)%Q -> float_trunc eb fb w r) /\ ((Qabs w < least_normal eb)%Q -> r = 0)
  | e => ieee_val eb fb r = e
  end.

(** A format emulated in the format [eb' fb'] that holds its numbers: 8 or 16 bit formats, or larger ones of at
    least fb' bits. Of the five shipped formats all do. *)
Definition emulated (eb fb eb' fb' : Z) : Prop :=
  fmt_ok eb fb /\ eb <= eb' /\ fb <= fb' /\ (eb + fb + 1 <= 16 \/ fb' <= eb + fb + 1).

(** A NaN whose leading fraction bit is set, the kind that arithmetic produces. *)
Definition quiet (eb fb b : Z) : Prop := (b / 2 ^ (fb - 1)) mod 2 = 1.

(** Order of extended numbers. *)
Definition x_lt (a b : ieee) : Prop :=
  match a, b with
  | FinVal x, FinVal y => (x < y)%Q
  | InfVal true, FinVal _ | FinVal _, InfVal false | InfVal true, InfVal false => True
  | _, _ => False
  end.
Definition x_eq (a b : ieee) : Prop :=
  match a, b with
  | FinVal x, FinVal y => (x == y)%Q
  | InfVal s, InfVal s' => s = s'
  | _, _ => False
  end.

(** The implementation format has more than twice the fraction bits and enough exponent range for every product
    and quotient, as float has for the 8 bit format and the half format. *)
Definition roomy_fmt (eb fb eb' fb' : Z) : Prop := 2 * fb + 1 <= fb' /\ 2 ^ eb + 2 * fb <= 2 ^ (eb' - 1).

(** Absolute value and sign of an extended number; zero has no sign here. *)
Definition x_abs (e : ieee) : ieee := match e with FinVal q => FinVal (Qabs q) | InfVal _ => InfVal false | NaNVal => NaNVal end.
Definition x_neg (e : ieee) : Prop := match e with FinVal q => (q < 0)%Q | InfVal s => s = true | NaNVal => False end.
