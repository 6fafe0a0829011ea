(** What a posit means, independently of how cppPosit computes it.

    Nothing here refers to the model of the code: only to the template parameters ([Cfg]).

    A posit is an N bit two's complement integer.  Its value is defined by the textbook reading
    of the bit string: sign, regime (a run of equal bits closed by the opposite bit), [es]
    exponent bits, fraction; bits cut off at the right end count as 0. *)
From Coq Require Import ZArith QArith Qabs List Bool.
From Verif Require Import Cfg.
Import ListNotations.
Open Scope Z_scope.

(** The [n] low bits of [z], most significant first. *)
Fixpoint bits_of (n : nat) (z : Z) : list bool :=
  match n with
  | O => []
  | S m => Z.testbit z (Z.of_nat m) :: bits_of m z
  end.

(** Integer denoted by a bit string, most significant first. *)
Fixpoint num (acc : Z) (l : list bool) : Z :=
  match l with
  | [] => acc
  | b :: l' => num (2 * acc + (if b then 1 else 0)) l'
  end.

(** Length of the initial run of [b]. *)
Fixpoint run (b : bool) (l : list bool) : nat :=
  match l with
  | [] => 0
  | x :: l' => if Bool.eqb x b then S (run b l') else O
  end.

Definition pow2 (e : Z) : Q := Qpower (2 # 1) e.

(** Value of the bits after the sign of a positive posit. *)
Definition body_value (es : nat) (l : list bool) : Q :=
  match l with
  | [] => 0%Q
  | b :: _ =>
    let r := run b l in
    let k := if b then Z.of_nat r - 1 else - Z.of_nat r in
    let rest := skipn (S r) l in
    let e := num 0 (firstn es (rest ++ repeat false es)) in
    let fb := skipn es rest in
    let f := (inject_Z (num 0 fb) / pow2 (Z.of_nat (length fb)))%Q in
    (pow2 (k * 2 ^ Z.of_nat es + e) * (1 + f))%Q
  end.

(** Value of the N bit pattern [v], read as a signed integer; negative posits are the
    negation of the posit with the negated pattern. *)
Definition value (c : cfg) (v : Z) : Q :=
  let body (z : Z) := body_value (Z.to_nat (ces c)) (bits_of (Z.to_nat (cN c - 1)) z) in
  if v =? 0 then 0%Q
  else if v <? 0 then Qopp (body (- v))
  else body v.

(** The patterns of the format, and the ones that denote no real number. *)
Definition pattern (c : cfg) (v : Z) : Prop := - 2 ^ (cN c - 1) <= v < 2 ^ (cN c - 1).

Definition is_nan (c : cfg) (v : Z) : Prop :=
  csp c <> WithInf /\ v = - 2 ^ (cN c - 1).
Definition is_pinf (c : cfg) (v : Z) : Prop :=
  csp c = WithNanInf /\ v = 2 ^ (cN c - 1) - 1.
Definition is_ninf (c : cfg) (v : Z) : Prop :=
  csp c = WithNanInf /\ v = - 2 ^ (cN c - 1) + 1.
(** The single unsigned infinity of classic posits. *)
Definition is_uinf (c : cfg) (v : Z) : Prop :=
  csp c = WithInf /\ v = - 2 ^ (cN c - 1).
Definition is_inf (c : cfg) (v : Z) : Prop := is_pinf c v \/ is_ninf c v \/ is_uinf c v.

(** The largest pattern that denotes a real number. *)
Definition maxreal (c : cfg) : Z :=
  match csp c with WithNanInf => 2 ^ (cN c - 1) - 2 | _ => 2 ^ (cN c - 1) - 1 end.
Definition real (c : cfg) (v : Z) : Prop := - maxreal c <= v <= maxreal c.

(** [v] is the posit of largest value not above the positive number [x], or the smallest
    positive posit when [x] lies below all of them. *)
Definition down_pos (c : cfg) (x : Q) (v : Z) : Prop :=
  real c v /\ (0 < value c v)%Q /\
  (forall w, real c w -> (0 < value c w)%Q -> (value c w <= x)%Q -> (value c w <= value c v)%Q) /\
  ((value c v <= x)%Q \/
   (forall w, real c w -> (0 < value c w)%Q -> (value c v <= value c w)%Q)).

(** Rounding toward zero with saturation at both ends: nonzero numbers never become 0 or
    infinite. *)
Definition rounds_tz (c : cfg) (x : Q) (v : Z) : Prop :=
  ((x == 0)%Q /\ v = 0) \/
  ((0 < x)%Q /\ down_pos c x v) \/
  ((x < 0)%Q /\ down_pos c (- x) (- v)).

(** Faithful rounding: [v] is [x] when [x] is a posit, and otherwise no posit lies between
    the two (one of the two neighbours, or the end of the range). *)
Definition faithful (c : cfg) (x : Q) (v : Z) : Prop :=
  real c v /\
  (forall w, real c w -> (value c w == x)%Q -> v = w) /\
  (forall w, real c w -> ~ (x < value c w < value c v)%Q) /\
  (forall w, real c w -> ~ (value c v < value c w < x)%Q).

(** Value of an IEEE-754 style bit pattern with [eb] exponent bits and [fb] fraction bits
    (bias 2^(eb-1)-1, subnormals, all-ones exponent reserved). *)
Inductive ieee : Set := FinVal (q : Q) | InfVal (neg : bool) | NaNVal.

Definition ieee_val (eb fb : Z) (b : Z) : ieee :=
  let f := b mod 2 ^ fb in
  let e := (b / 2 ^ fb) mod 2 ^ eb in
  let s := (b / 2 ^ (fb + eb)) mod 2 in
  let bias := 2 ^ (eb - 1) - 1 in
  let sg := if s =? 0 then 1%Q else (-1)%Q in
  if e =? 2 ^ eb - 1 then (if f =? 0 then InfVal (negb (s =? 0)) else NaNVal)
  else if e =? 0 then FinVal (sg * (inject_Z f * pow2 (1 - bias - fb)))%Q
  else FinVal (sg * (inject_Z (2 ^ fb + f) * pow2 (e - bias - fb)))%Q.

(** [e] is the binary exponent of the nonzero number [x]. *)
Definition scale (x : Q) (e : Z) : Prop := (pow2 e <= Qabs x)%Q /\ (Qabs x < pow2 (e + 1))%Q.

(** The pattern [v] has the sign of [x]; in particular it is 0 exactly when [x] is. *)
Definition sign_ok (x : Q) (v : Z) : Prop :=
  (v = 0 <-> (x == 0)%Q) /\ (0 < v <-> (0 < x)%Q) /\ (v < 0 <-> (x < 0)%Q).

(** The pattern 10..0: NaN of WithNan and WithNanInf, the unsigned infinity of WithInf. *)
Definition exceptional (c : cfg) : Z := - 2 ^ (cN c - 1).

(** What the format offers for an infinity of the given sign: WithNanInf has both, WithInf has a
    single unsigned one, WithNan only has NaN. *)
Definition inf_of (c : cfg) (neg : bool) : Z :=
  match csp c with
  | WithNanInf => if neg then - 2 ^ (cN c - 1) + 1 else 2 ^ (cN c - 1) - 1
  | _ => - 2 ^ (cN c - 1)
  end.

(** Two patterns of the same sign. *)
Definition same_sign (a b : Z) : Prop := 0 < a /\ 0 < b \/ a < 0 /\ b < 0.
Definition neg_sign (a b : Z) : bool := xorb (a <? 0) (b <? 0).

(** Packing a result of exact value [x] executes no out of range shift. Every [x] has room when the
    configuration is [roomy]. *)
Definition room (c : cfg) (x : Q) : Prop :=
  (x == 0)%Q \/ exists e, scale x e /\ pack_room c e.
(** The same for a result that may be rounded up to the next power of two. *)
Definition room_up (c : cfg) (x : Q) : Prop :=
  (x == 0)%Q \/ exists e, scale x e /\ pack_room c e /\ pack_room c (e + 1).

(** The binary exponents of the two numbers differ by less than max(32, bits of FT). *)
Definition near (c : cfg) (x y : Q) : Prop :=
  forall ea eb, scale x ea -> scale y eb -> Z.abs (ea - eb) < Z.max 32 (cF c).

(** Value of a Regular unpacked number: sign, exponent, and a fraction of [F] bits below the
    hidden 1. *)
Definition uvalue (F : Z) (neg : bool) (e f : Z) : Q :=
  ((if neg then -1 else 1) * pow2 e * (1 + inject_Z f / pow2 F))%Q.

(** [z] is [x] with its fractional part dropped. *)
Definition truncated (x : Q) (z : Z) : Prop :=
  (inject_Z (Z.abs z) <= Qabs x)%Q /\ (Qabs x < inject_Z (Z.abs z + 1))%Q /\ (0 <= inject_Z z * x)%Q.

(** The bit pattern [b] is the float of largest magnitude not exceeding [x], with the sign of [x]. *)
Definition float_trunc (eb fb : Z) (x : Q) (b : Z) : Prop :=
  0 <= b < 2 ^ (eb + fb + 1) /\
  exists q, ieee_val eb fb b = FinVal q /\ (Qabs q <= Qabs x)%Q /\ (0 <= q * x)%Q /\
    (forall b' q', 0 <= b' < 2 ^ (eb + fb + 1) -> ieee_val eb fb b' = FinVal q' ->
       (Qabs q' <= Qabs x)%Q -> (Qabs q' <= Qabs q)%Q).

(** Float formats of 8, 16, 32 or 64 bits: [eb] exponent bits, [fb] fraction bits, one sign. *)
Record fmt_ok (eb fb : Z) : Prop := { fo_w : is_width (eb + fb + 1); fo_e : 2 <= eb <= 11; fo_f : 1 <= fb }.

(** The exponent type of the posit has more than [eb] bits. It is 8 bits wide only for 8 bit holders
    with totalbits+esbits < 8. *)
Definition et_holds (c : cfg) (eb : Z) : Prop := eb < 8 \/ 8 < cH c \/ cH c <= cN c + ces c.
(** The exponent type used while packing to a float format, the larger of the above and
    int_least_bits<eb>, has more than [eb] bits. *)
Definition pt_holds (c : cfg) (eb : Z) : Prop := eb <> 8 \/ 8 < cH c \/ cH c <= cN c + ces c.

(** The float format has at least the fraction bits and the exponent range of the posit format. *)
Definition float_covers (c : cfg) (eb fb : Z) : Prop :=
  cN c - 3 - ces c <= fb /\ (cN c - 2) * 2 ^ ces c <= 2 ^ (eb - 1) - 2.
