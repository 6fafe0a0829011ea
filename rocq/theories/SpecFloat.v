(** What IEEE-754 arithmetic promises, independently of the rounding mode.

    A float of a format with [eb] exponent and [fb] fraction bits is its bit pattern, read by [ieee_val]
    of [Spec]. *)
From Coq Require Import ZArith QArith.
From Verif Require Import Spec.
Open Scope Z_scope.

(** Order of values, infinities included; NaN is unordered. *)
Definition ext_le (a b : ieee) : Prop :=
  match a, b with
  | NaNVal, _ | _, NaNVal => False
  | InfVal true, _ | _, InfVal false => True
  | FinVal x, FinVal y => (x <= y)%Q
  | _, _ => False
  end.

(** [q] is a number of the format. *)
Definition is_float (eb fb : Z) (q : Q) : Prop :=
  exists b x, 0 <= b < 2 ^ (eb + fb + 1) /\ ieee_val eb fb b = FinVal x /\ (x == q)%Q.

(** [rnd] rounds exact numbers to the format: numbers of the format are kept, and the order is. Each of the
    IEEE rounding modes satisfies this. *)
Record rounding (eb fb : Z) (rnd : Q -> Z) : Prop := {
  rn_range : forall q, 0 <= rnd q < 2 ^ (eb + fb + 1);
  rn_exact : forall q, is_float eb fb q -> exists y, ieee_val eb fb (rnd q) = FinVal y /\ (y == q)%Q;
  rn_mono : forall p q, (p <= q)%Q -> ext_le (ieee_val eb fb (rnd p)) (ieee_val eb fb (rnd q))
}.

(** [y] is a number of the format nearest to [x]. *)
Definition is_nearest (eb fb : Z) (x y : Q) : Prop :=
  is_float eb fb y /\ forall z, is_float eb fb z -> (Qabs.Qabs (x - y) <= Qabs.Qabs (x - z))%Q.

(** Arithmetic on extended numbers. Zero has no sign here, so a division by zero has the sign of the
    dividend. *)
Definition neg_q (x : Q) : bool := negb (Qle_bool 0 x).
Definition zero_q (x : Q) : bool := Qeq_bool x 0.
Definition x_add (a b : ieee) : ieee :=
  match a, b with
  | NaNVal, _ | _, NaNVal => NaNVal
  | FinVal x, FinVal y => FinVal (x + y)%Q
  | InfVal s, InfVal s' => if Bool.eqb s s' then InfVal s else NaNVal
  | InfVal s, FinVal _ | FinVal _, InfVal s => InfVal s
  end.
Definition x_opp (a : ieee) : ieee :=
  match a with NaNVal => NaNVal | FinVal x => FinVal (- x)%Q | InfVal s => InfVal (negb s) end.
Definition x_mul (a b : ieee) : ieee :=
  match a, b with
  | NaNVal, _ | _, NaNVal => NaNVal
  | FinVal x, FinVal y => FinVal (x * y)%Q
  | InfVal s, InfVal s' => InfVal (xorb s s')
  | InfVal s, FinVal x | FinVal x, InfVal s => if zero_q x then NaNVal else InfVal (xorb s (neg_q x))
  end.
Definition x_div (a b : ieee) : ieee :=
  match a, b with
  | NaNVal, _ | _, NaNVal => NaNVal
  | FinVal x, FinVal y =>
    if zero_q y then (if zero_q x then NaNVal else InfVal (neg_q x)) else FinVal (x / y)%Q
  | InfVal _, InfVal _ => NaNVal
  | InfVal s, FinVal x => InfVal (xorb s (neg_q x))
  | FinVal _, InfVal _ => FinVal 0%Q
  end.

(** The same extended number, however its fraction is written. *)
Definition same_ext (a b : ieee) : Prop :=
  match a, b with FinVal x, FinVal y => (x == y)%Q | _, _ => a = b end.

(** The extended number a posit pattern stands for. The unsigned infinity counts as negative, as its
    pattern does. *)
Definition ext_of (c : Cfg.cfg) (v : Z) : ieee :=
  if v =? - 2 ^ (Cfg.cN c - 1) then match Cfg.csp c with Cfg.WithInf => InfVal true | _ => NaNVal end
  else match Cfg.csp c with
       | Cfg.WithNanInf =>
         if v =? - 2 ^ (Cfg.cN c - 1) + 1 then InfVal true
         else if v =? 2 ^ (Cfg.cN c - 1) - 1 then InfVal false else FinVal (value c v)
       | _ => FinVal (value c v)
       end.

(** [r] is the posit for the extended number [e]: the special pattern of the format, or a posit related
    to the number by [rel]. *)
Definition posit_for (c : Cfg.cfg) (rel : Q -> Z -> Prop) (e : ieee) (r : Z) : Prop :=
  match e with
  | FinVal x => rel x r
  | InfVal s => r = inf_of c s
  | NaNVal => r = exceptional c
  end.

(** A posit obtained by rounding [x] to the float format first: rounded toward zero when [x] is a number of
    that format, and one of the two neighbours of [x] otherwise. *)
Definition via_float (c : Cfg.cfg) (eb fb : Z) (x : Q) (r : Z) : Prop :=
  faithful c x r /\ (is_float eb fb x -> rounds_tz c x r).
(** Packing it executes no out of range shift. *)
Definition room_via (c : Cfg.cfg) (eb fb : Z) (x : Q) : Prop :=
  room_up c x \/ is_float eb fb x /\ room c x.

(** The exponent range of the float format holds every product and quotient of two posits. *)
Definition products_fit (c : Cfg.cfg) (eb : Z) : Prop :=
  2 * ((Cfg.cN c - 2) * 2 ^ Cfg.ces c) <= 2 ^ (eb - 1) - 2.

(** If the extended number is finite, packing it executes no out of range shift. *)
Definition fits (c : Cfg.cfg) (eb fb : Z) (e : ieee) : Prop :=
  match e with FinVal x => room_via c eb fb x | _ => True end.
