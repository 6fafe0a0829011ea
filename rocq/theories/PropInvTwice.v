(** C166. Inverting a power of two twice gives it back. *)
From Coq Require Import ZArith QArith.
From Verif Require Import Res Traits Cfg Spec Unpacked Posit Configs Examples InvTwice.
Open Scope Z_scope.

(** Full statement: the inverse of the inverse of every number with an inverse in the format is the number, as posit
    and as unpacked number. For posits it is proved for numbers whose packing has room for its shifts, whatever the fraction type. *)
Theorem C166_posit_partial c x y :
  valid_cfg c -> exp_ok c -> real c x -> real c y -> (value c x * value c y == 1)%Q -> room c (value c x) -> room c (value c y) ->
  p_inv c x = Ok y /\ p_inv c y = Ok x.
Proof. exact (inv_twice c x y). Qed.
Print Assumptions C166_posit_partial.
(** Without that room the inverse is undefined. *)
Theorem C166_room_refuted c x y :
  valid_cfg c -> exp_ok c -> real c x -> real c y -> (value c x * value c y == 1)%Q -> ~ room c (value c y) ->
  p_inv c x = UB ShiftCount.
Proof. exact (inv_no_room c x y). Qed.
Print Assumptions C166_room_refuted.
(** Unpacked numbers with fraction zero, for all exponents but the lowest of the exponent type. *)
Theorem C166_unpacked F E n e :
  is_width F -> is_width E -> - 2 ^ (E - 1) < e < 2 ^ (E - 1) ->
  u_inv F E (U Regular n e 0) = Ok (U Regular n (- e) 0) /\ u_inv F E (U Regular n (- e) 0) = Ok (U Regular n e 0) /\
  (uvalue F n e 0 * uvalue F n (- e) 0 == 1)%Q.
Proof. exact (u_inv_twice F E n e). Qed.
Print Assumptions C166_unpacked.
(** The lowest exponent cannot be negated. *)
Theorem C166_lowest_refuted F E n : is_width E -> 32 <= E -> u_inv F E (U Regular n (- 2 ^ (E - 1)) 0) = UB SignedOverflow.
Proof. exact (u_inv_lowest E F n). Qed.
Print Assumptions C166_lowest_refuted.
(** -4 and -1/4 in the 16 bit format; 2 and 1/2 unpacked, as in tests/testsposit.hpp 20. *)
Example C166_ex : valid_cfg p16 /\ exp_ok p16 /\ roomy p16 /\ real p16 (-24576) /\ real p16 (-8192) /\
  (value p16 (-24576) * value p16 (-8192) == 1)%Q /\ is_width 32 /\ - 2 ^ (32 - 1) < 1 < 2 ^ (32 - 1) /\
  u_inv 32 32 (U Regular false 1 0) = Ok (U Regular false (-1) 0).
Proof. ex. Qed.
(** All numbers have room in that format; the inverse of the largest 32 bit posit has none. *)
Example C166_ex_room : (forall q, room p16 q) /\ valid_cfg p32 /\ exp_ok p32 /\ real p32 2147483647 /\ real p32 1 /\
  (value p32 2147483647 * value p32 1 == 1)%Q /\ ~ room p32 (value p32 1) /\ p_inv p32 2147483647 = UB ShiftCount.
Proof. exact room_cases. Qed.
