(** Sums of unpacked numbers. *)
From Coq Require Import ZArith QArith Qabs Lia.
From Verif Require Import Res Bits Cfg Unpacked Spec UAdd2.
Open Scope Z_scope.

(** The sum of two numbers is off by less than the unit 2^(M+2-F), M being the greater exponent, or twice that, downwards, if they have the
    same sign. Missing: with 32 or more bits a sum that is a single unit shifts out of range; so do exponents that are further apart than the
    bits of the fraction, and exponents at the ends of their type wrap around; see below. *)
Theorem C157_add_error_partial F E na nb ea eb fa fb :
  is_width F -> is_width E -> 0 <= fa < 2 ^ F -> 0 <= fb < 2 ^ F ->
  - 2 ^ (E - 1) <= ea - eb < 2 ^ (E - 1) -> - 2 ^ (E - 1) <= eb - ea < 2 ^ (E - 1) ->
  Z.max ea eb + 1 < 2 ^ (E - 1) -> - 2 ^ (E - 1) <= Z.max ea eb + 2 - F -> Z.abs (ea - eb) < Z.max 32 F ->
  let x := uvalue F na ea fa in
  let y := uvalue F nb eb fb in
  let unit := pow2 (Z.max ea eb + 2 - F) in
  let r := u_add F E (U Regular na ea fa) (U Regular nb eb fb) in
  (r = Ok (u_special Zero false) /\ (Qabs (x + y) < unit)%Q) \/
  (exists n e f, r = Ok (U Regular n e f) /\ 0 <= f < 2 ^ F /\
     (na = nb -> n = na /\ (Qabs (uvalue F n e f) <= Qabs (x + y))%Q /\ (Qabs (x + y) < Qabs (uvalue F n e f) + 2 * unit)%Q) /\
     (na <> nb -> (Qabs (uvalue F n e f - (x + y)) < unit)%Q)) \/
  (32 <= F /\ na <> nb /\ r = UB ShiftCount /\ (Qabs (x + y) < 2 * unit)%Q).
Proof. exact (add_error F E na nb ea eb fa fb). Qed.
Print Assumptions C157_add_error_partial.
(** The sum of two multiples of the unit is exact. *)
Theorem C157_add_exact_partial F E na nb ea eb fa fb :
  is_width F -> is_width E -> 0 <= fa < 2 ^ F -> 0 <= fb < 2 ^ F ->
  - 2 ^ (E - 1) <= ea - eb < 2 ^ (E - 1) -> - 2 ^ (E - 1) <= eb - ea < 2 ^ (E - 1) ->
  Z.max ea eb + 1 < 2 ^ (E - 1) -> - 2 ^ (E - 1) <= Z.max ea eb + 2 - F -> Z.abs (ea - eb) < Z.max 32 F ->
  forall i j,
  let x := uvalue F na ea fa in
  let y := uvalue F nb eb fb in
  let unit := pow2 (Z.max ea eb + 2 - F) in
  let r := u_add F E (U Regular na ea fa) (U Regular nb eb fb) in
  (x == inject_Z i * unit)%Q -> (y == inject_Z j * unit)%Q ->
  (r = Ok (u_special Zero false) /\ (x + y == 0)%Q) \/
  (exists n e f, r = Ok (U Regular n e f) /\ 0 <= f < 2 ^ F /\ (uvalue F n e f == x + y)%Q) \/
  (32 <= F /\ r = UB ShiftCount /\ (Qabs (x + y) == unit)%Q).
Proof. exact (add_exact F E na nb ea eb fa fb). Qed.
Print Assumptions C157_add_exact_partial.
(** A number plus itself is twice the number, by addition and by multiplication; minus itself it is zero. *)
Theorem C157_add_self F E n e f : is_width F -> is_width E -> 0 <= f < 2 ^ F -> f mod 4 = 0 -> - 2 ^ (E - 1) <= e -> e + 1 < 2 ^ (E - 1) ->
  u_add F E (U Regular n e f) (U Regular n e f) = Ok (U Regular n (e + 1) f).
Proof. exact (add_self F E n e f). Qed.
Print Assumptions C157_add_self.
Theorem C157_mul_two F E n e f : is_width F -> is_width E -> 0 <= f < 2 ^ F -> f mod 4 = 0 -> - 2 ^ (E - 1) <= e + 1 -> e + 2 < 2 ^ (E - 1) ->
  u_mul F E (U Regular false 1 0) (U Regular n e f) = Ok (U Regular n (e + 1) f).
Proof. exact (mul_two F E n e f). Qed.
Print Assumptions C157_mul_two.
Theorem C157_cancel F E n e f : is_width F -> is_width E -> 0 <= f < 2 ^ F -> - 2 ^ (E - 1) <= e -> e + 1 < 2 ^ (E - 1) ->
  u_add F E (U Regular n e f) (U Regular (negb n) e f) = Ok (u_special Zero false).
Proof. exact (add_cancel F E n e f). Qed.
Print Assumptions C157_cancel.
(** Zeros, infinities and a NaN on the left. Missing: a NaN on the right is ignored, see below. *)
Theorem C157_specials_partial F E a :
  (utyp a <> NaN -> u_add F E a (u_special Zero false) = Ok a) /\
  (utyp a = Regular \/ utyp a = Infinity -> u_add F E (u_special Zero false) a = Ok a) /\
  (forall s, utyp a = Regular \/ utyp a = Zero -> u_add F E (u_special Infinity s) a = Ok (u_special Infinity s) /\ u_add F E a (u_special Infinity s) = Ok (u_special Infinity s)) /\
  (forall s, u_add F E (u_special Infinity s) (u_special Infinity s) = Ok (u_special Infinity s) /\ u_add F E (u_special Infinity s) (u_special Infinity (negb s)) = Ok u_nan) /\
  (utyp a = NaN -> forall b, u_add F E a b = Ok a).
Proof. exact (add_specials F E a). Qed.
Print Assumptions C157_specials_partial.
(** 1.25 and -2^-4 with 32 bits; the unit is 2^-30. *)
Example C157_ex : is_width 32 /\ is_width 16 /\ 0 <= 2 ^ 30 < 2 ^ 32 /\ (2 ^ 30) mod 4 = 0 /\ - 2 ^ (16 - 1) <= 0 - -4 < 2 ^ (16 - 1) /\ Z.max 0 (-4) + 1 < 2 ^ (16 - 1) /\
  - 2 ^ (16 - 1) <= Z.max 0 (-4) + 2 - 32 /\ Z.abs (0 - -4) < Z.max 32 32 /\
  (uvalue 32 false 0 (2 ^ 30) == inject_Z (5 * 2 ^ 28) * pow2 (Z.max 0 (-4) + 2 - 32))%Q /\ (uvalue 32 true (-4) 0 == inject_Z (- 2 ^ 26) * pow2 (Z.max 0 (-4) + 2 - 32))%Q /\
  u_add 32 16 (U Regular false 0 (2 ^ 30)) (U Regular true (-4) 0) = Ok (U Regular false 0 (3 * 2 ^ 28)) /\
  u_add 32 16 (U Regular false 0 (2 ^ 30)) (U Regular false 0 (2 ^ 30)) = Ok (U Regular false 1 (2 ^ 30)).
Proof. unfold is_width. repeat split; try lia; try (vm_compute; reflexivity); vm_compute; discriminate. Qed.
(** 1 + NaN is 1; 2^40 + 1 shifts out of range; the two lowest bits of the operands are lost, so that a + a is less than 2a; a difference of one
    unit shifts out of range; the exponent wraps around. *)
Theorem C157_add_refuted :
  (u_add 32 16 u_one u_nan = Ok u_one) /\
  (u_add 32 16 (U Regular false 40 0) u_one = UB ShiftCount) /\
  (u_add 32 16 (U Regular false 0 1) (U Regular false 0 1) = Ok (U Regular false 1 0)) /\
  (u_add 32 16 (U Regular false 0 4) (U Regular true 0 0) = UB ShiftCount) /\
  (exists e, u_add 32 16 (U Regular false 32767 0) (U Regular false 32767 0) = Ok (U Regular false e 0) /\ e = -32768).
Proof. exact add_refuted. Qed.
Print Assumptions C157_add_refuted.
