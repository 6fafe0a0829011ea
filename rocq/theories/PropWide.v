(** The replacement for 128 bit integers on compilers that have none, and unpacked arithmetic with 64 bit fractions on
    such compilers: C102, C103. *)
From Coq Require Import ZArith QArith Lia.
From Verif Require Import Res CInt Spec SpecWide Cfg Unpacked Wide WideProof WideProof2.
Open Scope Z_scope.

(** In this file [wide hi lo] is the number hi * 2^64 + lo, and [word x] says that x is a 64 bit unsigned number. *)

(** C102. Full claim: unsigned128 behaves as an unsigned 128 bit integer. Missing: < is wrong when the operands are not
    ordered in both halves, and shifts by 0 are undefined (both refuted below). *)
Theorem C102_add a b : word (whi a) -> word (wlo a) -> word (whi b) -> word (wlo b) ->
  exists r, w_add a b = Ok r /\ word (whi r) /\ word (wlo r) /\
  wide (whi r) (wlo r) = (wide (whi a) (wlo a) + wide (whi b) (wlo b)) mod 2 ^ 128.
Proof. exact (w_add_flat a b). Qed.
Print Assumptions C102_add.
Theorem C102_sub a b : word (whi a) -> word (wlo a) -> word (whi b) -> word (wlo b) ->
  exists r, w_sub a b = Ok r /\ word (whi r) /\ word (wlo r) /\
  wide (whi r) (wlo r) = (wide (whi a) (wlo a) - wide (whi b) (wlo b)) mod 2 ^ 128.
Proof. exact (w_sub_flat a b). Qed.
Print Assumptions C102_sub.
Theorem C102_shl_partial a n : word (whi a) -> word (wlo a) -> 1 <= n < 128 ->
  exists r, w_shl a n = Ok r /\ word (whi r) /\ word (wlo r) /\
  wide (whi r) (wlo r) = (wide (whi a) (wlo a) * 2 ^ n) mod 2 ^ 128.
Proof. exact (fun H L => w_shl_flat a H L n). Qed.
Print Assumptions C102_shl_partial.
Theorem C102_shr_partial a n : word (whi a) -> word (wlo a) -> 1 <= n < 128 ->
  exists r, w_shr a n = Ok r /\ word (whi r) /\ word (wlo r) /\
  wide (whi r) (wlo r) = wide (whi a) (wlo a) / 2 ^ n.
Proof. exact (fun H L => w_shr_flat a H L n). Qed.
Print Assumptions C102_shr_partial.
Theorem C102_shift_by_zero_refuted a : word (whi a) -> word (wlo a) -> w_shl a 0 = UB ShiftCount /\ w_shr a 0 = UB ShiftCount.
Proof. exact (w_shift0_flat a). Qed.
Print Assumptions C102_shift_by_zero_refuted.
Theorem C102_less_partial a b : word (whi a) -> word (wlo a) -> word (whi b) -> word (wlo b) ->
  w_lt a b = true -> wide (whi a) (wlo a) < wide (whi b) (wlo b).
Proof. exact (w_lt_flat a b). Qed.
Print Assumptions C102_less_partial.
Theorem C102_less_refuted : exists a b, word (whi a) /\ word (wlo a) /\ word (whi b) /\ word (wlo b) /\
  wide (whi a) (wlo a) < wide (whi b) (wlo b) /\ w_lt a b = false.
Proof. exact w_lt_bad_flat. Qed.
Print Assumptions C102_less_refuted.
Theorem C102_convert a x : word (whi a) -> word (wlo a) -> word x ->
  wide (whi (w_of x)) (wlo (w_of x)) = x /\ w_to a = wide (whi a) (wlo a) mod 2 ^ 64.
Proof. exact (fun H L => w_conv_flat a H L x). Qed.
Print Assumptions C102_convert.
(** A carry and a borrow between the halves, and shifts across them. *)
Example C102_ex :
  w_add (W 1 (2 ^ 64 - 1)) (W 2 3) = Ok (W 4 2) /\ w_sub (W 4 2) (W 2 3) = Ok (W 1 (2 ^ 64 - 1)) /\
  w_sub (W 0 0) (W 0 1) = Ok (W (2 ^ 64 - 1) (2 ^ 64 - 1)) /\
  w_shl (W 1 (2 ^ 63)) 1 = Ok (W 3 0) /\ w_shl (W 1 3) 65 = Ok (W 6 0) /\ w_shr (W 3 0) 1 = Ok (W 1 (2 ^ 63)) /\
  w_shr (W 6 7) 65 = Ok (W 0 3) /\ w_lt (W 1 1) (W 2 2) = true.
Proof. vm_compute. repeat split. Qed.

(** C103. Full claim: * / and inv of unpacked numbers with 64 bit fractions give the exact result with its fraction cut
    to 64 bits. It fails with the replacement type: the 64 bit fractions are multiplied and divided modulo 2^64, and
    the fraction of every result is 0. What holds is below: exactly which operands get the exact result. *)
Theorem C103_mul_partial E na nb ea eb fa fb : is_width E -> word fa -> word fb -> - 2 ^ (E - 1) <= ea + eb < 2 ^ (E - 1) ->
  w_mul E (U Regular na ea fa) (U Regular nb eb fb) = Ok (U Regular (xorb na nb) (ea + eb) 0) /\
  ((uvalue 64 (xorb na nb) (ea + eb) 0 == uvalue 64 na ea fa * uvalue 64 nb eb fb)%Q <-> fa = 0 /\ fb = 0).
Proof. exact (w_mul_ok E na nb ea eb fa fb). Qed.
Print Assumptions C103_mul_partial.
Theorem C103_div_partial E na nb ea eb fa fb : is_width E -> word fa -> word fb -> - 2 ^ (E - 1) <= ea - eb - 1 -> ea - eb < 2 ^ (E - 1) ->
  exists e, w_div E (U Regular na ea fa) (U Regular nb eb fb) = Ok (U Regular (xorb na nb) e 0) /\
  ((uvalue 64 (xorb na nb) e 0 == uvalue 64 na ea fa / uvalue 64 nb eb fb)%Q <-> fa = fb).
Proof. exact (w_div_ok E na nb ea eb fa fb). Qed.
Print Assumptions C103_div_partial.
Theorem C103_inv_partial E na ea fa : is_width E -> word fa -> - 2 ^ (E - 1) <= - ea - 1 -> - ea < 2 ^ (E - 1) ->
  exists e, w_inv E (U Regular na ea fa) = Ok (U Regular na e 0) /\ ((uvalue 64 na e 0 == 1 / uvalue 64 na ea fa)%Q <-> fa = 0).
Proof. exact (w_inv_ok E na ea fa). Qed.
Print Assumptions C103_inv_partial.
(** Zeros, infinities and NaN are handled as where 128 bit integers exist. *)
Theorem C103_specials E a b : utyp a <> Regular \/ utyp b <> Regular -> w_mul E a b = u_mul 64 E a b /\ w_div E a b = u_div 64 E a b.
Proof. exact (w_special E a b). Qed.
Print Assumptions C103_specials.
(** 1/0 is the infinity, 1/infinity is 0, NaN stays NaN; a quotient by zero is an infinity of the sign of the dividend. *)
Theorem C103_inv_specials E n e f na ea fa :
  w_inv E (U Zero n e f) = Ok (U Infinity false 0 0) /\ w_inv E (U Infinity n e f) = Ok (U Zero false 0 0) /\
  (exists r, w_inv E (U NaN n e f) = Ok r /\ utyp r = NaN) /\
  w_div E (U Regular na ea fa) (U Zero n e f) = Ok (U Infinity na 0 0) /\ w_mul E (U Regular na ea fa) (U Zero n e f) = Ok (U Zero false 0 0).
Proof. exact (w_inv_special E n e f na ea fa). Qed.
Print Assumptions C103_inv_specials.
(** 3 * 3 gives 4. *)
Theorem C103_mul_refuted : w_mul 32 (U Regular false 1 (2 ^ 63)) (U Regular false 1 (2 ^ 63)) = Ok (U Regular false 2 0) /\
  (uvalue 64 false 1 (2 ^ 63) == 3)%Q /\ (uvalue 64 false 2 0 == 4)%Q.
Proof. exact w_mul_bad. Qed.
Print Assumptions C103_mul_refuted.
(** 3 / 2 gives 1 and the inverse of 3 is 1/4. *)
Theorem C103_div_inv_refuted : w_div 32 (U Regular false 1 (2 ^ 63)) (U Regular false 1 0) = Ok (U Regular false 0 0) /\
  w_inv 32 (U Regular false 1 (2 ^ 63)) = Ok (U Regular false (-2) 0) /\
  (uvalue 64 false 1 (2 ^ 63) == 3)%Q /\ (uvalue 64 false 1 0 == 2)%Q /\ (uvalue 64 false 0 0 == 1)%Q /\ (uvalue 64 false (-2) 0 == 1 # 4)%Q.
Proof. exact w_div_bad. Qed.
Print Assumptions C103_div_inv_refuted.
Example C103_ex : is_width 32 /\ word (2 ^ 63) /\ w_mul 32 (U Regular true 5 0) (U Regular false (-2) 0) = Ok (U Regular true 3 0) /\
  w_div 32 (U Regular true 5 (2 ^ 63)) (U Regular false (-2) (2 ^ 63)) = Ok (U Regular true 7 0) /\
  w_mul 32 u_zero u_pinfinity = Ok u_nan.
Proof. split; [unfold is_width; tauto|]. unfold word. vm_compute. repeat split; congruence. Qed.
