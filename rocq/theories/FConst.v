(** Model of include/floatconst2bits.hpp. *)
From Coq Require Import ZArith Bool List.
From Verif Require Import Res CInt.
Import ListNotations.
Open Scope Z_scope.

(** floatconst2bits.hpp 17-21, the table of [count_leading_zeroes]. *)
Definition bit_position : list Z :=
  [ 0;  1;  2;  7;  3; 13;  8; 19;  4; 25; 14; 28;  9; 34; 20; 40;
    5; 17; 26; 38; 15; 46; 29; 48; 10; 31; 35; 54; 21; 50; 41; 57;
   63;  6; 12; 18; 24; 27; 33; 39; 16; 37; 45; 47; 30; 53; 49; 56;
   62; 11; 23; 32; 36; 44; 52; 55; 61; 22; 43; 51; 60; 42; 59; 58 ].

(** floatconst2bits.hpp 23-28: [v |= v >> k] on uint64_t. *)
Definition smear (k v : Z) : Z := cor v (v / 2 ^ k).

(** floatconst2bits.hpp 15-32, [count_leading_zeroes(uint64_t)]. The index is below 64. *)
Definition count_leading_zeroes (v : Z) : Z :=
  let v := smear 1 v in
  let v := smear 2 v in
  let v := smear 4 v in
  let v := smear 8 v in
  let v := smear 16 v in
  let v := smear 32 v in
  let v := wrapu 64 (v / 2 + 1) in
  63 - nth (Z.to_nat (wrapu 64 (v * 0x0218a392cd3d5dbf) / 2 ^ 58)) bit_position 0.

(** A C++ float: the magnitude of a finite one is counted in units of 2^-149, the smallest denormal. *)
Inductive cfloat : Set := CFin (neg : bool) (units : Z) | CInf (neg : bool) | CNaN.

(** floatconst2bits.hpp 52-56, the loop [while(abs_f < 0x1p87f)]. The product by 0x1p41f is exact: it
    stays below 2^128 and only moves the exponent up. [None] means that the fuel ran out. *)
Fixpoint scale_up (fuel : nat) (u e : Z) : option (Z * Z) :=
  if u <? 2 ^ (87 + 149) then
    match fuel with
    | O => None
    | S n => scale_up n (u * 2 ^ 41) (e - 41)
    end
  else Some (u, e).

(** floatconst2bits.hpp 36-70, [float2bits(float)]. The product by 0x1p-64f is exact because
    abs_f >= 2^87, and its conversion to uint64_t truncates. *)
Definition float2bits (fuel : nat) (f : cfloat) : option (res Z) :=
  match f with
  | CFin neg u =>
    if u =? 0 then Some (Ok 0)
    else
      match scale_up fuel u 254 with
      | None => None
      | Some (u, e) =>
        let a := u / 2 ^ (149 + 64) in
        let lz := count_leading_zeroes a in
        let e := e - lz in
        let lz := if e <=? 0 then 7 else lz in
        let e := if e <=? 0 then 0 else e in
        Some (
          let! s := cshl (uint 64) a (lz + 1) in
          let! m := cshr (uint 64) s (64 - 23) in
          let significand := cast (uint 32) m in
          let! sg := cshl (uint 32) (if neg then 1 else 0) 31 in
          let! ex := cshl c_int e 23 in
          Ok (cor (cor sg (cast (uint 32) ex)) significand))
      end
  | CInf false => Some (Ok 0x7f800000)
  | CInf true => Some (Ok 0xff800000)
  | CNaN => Some (Ok 0x7fc00000)
  end.
