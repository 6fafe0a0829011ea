(** Model of include/bithippop.hpp (bit level helpers). *)
From Coq Require Import ZArith Bool.
From Verif Require Import Res CInt.
Open Scope Z_scope.

(** bithippop.hpp 64-68, [bitmask<R>(onecount)], R unsigned of [w] bits.
    The count subtraction is done in size_t; a count above [w] gives a huge unsigned shift
    count, represented here by a negative one: both are [ShiftCount]. *)
Definition bitmask (w onecount : Z) : res Z :=
  let lhs := cast (uint w) (if onecount =? 0 then 0 else -1) in
  let! rhs := cshr (prom (uint w)) (cast (uint w) (-1)) (w - onecount) in
  Ok (cast (uint w) (cand lhs rhs)).

(** __builtin_clz on uint32_t; undefined on 0 (used at bithippop.hpp 89-120). *)
Definition clz32 (x : Z) : res Z :=
  if x =? 0 then UB ClzZero else Ok (31 - Z.log2 x).

(** bithippop.hpp 89-92, [__builtin_clz64]; the argument of the second call is truncated to
    unsigned int. *)
Definition clz64 (v : Z) : res Z :=
  let! hi := cshr (uint 64) v 32 in
  if negb (hi =? 0) then clz32 (cast (uint 32) hi)
  else let! r := clz32 (cast (uint 32) v) in Ok (32 + r).

(** bithippop.hpp 94-120, the overload set [findbitleftmostC] selected by the width [w]. *)
Definition findbitleftmostC (w x : Z) : res Z :=
  if w =? 64 then clz64 x
  else if w =? 32 then clz32 x
  else if w =? 16 then let! r := clz32 x in Ok (r - 16)
  else let! r := clz32 x in Ok (r - 24).

(** bithippop.hpp 151-163, [bitset_part] (both overloads), T unsigned of [w] bits and Y = T.
    [~M] is computed on the promoted mask. *)
Definition bitset_part (w input value offset size : Z) : res Z :=
  let! M := bitmask w size in
  let! sh := cshl (prom (uint w)) (cand value M) offset in
  Ok (cast (uint w) (cor (cand input (cnot (prom (uint w)) M)) sh)).

(** bithippop.hpp 165-176 [bitset_get] (both overloads) and 177-230 [bitset_getT];
    the BMI variant [_bextr] computes the same field. T unsigned of [w] bits. *)
Definition bitset_get (w input offset size : Z) : res Z :=
  let! sh := cshr (prom (uint w)) input offset in
  let! M := bitmask w size in
  Ok (cast (uint w) (cand sh M)).

(** bithippop.hpp 232-249 [bitset_leftmost_get_const<T,N>]. *)
Definition bitset_leftmost_get_const (w n x : Z) : res Z :=
  if n =? 0 then Ok 0 else bitset_get w x (w - n) n.

(** bithippop.hpp 271-276 [pcabs], T signed of [w] bits. *)
Definition pcabs (w x : Z) : res Z :=
  if x <? 0 then let! r := cneg (prom (sint w)) x in Ok (cast (sint w) r)
  else Ok x.

(** bithippop.hpp 278-284 [pabs], T signed of [w] bits. *)
Definition pabs (w x : Z) : res Z :=
  let! mask := cshr (prom (sint w)) x (w - 1) in
  let! s := cadd (prom (sint w)) x mask in
  Ok (cast (sint w) (cxor s mask)).

(** bithippop.hpp 286-321 [cast_msb<A,abits,B,bbits>] with A, B unsigned of exactly
    [abits], [bbits] bits (the only way it is instantiated). *)
Definition cast_msb (abits bbits value : Z) : res Z :=
  if abits >? bbits then
    let! r := cshr (prom (uint abits)) value (abits - bbits) in
    Ok (cast (uint bbits) r)
  else
    let! r := cshl (prom (uint bbits)) (cast (uint bbits) value) (bbits - abits) in
    Ok (cast (uint bbits) r).

(** bithippop.hpp 323-358 [cast_right_to_left<A,abits,B,bbits>], A unsigned of [aw] bits,
    B unsigned of [bw] bits. *)
Definition cast_right_to_left (aw abits bw bbits value : Z) : res Z :=
  let! g := bitset_get aw value 0 abits in
  if abits >? bbits then
    let! r := cshr (prom (uint aw)) g (abits - bbits) in
    Ok (cast (uint bw) r)
  else
    let! r := cshl (prom (uint bw)) (cast (uint bw) g) (bbits - abits) in
    Ok (cast (uint bw) r).
