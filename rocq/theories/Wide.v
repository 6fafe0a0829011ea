(** typehelpers.hpp 80-156: the struct unsigned128 the headers use as the type twice as wide as uint64_t where the
    compiler has no 128 bit integers (32 bit targets and MSVC), and what operators * and / and [inv] of
    Unpacked<uint64_t,ET> become with it.

    [unsigned128] has no operators * / &: these convert it to uint64_t, that is to its low half (typehelpers.hpp 93),
    and the result is converted back with a high half of 0 (line 84).

    Not modelled: typehelpers.hpp 25-78 and 296-377, under [#if 0] or [#ifdef _MSVC_VER], a macro no compiler defines. *)
From Coq Require Import ZArith Bool.
From Verif Require Import Res CInt Unpacked.
Open Scope Z_scope.

(** typehelpers.hpp 83. *)
Record u128 : Set := W { whi : Z; wlo : Z }.
Definition u64 : ity := uint 64.
(** typehelpers.hpp 84-91. *)
Definition w_of (x : Z) : u128 := W 0 x.
(** typehelpers.hpp 93. *)
Definition w_to (a : u128) : Z := wlo a.
(** typehelpers.hpp 95-98. *)
Definition w_lt (a b : u128) : bool := (whi a <? whi b) && (wlo a <? wlo b).
(** typehelpers.hpp 100-107. *)
Definition w_sub (a b : u128) : res u128 :=
  let! h := csub u64 (whi a) (whi b) in
  let! l := csub u64 (wlo a) (wlo b) in
  if wlo a <? wlo b then let! h' := csub u64 h 1 in Ok (W h' l) else Ok (W h l).
(** typehelpers.hpp 109-116. *)
Definition w_add (a b : u128) : res u128 :=
  let! h := cadd u64 (whi a) (whi b) in
  let! l := cadd u64 (wlo a) (wlo b) in
  if l <? wlo a then let! h' := cadd u64 h 1 in Ok (W h' l) else Ok (W h l).
(** typehelpers.hpp 118-135. *)
Definition w_shl (a : u128) (n : Z) : res u128 :=
  if n >=? 64 then let! h := cshl u64 (wlo a) (n - 64) in Ok (W h 0)
  else
    let! l := cshl u64 (wlo a) n in
    let! h1 := cshl u64 (whi a) n in
    let! h2 := cshr u64 (wlo a) (64 - n) in
    Ok (W (cor h1 h2) l).
(** typehelpers.hpp 137-155. *)
Definition w_shr (a : u128) (n : Z) : res u128 :=
  if n >=? 64 then let! l := cshr u64 (whi a) (n - 64) in Ok (W 0 l)
  else
    let! h := cshr u64 (whi a) n in
    let! l1 := cshr u64 (wlo a) n in
    let! l2 := cshl u64 (whi a) (64 - n) in
    Ok (W h (cor l1 l2)).

(** typehelpers.hpp 285-288, at T = uint64_t. *)
Definition w_extramul (a b : Z) : res u128 := let! m := cmul u64 (w_to (w_of a)) b in Ok (w_of m).
(** typehelpers.hpp 290-293, at T = uint64_t. *)
Definition w_extradiv (a : u128) (b : Z) : res u128 := let! q := cdiv u64 (w_to a) b in Ok (w_of q).

(** unpacked.h 389-425, [operator*] at FT = uint64_t. *)
Definition w_mul (E : Z) (a b : unpacked) : res unpacked :=
  if u_isNaN a || u_isNaN b then Ok a
  else
    match utyp a, utyp b with
    | Regular, Regular =>
      let! ah := cshr u64 (ufrac a) 1 in
      let! bh := cshr u64 (ufrac b) 1 in
      let afrac := cor (FT_leftmost_bit 64) ah in
      let bfrac := cor (FT_leftmost_bit 64) bh in
      let! m := w_extramul afrac bfrac in
      let! frac := w_shr m 64 in
      let q := cand (w_to frac) (FT_leftmost_bit 64) =? 0 in
      let! rfrac := (if q then w_shl frac 1 else Ok frac) in
      let! e1 := cadd (pE E) (uexp a) (uexp b) in
      let! exp := cadd (pE E) e1 (if q then 0 else 1) in
      let! f := w_shl rfrac 1 in
      Ok (u_mk 64 E exp (w_to f) (xorb (uneg a) (uneg b)))
    | Regular, Zero | Zero, Regular | Zero, Zero => Ok u_zero
    | Infinity, Zero | Zero, Infinity => Ok u_nan
    | _, _ => if xorb (uneg a) (uneg b) then Ok u_ninfinity else Ok u_pinfinity
    end.

(** unpacked.h 432-469, [operator/] at FT = uint64_t. *)
Definition w_div (E : Z) (a b : unpacked) : res unpacked :=
  if u_isNaN a || u_isNaN b then Ok a
  else
    match utyp a, utyp b with
    | Regular, Regular =>
      let! ah := cshr u64 (ufrac a) 1 in
      let! bh := cshr u64 (ufrac b) 1 in
      let afrac := cor (FT_leftmost_bit 64) ah in
      let bfrac1 := cor (FT_leftmost_bit 64) bh in
      let! e1 := csub (pE E) (uexp a) (uexp b) in
      let! exp := cadd (pE E) e1 (if afrac <? bfrac1 then -1 else 0) in
      let! bfrac := (if afrac <? bfrac1 then cshr u64 bfrac1 1 else Ok bfrac1) in
      let! n := w_shl (w_of afrac) 64 in
      let! q := w_extradiv n bfrac in
      Ok (u_mk 64 E exp (w_to q) (xorb (uneg a) (uneg b)))
    | Zero, Zero | Infinity, Infinity => Ok u_nan
    | Zero, Infinity => Ok u_zero
    | Zero, Regular | Infinity, Zero => Ok a
    | Regular, Zero => Ok (u_special Infinity (uneg a))
    | _, _ => if xorb (uneg a) (uneg b) then Ok u_ninfinity else Ok u_pinfinity
    end.

(** unpacked.h 239-281, [inv] at FT = uint64_t. *)
Definition w_inv (E : Z) (u : unpacked) : res unpacked :=
  match utyp u with
  | Regular =>
    if ufrac u =? 0 then
      let! e := cneg (pE E) (uexp u) in
      Ok (u_mk 64 E e 0 (uneg u))
    else
      let afrac := FT_leftmost_bit 64 in
      let! h := cshr u64 (ufrac u) 1 in
      let bfrac := cor (FT_leftmost_bit 64) h in
      let! exp := cneg (pE E) (uexp u) in
      let! exp' := (if afrac <? bfrac then csub (pE E) exp 1 else Ok exp) in
      let! bfrac' := (if afrac <? bfrac then cshr u64 bfrac 1 else Ok bfrac) in
      let! n := w_shl (w_of afrac) 64 in
      let! q := w_extradiv n bfrac' in
      Ok (u_mk 64 E exp' (w_to q) (uneg u))
  | Infinity => Ok u_zero
  | Zero => Ok (u_special Infinity false)
  | NaN => Ok u
  end.
