(** Model of include/unpacked.h: [Unpacked<FT,ET>].

    [F] is the number of bits of FT (unsigned), [E] the number of bits of ET (signed).
    nextinttype<FT> is the unsigned type of 2F bits (typehelpers.hpp 220-252, with the compiler's
    128 bit integer for F = 64). *)
From Coq Require Import ZArith Bool.
From Verif Require Import Res CInt Bits Traits.
Open Scope Z_scope.

(** unpacked.h 66-72. *)
Inductive utype : Set := Regular | Infinity | NaN | Zero.

Definition utype_eqb (a b : utype) : bool :=
  match a, b with
  | Regular, Regular | Infinity, Infinity | NaN, NaN | Zero, Zero => true
  | _, _ => false
  end.

(** unpacked.h 75-78. *)
Record unpacked : Set := U { utyp : utype; uneg : bool; uexp : Z; ufrac : Z }.

(** unpacked.h 107-108: constructor from a type; exponent and fraction keep their default 0. *)
Definition u_special (t : utype) (neg : bool) : unpacked := U t neg 0 0.

(** unpacked.h 125-129: constructor (ET exponent, FT fraction, bool sign), arguments converted to
    the parameter types. *)
Definition u_mk (F E : Z) (e f : Z) (neg : bool) : unpacked :=
  U Regular neg (cast (sint E) e) (cast (uint F) f).

(** unpacked.h 187-198. *)
Definition u_isNaN (u : unpacked) : bool := utype_eqb (utyp u) NaN.
Definition u_isInfinity (u : unpacked) : bool := utype_eqb (utyp u) Infinity.
Definition u_isZero (u : unpacked) : bool := utype_eqb (utyp u) Zero.
Definition u_isRegular (u : unpacked) : bool := utype_eqb (utyp u) Regular.
Definition u_pinfinity : unpacked := u_special Infinity false.
Definition u_ninfinity : unpacked := u_special Infinity true.
Definition u_nan : unpacked := u_special NaN false.
Definition u_zero : unpacked := u_special Zero false.
Definition u_one : unpacked := U Regular false 0 0.

(** unpacked.h 59-62. *)
Definition FT_leftmost_bit (F : Z) : Z := 2 ^ (F - 1).

Definition pF (F : Z) : ity := prom (uint F).        (* promoted FT *)
Definition pE (E : Z) : ity := prom (sint E).        (* promoted ET *)
Definition pN (F : Z) : ity := prom (uint (2 * F)).  (* promoted nextinttype<FT> *)

(** unpacked.h 34-38. *)
Definition clamp (v lo hi : Z) : Z := if v <? lo then lo else if v >? hi then hi else v.

(** unpacked.h 92-103. *)
Definition u_normalized (F E : Z) (u : unpacked) : res unpacked :=
  if ufrac u =? 0 then Ok (u_special Zero false)
  else
    let! k := findbitleftmostC F (ufrac u) in
    let! e := csub (pE E) (uexp u) k in
    let! f := cshl (pF F) (ufrac u) (k + 1) in
    Ok (u_mk F E e f (uneg u)).

(** unpacked.h 217-226. *)
Definition u_eq (a b : unpacked) : bool :=
  if u_isNaN a || u_isNaN b then false
  else Bool.eqb (uneg a) (uneg b) && utype_eqb (utyp a) (utyp b)
       && (if u_isRegular a then (uexp a =? uexp b) && (ufrac a =? ufrac b) else true).

(** unpacked.h 228-232. *)
Definition u_ne (a b : unpacked) : bool :=
  if u_isNaN a || u_isNaN b then true else u_eq a b.

(** unpacked.h 234-237. *)
Definition u_neg (F E : Z) (u : unpacked) : unpacked :=
  u_mk F E (uexp u) (ufrac u) (negb (uneg u)).

(** typehelpers.hpp 285-288 [nextintop<FT>::extramul]. *)
Definition extramul (F a b : Z) : res Z :=
  let! m := cmul (pN F) a b in Ok (cast (uint (2 * F)) m).

(** typehelpers.hpp 290-293 [nextintop<FT>::extradiv]. *)
Definition extradiv (F a b : Z) : res Z :=
  let! q := cdiv (pN F) a b in Ok (cast (uint (2 * F)) q).

(** unpacked.h 239-281. *)
Definition u_inv (F E : Z) (u : unpacked) : res unpacked :=
  match utyp u with
  | Regular =>
    if ufrac u =? 0 then
      let! e := cneg (pE E) (uexp u) in
      Ok (u_mk F E e 0 (uneg u))
    else
      let afrac := FT_leftmost_bit F in
      let! h := cshr (pF F) (ufrac u) 1 in
      let bfrac := cast (uint F) (cor (FT_leftmost_bit F) h) in
      let! exp := cneg (pE E) (uexp u) in
      let! exp' := (if afrac <? bfrac then csub (pE E) exp 1 else Ok exp) in
      let! bfrac' := (if afrac <? bfrac then
                        let! r := cshr (pF F) bfrac 1 in Ok (cast (uint F) r)
                      else Ok bfrac) in
      let! num := cshl (pN F) afrac F in
      let! q := extradiv F (cast (uint (2 * F)) num) bfrac' in
      Ok (u_mk F E exp' q (uneg u))
  | Infinity => Ok u_zero
  | Zero => Ok (u_special Infinity false)
  | NaN => Ok u
  end.

(** unpacked.h 325-384, [operator+]. *)
Definition u_add (F E : Z) (a b : unpacked) : res unpacked :=
  if u_isNaN a || u_isNaN b then Ok a
  else
    match utyp a, utyp b with
    | Regular, Regular =>
      let! dir := csub (pE E) (uexp a) (uexp b) in
      let! exp1 := cadd (pE E) (if dir <? 0 then uexp b else uexp a) 1 in
      let exp := cast (sint E) exp1 in
      let! top := cshr (pF F) (FT_leftmost_bit F) 1 in
      let! ah := cshr (pF F) (ufrac a) 2 in
      let! bh := cshr (pF F) (ufrac b) 2 in
      let afrac1 := cast (uint F) (cor top ah) in
      let bfrac1 := cast (uint F) (cor top bh) in
      let! afrac := (if dir <? 0 then
                       let! nd := cneg (pE E) dir in
                       let! r := cshr (pF F) afrac1 nd in Ok (cast (uint F) r)
                     else Ok afrac1) in
      let! bfrac := (if dir <? 0 then Ok bfrac1
                     else let! r := cshr (pF F) bfrac1 dir in Ok (cast (uint F) r)) in
      let mode := if Bool.eqb (uneg a) (uneg b) then 0
                  else if afrac >? bfrac then 1 else -1 in
      let osign := if mode >=? 0 then uneg a else uneg b in
      let! frac := (if mode =? 0 then cadd (pF F) afrac bfrac
                    else if mode >? 0 then csub (pF F) afrac bfrac
                    else csub (pF F) bfrac afrac) in
      u_normalized F E (u_mk F E exp (cast (uint F) frac) osign)
    | Regular, Zero | Zero, Zero | Infinity, Zero | Infinity, Regular => Ok a
    | Zero, Regular | Zero, Infinity | Regular, Infinity => Ok b
    | _, _ => if Bool.eqb (uneg a) (uneg b) then Ok a else Ok u_nan
    end.

(** unpacked.h 307-310 [operator-] and 318-322 [operator-=]. *)
Definition u_sub (F E : Z) (a b : unpacked) : res unpacked := u_add F E a (u_neg F E b).

(** unpacked.h 389-425, [operator*]. *)
Definition u_mul (F E : Z) (a b : unpacked) : res unpacked :=
  if u_isNaN a || u_isNaN b then Ok a
  else
    match utyp a, utyp b with
    | Regular, Regular =>
      let! ah := cshr (pF F) (ufrac a) 1 in
      let! bh := cshr (pF F) (ufrac b) 1 in
      let afrac := cast (uint F) (cor (FT_leftmost_bit F) ah) in
      let bfrac := cast (uint F) (cor (FT_leftmost_bit F) bh) in
      let! m := extramul F afrac bfrac in
      let! frac := cshr (pN F) m F in
      let q := cand frac (FT_leftmost_bit F) =? 0 in
      let! rfrac := (if q then cshl (pN F) frac 1 else Ok frac) in
      let! e1 := cadd (pE E) (uexp a) (uexp b) in
      let! exp := cadd (pE E) e1 (if q then 0 else 1) in
      let! f := cshl (pN F) rfrac 1 in
      Ok (u_mk F E exp f (xorb (uneg a) (uneg b)))
    | Regular, Zero | Zero, Regular | Zero, Zero => Ok u_zero
    | Infinity, Zero | Zero, Infinity => Ok u_nan
    | _, _ => if xorb (uneg a) (uneg b) then Ok u_ninfinity else Ok u_pinfinity
    end.

(** unpacked.h 432-469, [operator/]. *)
Definition u_div (F E : Z) (a b : unpacked) : res unpacked :=
  if u_isNaN a || u_isNaN b then Ok a
  else
    match utyp a, utyp b with
    | Regular, Regular =>
      let! ah := cshr (pF F) (ufrac a) 1 in
      let! bh := cshr (pF F) (ufrac b) 1 in
      let afrac := cast (uint F) (cor (FT_leftmost_bit F) ah) in
      let bfrac1 := cast (uint F) (cor (FT_leftmost_bit F) bh) in
      let! e1 := csub (pE E) (uexp a) (uexp b) in
      let! exp := cadd (pE E) e1 (if afrac <? bfrac1 then -1 else 0) in
      let! bfrac := (if afrac <? bfrac1 then
                       let! r := cshr (pF F) bfrac1 1 in Ok (cast (uint F) r)
                     else Ok bfrac1) in
      let! num := cshl (pN F) afrac F in
      let! q := extradiv F (cast (uint (2 * F)) num) bfrac in
      Ok (u_mk F E exp q (xorb (uneg a) (uneg b)))
    | Zero, Zero | Infinity, Infinity => Ok u_nan
    | Zero, Infinity => Ok u_zero
    | Zero, Regular | Infinity, Zero => Ok a
    | Regular, Zero => Ok (u_special Infinity (uneg a))
    | _, _ => if xorb (uneg a) (uneg b) then Ok u_ninfinity else Ok u_pinfinity
    end.

(** unpacked.h 500-533, [unpack_xfixed<Trait>] (the previous contents of *this are overwritten). *)
Definition u_unpack_xfixed (F E : Z) (x : xtrait) (nx : Z) : res unpacked :=
  if negb (nx =? 0) then
    let w := x_w x in
    let! ax := pcabs w nx in
    let ux0 := cast (uint w) ax in
    let! lz := findbitleftmostC w ux0 in
    let p := x_total x - lz - 1 in
    let! ux := (if p =? 0 then Ok 0
                else let! r := cshl (prom (uint w)) ux0 (x_total x - p) in
                     Ok (cast (uint w) r)) in
    let! f := cast_right_to_left w (x_total x) F F ux in
    Ok (U Regular (nx <? 0) (cast (sint E) (p - x_frac x)) f)
  else Ok (U Zero false 0 0).

(** unpacked.h 535-597, [unpack_xfloati<Trait>]. Infinity and NaN keep the exponent and fraction
    computed before the classification, as the code does. *)
Definition u_unpack_xfloati (F E : Z) (t : ftrait) (value : Z) : res unpacked :=
  let! raw := bitset_get (t_hold t) value (t_fbits t) (t_ebits t) in
  let rawexp := cast (sint E) raw in
  let neg := negb (cand value (2 ^ (t_data t - 1)) =? 0) in
  let! e0 := csub (common (sint E) c_int) rawexp (t_bias t) in
  let exponent := cast (sint E) e0 in
  let! fraction := cast_right_to_left (t_hold t) (t_fbits t) F F value in
  if rawexp =? 2 ^ (t_ebits t) - 1 then
    Ok (U (if fraction =? 0 then Infinity else NaN) neg exponent fraction)
  else if rawexp =? 0 then
    if negb (t_denorm t) || (fraction =? 0) then
      Ok (U Zero false exponent fraction)
    else
      let! k := findbitleftmostC F fraction in
      let! e1 := csub (common (sint E) c_int) exponent k in
      let! f1 := cshl (pF F) fraction (k + 1) in
      Ok (U Regular neg (cast (sint E) e1) (cast (uint F) f1))
  else Ok (U Regular neg exponent fraction).

(** unpacked.h 599-633, [fraction_bit_extract<abits,AT,bbits,BT,(abits>bbits),msb>::pack];
    BT unsigned of [bw] bits. *)
Definition fbe_pack (abits bw bbits fraction : Z) : res Z :=
  if abits >? bbits then
    let! r := bitset_get abits fraction (abits - bbits) bbits in
    Ok (cast (uint bw) r)
  else
    let! r := cshl (prom (uint bw)) (cast (uint bw) fraction) (bbits - abits) in
    Ok (cast (uint bw) r).

(** unpacked.h 599-633, [packdenorm]. *)
Definition fbe_packdenorm (abits bw bbits fraction : Z) : res Z :=
  let! h := cshr (pF abits) fraction 1 in
  let m := cor (FT_leftmost_bit abits) h in
  if abits >? bbits then
    let! r := cshr (pF abits) m (abits - bbits) in
    Ok (cast (uint bw) r)
  else
    let! r := cshl (prom (uint bw)) (cast (uint bw) m) (bbits - abits) in
    Ok (cast (uint bw) r).

(** unpacked.h 635-684, [pack_xfixed<Trait>]. *)
Definition u_pack_xfixed (F E : Z) (x : xtrait) (u : unpacked) : res Z :=
  match utyp u with
  | Infinity | Zero | NaN => Ok 0
  | Regular =>
    let intbits := x_total x - x_frac x in
    let st := sint (x_w x) in
    if uexp u >=? intbits then
      Ok (if uneg u then min_of st else max_of st)
    else if uexp u <? - x_frac x then Ok 0
    else
      let! f := fbe_pack F (x_w x) (x_total x) (ufrac u) in
      let! one := cshl (prom st) 1 (uexp u + x_frac x) in
      let! g := cshr (prom (uint (x_w x))) f (intbits - uexp u) in
      let r := cast st (cor one (cast st g)) in
      if uneg u then let! m := cneg (prom st) r in Ok (cast st m) else Ok r
  end.

(** unpacked.h 686-761, [pack_xfloati<Trait>]. *)
Definition u_pack_xfloati (F E : Z) (t : ftrait) (u : unpacked) : res Z :=
  match utyp u with
  | Infinity => Ok (if uneg u then t_ninf t else t_pinf t)
  | Zero => Ok 0
  | NaN => Ok (t_nan t)
  | Regular =>
    let L := Z.max E (least_bits (t_ebits t)) in
    let H := t_hold t in
    let! e1 := cadd (common (sint L) c_int) (cast (sint L) (uexp u)) (t_bias t) in
    let fexp := cast (sint L) e1 in
    if fexp >? t_emax t then Ok (if uneg u then t_lowest t else t_max t)
    else if (fexp <? 1) && t_denorm t then Ok 0
    else
      let! fexpbits :=
        (if fexp <? 1 then Ok 0
         else let! r := cshl (prom (uint H)) (cast (uint H) (cand fexp (t_emask t))) (t_fbits t) in
              Ok (cast (uint H) r)) in
      let! ffracbits :=
        (if fexp <? 1 then
           let! d := fbe_packdenorm F H (t_fbits t) (ufrac u) in
           let! n := cneg (prom (sint L)) fexp in
           let! r := cshr (prom (uint H)) d n in
           Ok (cast (uint H) r)
         else fbe_pack F H (t_fbits t) (ufrac u)) in
      let value := cast (uint H) (cor (cor ffracbits fexpbits)
                                      (if uneg u then t_signbit t else 0)) in
      let! dbl := cshl (prom (uint H)) value 1 in
      Ok (if negb (value =? 0) && (dbl =? 0) then cast (uint H) (value + 1) else value)
  end.
