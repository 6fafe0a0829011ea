(** Model of include/posit.h: [PositTrait], [Posit<T,totalbits,esbits,FT,positspec>].

    A posit object is its member [v] (posit.h 236), an integer of the holder type T. *)
From Coq Require Import ZArith Bool List.
From Verif Require Import Res CInt Bits Traits Unpacked Cfg.
Import ListNotations.
Open Scope Z_scope.

(** posit.h 54, width of [exponenttype]. *)
Definition c_E (c : cfg) : Z := if cN c + ces c >=? cH c then 2 * cH c else cH c.

Definition tS (c : cfg) : ity := sint (cH c).   (* POSIT_STYPE = T, posit.h 50 *)
Definition tU (c : cfg) : ity := uint (cH c).   (* POSIT_UTYPE, posit.h 51 *)
Definition tE (c : cfg) : ity := sint (c_E c).  (* exponenttype *)

(** posit.h 57-72. Constants of type POSIT_UTYPE / POSIT_STYPE; their defining shifts are in range
    for every valid configuration. *)
Definition MAXREGIME_BITS (c : cfg) : Z := cN c - 1.
Definition HOLDER_SIZE (c : cfg) : Z := cH c.
Definition HOLDER_MSB (c : cfg) : Z := 2 ^ (cH c - 1).
Definition P_MSB (c : cfg) : Z := 2 ^ (cN c - 1).
Definition P_MASK (c : cfg) : Z := cor (P_MSB c - 1) (P_MSB c).
Definition ESP_MASK (c : cfg) : Z := 2 ^ (ces c) - 1.
Definition EXTRA_BITS (c : cfg) : Z := cH c - cN c.
Definition SIGNBIT (c : cfg) : Z := 2 ^ (cN c - 1).
Definition INVERTBIT (c : cfg) : Z := 2 ^ (cN c - 2).
Definition REG_SCALE (c : cfg) : Z := 2 ^ (ces c).

(** posit.h 76-78: _POSIT_TOP, _POSIT_TOPRIGHT, _POSIT_TOPLEFT. *)
Definition TOP (c : cfg) : Z := cast (tS c) (cast (tU c) (-1) * 2 ^ (cN c - 1)).
Definition TOPRIGHT (c : cfg) : Z := cast (tS c) (2 ^ (cN c - 1) - 1).
Definition TOPLEFT (c : cfg) : Z := cast (tS c) (cast (tS c) (cast (tU c) (-1) * 2 ^ (cN c - 1)) + 1).

Definition is_naninf (c : cfg) : bool := spec_eqb (csp c) WithNanInf.
Definition withnan (c : cfg) : bool := negb (spec_eqb (csp c) WithInf).   (* posit.h 53, 230 *)

(** posit.h 82-105. *)
Definition P_PINF (c : cfg) : Z := if is_naninf c then TOPRIGHT c else TOP c.
Definition P_NINF (c : cfg) : Z := if is_naninf c then TOPLEFT c else TOP c.
Definition P_NAN (c : cfg) : Z := TOP c.
Definition P_ONE (c : cfg) : Z := cast (tS c) (INVERTBIT c).
Definition P_MONE (c : cfg) : Z := cast (tS c) (- P_ONE c).
Definition P_TWO (c : cfg) : Z :=
  cast (tS c) (cor (INVERTBIT c) (INVERTBIT c / 2 ^ (1 + ces c))).
Definition P_HALF (c : cfg) : Z :=
  cast (tS c) (cast (tS c) (cast (tU c) (-1) / 2 ^ (cN c - ces c - 1)) * 2 ^ (cN c - 3 - ces c)).
Definition P_MAXPOS (c : cfg) : Z := cast (tS c) (TOPRIGHT c - (if is_naninf c then 1 else 0)).
Definition P_MINNEG (c : cfg) : Z := cast (tS c) (TOPLEFT c + (if is_naninf c then 1 else 0)).
Definition P_AFTER0 (c : cfg) : Z := 1.

(** posit.h 110-111. POSIT_REG_SCALE (type T) times an [int]: the product is computed in the
    common type and can overflow for 32 bit holders with a very large esbits. *)
Definition maxexponent (c : cfg) : res Z :=
  let! m := cmul (common (tS c) c_int) (REG_SCALE c)
                 (if is_naninf c then cN c - 3 else cN c - 2) in
  Ok (cast (tE c) m).
Definition minexponent (c : cfg) : res Z :=
  let! n := cneg (prom (tE c)) (cast (tE c) (REG_SCALE c)) in
  let! m := cmul (common (tE c) c_int) n (cN c - 2) in
  Ok (cast (tE c) m).

(** posit.h 119-156, argument of type T; returns (reg, rs). *)
Definition decode_posit_rs (c : cfg) (pars : Z) : res (Z * Z) :=
  let x := negb (cand pars (HOLDER_MSB c) =? 0) in
  let np := cnot (prom (tS c)) pars in
  let! index :=
    (if x then
       if np =? 0 then Ok (MAXREGIME_BITS c)
       else findbitleftmostC (cH c) (cast (tU c) np)
     else
       if pars =? 0 then Ok (MAXREGIME_BITS c)
       else findbitleftmostC (cH c) (cast (tU c) pars)) in
  let reg := if x then index - 1 else - index in
  let rs := if MAXREGIME_BITS c <? index + 1 then MAXREGIME_BITS c else index + 1 in
  Ok (reg, rs).

(** posit.h 158-164. *)
Definition split_reg_exp (c : cfg) (e : Z) : res (Z * Z) :=
  let! r := cshr (prom (tE c)) e (ces c) in
  Ok (cast (tS c) r, cast (tU c) (cand e (ESP_MASK c))).

(** posit.h 166-170. [1<<POSIT_ESP_SIZE] is an [int]. *)
Definition join_reg_exp (c : cfg) (reg exp : Z) : res Z :=
  let! s := cshl c_int 1 (ces c) in
  let! m := cmul (common (tE c) c_int) (cast (tE c) reg) s in
  Ok (cast (tE c) (cor m exp)).

(** posit.h 192-207. *)
Record ulow : Set := UL { ltyp : utype; lneg : bool; lreg : Z; lexp : Z; lfrac : Z }.
Definition ul_special (t : utype) (neg : bool) : ulow := UL t neg 0 0 0.
(** posit.h 199-200; arguments converted to the member types. *)
Definition ul_mk (c : cfg) (neg : bool) (r e f : Z) : ulow :=
  UL Regular neg (cast (tS c) r) (cast (tU c) e) (cast (tU c) f).

(** posit.h 347-352. *)
Definition isNaN (c : cfg) (v : Z) : bool := withnan c && (v =? P_NAN c).
Definition isinfinity (c : cfg) (v : Z) : bool :=
  negb (spec_eqb (csp c) WithNan) && ((v =? P_PINF c) || (v =? P_NINF c)).
Definition iszero (v : Z) : bool := v =? 0.
Definition isone (c : cfg) (v : Z) : bool := v =? P_ONE c.
Definition isnegative (v : Z) : bool := v <? 0.

(** posit.h 319: Posit(DeepInit, T x), the argument is converted to T. *)
Definition deep (c : cfg) (x : Z) : Z := cast (tS c) x.

(** posit.h 651-692. *)
Definition unpack_low (c : cfg) (v : Z) : res ulow :=
  if isinfinity c v then Ok (ul_special Infinity (v <? 0))
  else if isNaN c v then Ok (ul_special NaN false)
  else if v =? 0 then Ok (ul_special Zero false)
  else
    let neg := negb (cand v (SIGNBIT c) =? 0) in
    let! pa := (if neg then let! r := cneg (prom (tS c)) v in Ok (cast (tS c) r) else Ok v) in
    let! p1 := cshl (prom (tS c)) pa (EXTRA_BITS c + 1) in
    let pars1 := cast (tU c) p1 in
    let! q := decode_posit_rs c (cast (tS c) pars1) in
    let reg := fst q in
    let rs := snd q in
    let! p2 := cshl (prom (tU c)) pars1 rs in
    let pars2 := cast (tU c) p2 in
    let! exp := bitset_leftmost_get_const (cH c) (ces c) pars2 in
    let! p3 := cshl (prom (tU c)) pars2 (ces c) in
    let pars := cast (tU c) p3 in
    Ok (ul_mk c neg reg exp pars).

(** posit.h 626-649 [msb_exp]. *)
Definition msb_exp (c : cfg) (exp : Z) : res Z :=
  if ces c =? 0 then Ok 0
  else let! r := cshl (prom (tU c)) exp (HOLDER_SIZE c - ces c) in Ok (cast (tU c) r).

(** posit.h 694-733. The count [POSIT_HOLDER_SIZE-(reg+1)] is computed in unsigned arithmetic for
    32 bit holders; an out of range count is undefined either way. *)
Definition pack_low (c : cfg) (x : ulow) : res Z :=
  match ltyp x with
  | Infinity =>
    Ok (if negb (spec_eqb (csp c) WithNan)
        then (if lneg x then P_NINF c else P_PINF c) else P_NAN c)
  | Zero => Ok 0
  | NaN => Ok (if negb (spec_eqb (csp c) WithInf) then P_NAN c else P_PINF c)
  | Regular =>
    let exp := lexp x in
    let reg := lreg x in
    let t := prom (tS c) in
    let! nr := cneg t reg in
    let! a := cadd t nr 1 in
    let! b := cadd t reg 2 in
    let rs := if a >? b then a else b in
    let! s1 := csub t (cN c) rs in
    let! s2 := csub t s1 1 in
    let es := if s2 <? ces c then s2 else ces c in
    let! regbits :=
      (if reg <? 0 then
         let! r := cshr (prom (tU c)) (HOLDER_MSB c) nr in Ok (cast (tU c) r)
       else
         let! r := cshl (prom (tU c)) (P_MASK c) (HOLDER_SIZE c - (reg + 1)) in
         Ok (cast (tU c) r)) in
    let! eexp := msb_exp c exp in
    let! fr := cshr (prom (tU c)) (lfrac x) (rs + es + 1) in
    let! er := cshr (prom (tU c)) eexp (rs + 1) in
    let! rr := cshr (prom (tU c)) regbits 1 in
    let! p0 := cshr (prom (tU c)) (cor (cor fr er) rr) (cH c - cN c) in
    let p := cast (tS c) p0 in
    if lneg x then let! m := cneg t p in Ok (deep c m) else Ok p
  end.

(** posit.h 792-806. *)
Definition unpacked_low2full (c : cfg) (q : ulow) : res unpacked :=
  match ltyp q with
  | Regular =>
    let! f := cast_msb (cH c) (cF c) (lfrac q) in
    let! e := join_reg_exp c (lreg q) (lexp q) in
    Ok (U Regular (lneg q) e f)
  | t => Ok (U t (lneg q) 0 0)
  end.

(** posit.h 808-822. *)
Definition unpacked_full2low (c : cfg) (x : unpacked) : res ulow :=
  match utyp x with
  | Regular =>
    let! lo := minexponent c in
    let! hi := maxexponent c in
    let eexponent := clamp (uexp x) lo hi in
    let! rr := split_reg_exp c eexponent in
    let! frac := cast_msb (cF c) (cH c) (ufrac x) in
    Ok (ul_mk c (uneg x) (fst rr) (snd rr) frac)
  | t => Ok (ul_special t (uneg x))
  end.

(** posit.h 825-830 (also the constructor of lines 324-325). *)
Definition pack_posit (c : cfg) (x : unpacked) : res Z :=
  let! l := unpacked_full2low c x in pack_low c l.

(** posit.h 887-892 and 333. *)
Definition unpack (c : cfg) (v : Z) : res unpacked :=
  let! l := unpack_low c v in unpacked_low2full c l.

(** posit.h 302-308. *)
Definition nan_any (c : cfg) (a b : Z) : bool := withnan c && (isNaN c a || isNaN c b).
Definition p_eq (c : cfg) (a b : Z) : bool := if nan_any c a b then false else a =? b.
Definition p_ne (c : cfg) (a b : Z) : bool := negb (p_eq c a b).
Definition p_lt (c : cfg) (a b : Z) : bool := if nan_any c a b then false else a <? b.
Definition p_le (c : cfg) (a b : Z) : bool := if nan_any c a b then false else a <=? b.
Definition p_gt (c : cfg) (a b : Z) : bool := if nan_any c a b then false else a >? b.
Definition p_ge (c : cfg) (a b : Z) : bool := if nan_any c a b then false else a >=? b.

(** posit.h 338 and 901-906 (std::abs). *)
Definition p_abs (c : cfg) (v : Z) : res Z := let! r := pcabs (cH c) v in Ok (deep c r).
(** posit.h 341, 420, 621. *)
Definition p_neg (c : cfg) (v : Z) : res Z :=
  let! r := cneg (prom (tS c)) v in Ok (deep c r).

(** posit.h 353-354. *)
Definition p_prev (c : cfg) (v : Z) : res Z :=
  if (v >? P_MAXPOS c) || (v <=? P_MINNEG c) then Ok v
  else let! r := csub (prom (tS c)) v 1 in Ok (deep c r).
Definition p_next (c : cfg) (v : Z) : res Z :=
  if (v <=? P_MINNEG c) || (v >? P_MAXPOS c) then Ok v
  else let! r := cadd (prom (tS c)) v 1 in Ok (deep c r).

(** posit.h 380-383 and 391-395 (operator*=). *)
Definition p_mul (c : cfg) (a b : Z) : res Z :=
  let! ua := unpack c a in
  let! ub := unpack c b in
  let! r := u_mul (cF c) (c_E c) ua ub in
  pack_posit c r.

(** posit.h 386-389. *)
Definition p_fma (c : cfg) (a b d : Z) : res Z :=
  let! ua := unpack c a in
  let! ub := unpack c b in
  let! m := u_mul (cF c) (c_E c) ua ub in
  let! ud := unpack c d in
  let! r := u_add (cF c) (c_E c) m ud in
  pack_posit c r.

(** posit.h 396-401 (operator+ and +=). *)
Definition p_add (c : cfg) (a b : Z) : res Z :=
  if iszero a then Ok b
  else if iszero b then Ok a
  else
    let! ua := unpack c a in
    let! ub := unpack c b in
    let! r := u_add (cF c) (c_E c) ua ub in
    pack_posit c r.

(** posit.h 422. *)
Definition p_sub (c : cfg) (a b : Z) : res Z :=
  let! nb := p_neg c b in p_add c a nb.

(** posit.h 423-424. *)
Definition p_div (c : cfg) (a b : Z) : res Z :=
  let! ua := unpack c a in
  let! ub := unpack c b in
  let! r := u_div (cF c) (c_E c) ua ub in
  pack_posit c r.

(** posit.h 403-417. *)
Definition p_zero (c : cfg) : Z := 0.
Definition p_inf (c : cfg) : Z := deep c (P_PINF c).
Definition p_pinf (c : cfg) : Z := deep c (P_PINF c).
Definition p_ninf (c : cfg) : Z := deep c (P_NINF c).
Definition p_max (c : cfg) : Z := deep c (P_MAXPOS c).
Definition p_min (c : cfg) : Z := deep c (P_AFTER0 c).
Definition p_lowest (c : cfg) : Z := deep c (P_MINNEG c).
Definition p_nan (c : cfg) : Z := deep c (P_NAN c).
Definition p_one (c : cfg) : Z := deep c (P_ONE c).
Definition p_two (c : cfg) : Z := deep c (P_TWO c).
Definition p_mone (c : cfg) : Z := deep c (P_MONE c).
Definition p_onehalf (c : cfg) : Z := deep c (P_HALF c).

(** posit.h 597-618 (also operator~ 421 and inv 624). *)
Definition p_inv (c : cfg) (v : Z) : res Z :=
  let! u := unpack_low c v in
  if lfrac u =? 0 then
    let t := prom (tS c) in
    if lexp u =? 0 then
      let! r := cneg t (lreg u) in
      pack_low c (UL (ltyp u) (lneg u) (cast (tS c) r) (lexp u) (lfrac u))
    else
      let! r1 := cadd t (lreg u) 1 in
      let! r := cneg t r1 in
      let! e := csub (common (tS c) (tU c)) (REG_SCALE c) (lexp u) in
      pack_low c (UL (ltyp u) (lneg u) (cast (tS c) r) (cast (tU c) e) (lfrac u))
  else
    let! f := unpacked_low2full c u in
    let! i := u_inv (cF c) (c_E c) f in
    pack_posit c i.

(** posit.h 735-762. *)
Definition p_half (c : cfg) (v : Z) : res Z :=
  let! q := unpack_low c v in
  match ltyp q with
  | Regular =>
    if lexp q =? 0 then
      let! r := csub (prom (tS c)) (lreg q) 1 in
      pack_low c (UL Regular (lneg q) (cast (tS c) r) (cast (tU c) (REG_SCALE c - 1)) (lfrac q))
    else
      pack_low c (UL Regular (lneg q) (lreg q) (cast (tU c) (lexp q - 1)) (lfrac q))
  | _ => Ok v
  end.

(** posit.h 764-791. *)
Definition p_twice (c : cfg) (v : Z) : res Z :=
  let! q := unpack_low c v in
  match ltyp q with
  | Regular =>
    if lexp q =? REG_SCALE c - 1 then
      let! r := cadd (prom (tS c)) (lreg q) 1 in
      pack_low c (UL Regular (lneg q) (cast (tS c) r) 0 (lfrac q))
    else
      pack_low c (UL Regular (lneg q) (lreg q) (cast (tU c) (lexp q + 1)) (lfrac q))
  | _ => Ok v
  end.

(** posit.h 426-438: [dot] over the n first elements of two sequences; [pairs] are the element
    pairs read in order. Each element is a Posit (the conversion Posit( *begin) is the identity). *)
Fixpoint dot_acc (c : cfg) (v0 : unpacked) (pairs : list (Z * Z)) : res unpacked :=
  match pairs with
  | [] => Ok v0
  | (x, y) :: rest =>
    let! ux := unpack c x in
    let! uy := unpack c y in
    let! m := u_mul (cF c) (c_E c) ux uy in
    let! s := u_add (cF c) (c_E c) v0 m in
    dot_acc c s rest
  end.

Definition p_dot (c : cfg) (pairs : list (Z * Z)) : res Z :=
  match pairs with
  | [] => Ok 0
  | (x, y) :: rest =>
    let! ux := unpack c x in
    let! uy := unpack c y in
    let! m := u_mul (cF c) (c_E c) ux uy in
    let! s := dot_acc c m rest in
    pack_posit c s
  end.

(** posit.h 328-331: construction from float, double (by bit pattern) and int. *)
Definition p_of_float (c : cfg) (t : ftrait) (bits : Z) : res Z :=
  let! u := u_unpack_xfloati (cF c) (c_E c) t bits in pack_posit c u.
Definition p_of_int (c : cfg) (i : Z) : res Z :=
  let! u := u_unpack_xfixed (cF c) (c_E c) int_trait i in pack_posit c u.

(** posit.h 469-475: conversion to float, double (as bit pattern) and int. *)
Definition p_to_float (c : cfg) (t : ftrait) (v : Z) : res Z :=
  let! u := unpack c v in u_pack_xfloati (cF c) (c_E c) t u.
Definition p_to_int (c : cfg) (v : Z) : res Z :=
  let! u := unpack c v in u_pack_xfixed (cF c) (c_E c) int_trait u.

(** posit.h 479, 482. [v ^ SIGNBIT] mixes T with its unsigned type. *)
Definition p_pseudosigmoid (c : cfg) (v : Z) : res Z :=
  let t := common (tS c) (tU c) in
  let! r := cshr t (cxor (cast t v) (SIGNBIT c)) 2 in Ok (deep c r).
Definition p_pseudosoftplus (c : cfg) (v : Z) : res Z :=
  let t := common (tS c) (tU c) in
  let! r := cshr t (cxor (cast t v) (SIGNBIT c)) 1 in Ok (deep c r).

(** posit.h 485. *)
Definition p_isUnitRange (c : cfg) (v : Z) : bool := (v >=? 0) && (v <=? P_ONE c).

(** posit.h 488. *)
Definition p_urOneMinus (c : cfg) (v : Z) : res Z :=
  let t := common (tU c) (tS c) in
  let! r := csub t (INVERTBIT c) (cast t v) in Ok (deep c r).

(** posit.h 491. *)
Definition p_urDeltaPs (c : cfg) (v : Z) : res Z :=
  let! w := p_urOneMinus c v in p_mul c v w.

(** posit.h 908-913 (std::sqrt), 915-925 (std::min, std::max). *)
Definition p_sqrt (c : cfg) (v : Z) : res Z := let! r := pcabs (cH c) v in Ok (deep c r).
Definition p_stdmin (c : cfg) (a b : Z) : Z := if p_le c a b then a else b.
Definition p_stdmax (c : cfg) (a b : Z) : Z := if p_ge c a b then a else b.

(** posit.h 941: numeric_limits::epsilon. *)
Definition p_epsilon (c : cfg) : res Z :=
  let! n := p_next c (p_one c) in p_sub c n (p_one c).

(** posit.h 282-297, 833-883: analyze (the fields it sets). *)
Record pinfo : Set := PInfo {
  i_infinity : bool; i_nan : bool; i_k : Z; i_sign : bool; i_rs : Z; i_es : Z; i_fs : Z;
  i_exp : Z; i_exponent : Z; i_ifraction : Z }.

Definition p_analyze (c : cfg) (v : Z) : res pinfo :=
  if isinfinity c v then
    Ok (PInfo true false 0
          (if is_naninf c then negb (cand v (SIGNBIT c) =? 0) else false) 0 0 0 0 0 0)
  else if isNaN c v then Ok (PInfo false true 0 false 0 0 0 0 0 0)
  else if v =? 0 then Ok (PInfo false false 0 false 0 0 0 0 0 0)
  else
    let sign := negb (cand v (SIGNBIT c) =? 0) in
    let! pa := pcabs (cH c) v in
    let! p1 := cshl (prom (tS c)) pa (EXTRA_BITS c + 1) in
    let pars := cast (tU c) p1 in
    let! q := decode_posit_rs c (cast (tS c) pars) in
    let reg := fst q in
    let rs := snd q in
    let! p2 := cshl (prom (tU c)) pars rs in
    let pars := cast (tU c) p2 in
    let! exp := bitset_get (cH c) pars (cH c - ces c) (ces c) in
    let! p3 := cshl (prom (tU c)) pars (ces c) in
    let pars := cast (tU c) p3 in
    let! fr := (if cF c >=? cH c then cshl (prom (tU c)) pars (cF c - cH c)
                else cshr (prom (tU c)) pars (cH c - cF c)) in
    let! ex := join_reg_exp c (cast (tS c) reg) exp in
    let es := if cN c - rs - 1 <? ces c then cN c - rs - 1 else ces c in
    Ok (PInfo false false reg sign rs es (cN c - rs - es - 1) exp
          (cast c_int ex) (cast (uint (cF c)) fr)).

(** posit.h 238-271, 363-378: the deferred product enabled by POSITMUL. A PositMul is the pair of
    its factors. *)
Definition pm_asPosit (c : cfg) (m : Z * Z) : res Z := p_mul c (fst m) (snd m).
Definition pm_add (c : cfg) (m n : Z * Z) : res Z :=
  let! a := unpack c (fst m) in
  let! b := unpack c (snd m) in
  let! x := u_mul (cF c) (c_E c) a b in
  let! a' := unpack c (fst n) in
  let! b' := unpack c (snd n) in
  let! y := u_mul (cF c) (c_E c) a' b' in
  let! r := u_add (cF c) (c_E c) x y in
  pack_posit c r.
Definition pm_sub (c : cfg) (m n : Z * Z) : res Z :=
  let! a := unpack c (fst m) in
  let! b := unpack c (snd m) in
  let! x := u_mul (cF c) (c_E c) a b in
  let! a' := unpack c (fst n) in
  let! b' := unpack c (snd n) in
  let! y := u_mul (cF c) (c_E c) a' b' in
  let! r := u_sub (cF c) (c_E c) x y in
  pack_posit c r.
Definition pm_add_posit (c : cfg) (m : Z * Z) (b : Z) : res Z := p_fma c (fst m) (snd m) b.
