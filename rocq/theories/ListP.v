(** src/listposits.cpp: the two loops of the listing program, and the flags of numeric_limits<Posit>. *)
From Coq Require Import ZArith Bool List.
From Verif Require Import Res CInt Cfg Posit.
Import ListNotations.
Open Scope Z_scope.

(** src/listposits.cpp 382: [i++] on the holder. *)
Definition lp_incr (c : cfg) (i : Z) : res Z :=
  let! s := cadd (prom (tS c)) i 1 in Ok (cast (tS c) s).

(** src/listposits.cpp 343-382, default order: the posits listed, from the pattern [i] on. The loop runs at most [fuel]
    times in the model, and None means that it is still running then. The printing is left out. *)
Fixpoint lp_signed_from (c : cfg) (fuel : nat) (i : Z) : option (res (list Z)) :=
  match fuel with
  | O => None
  | S f =>
    match lp_incr c i with
    | UB w => Some (UB w)
    | Ok i' =>
      if i <? P_MAXPOS c then
        match lp_signed_from c f i' with
        | Some (Ok l) => Some (Ok (deep c i :: l))
        | r => r
        end
      else Some (Ok [deep c i])
    end
  end.
Definition lp_signed (c : cfg) (fuel : nat) : option (res (list Z)) := lp_signed_from c fuel (P_MINNEG c).

(** src/listposits.cpp 282: [nt] is the signed type twice as wide as the holder. There is none for 64 bit holders. *)
Definition tNT (c : cfg) : ity := sint (2 * cH c).
(** src/listposits.cpp 57. *)
Definition SIGNEX (t : ity) (v sb : Z) : res Z :=
  let! b := cshl c_int 1 sb in
  let! e := (if cand v b =? 0 then Ok 0 else let! m := csub c_int b 1 in Ok (cnot c_int m)) in
  Ok (cor v e).
(** src/listposits.cpp 326-339, unsigned order, with the same use of [fuel]. *)
Fixpoint lp_unsigned_from (c : cfg) (fuel : nat) (j : Z) : option (res (list Z)) :=
  match fuel with
  | O => None
  | S f =>
    match cshl c_int 1 (cN c) with
    | UB w => Some (UB w)
    | Ok top =>
      if j <? top then
        match SIGNEX (tNT c) j (cN c - 1), (let! s := cadd (prom (tNT c)) j 1 in Ok (cast (tNT c) s)) with
        | UB w, _ => Some (UB w)
        | _, UB w => Some (UB w)
        | Ok i, Ok j' =>
          match lp_unsigned_from c f j' with
          | Some (Ok l) => Some (Ok (deep c (cast (tS c) i) :: l))
          | r => r
          end
        end
      else Some (Ok [])
    end
  end.
Definition lp_unsigned (c : cfg) (fuel : nat) : option (res (list Z)) := lp_unsigned_from c fuel 0.

(** posit.h 950-951, 955-956: numeric_limits<Posit>::has_infinity, has_quiet_NaN, infinity(), quiet_NaN(). *)
Definition nl_has_infinity (c : cfg) : bool := true.
Definition nl_has_quiet_NaN (c : cfg) : bool := negb (spec_eqb (csp c) WithInf).
Definition nl_infinity (c : cfg) : Z := p_inf c.
Definition nl_quiet_NaN (c : cfg) : Z := p_nan c.
(** posit.h 958. *)
Definition nl_denorm_min (c : cfg) : Z := p_min c.
(** posit.h 945, 947. *)
Definition nl_min_exponent (c : cfg) : res Z := minexponent c.
Definition nl_max_exponent (c : cfg) : res Z := maxexponent c.
(** posit.h 936. *)
Definition nl_digits10 (c : cfg) : Z := Z.quot ((cN c - 3) * 30000) 100000.
(** posit.h 961. *)
Definition nl_is_bounded (c : cfg) : bool := false.
