(** The MATLAB functions on arrays of 8 bit posits: p8binop, p8unop, p8Tofloat and floatTop8.

    As they stand these files do not compile: they pass true where Posit expects a value of the enum class PositSpec. In the
    model this argument is [sp] and can be any of its values. An array has a class, dimensions, is real or complex, and has
    its elements in memory as the C functions see them through mxGetData, with real and imaginary parts in turn (interleaved
    complex numbers). Elements of integer classes are numbers, except that 16 bit integers, which stand for half precision
    numbers, are given by their bits, and so are singles and doubles. mxCreateUninitNumericArray leaves the elements
    indeterminate: None. size_t is taken to be unbounded before the conversion to int. *)
From Coq Require Import ZArith Bool List Ascii String.
From Verif Require Import Res CInt Traits Cfg Unpacked Posit.
Import ListNotations.
Open Scope Z_scope.
Open Scope res_scope.

Inductive xcls : Set := XInt8 | XInt16 | XUint16 | XSingle | XDouble | XChar | XOther.
Definition xcls_eqb (a b : xcls) : bool :=
  match a, b with
  | XInt8, XInt8 | XInt16, XInt16 | XUint16, XUint16 | XSingle, XSingle | XDouble, XDouble | XChar, XChar | XOther, XOther => true
  | _, _ => false
  end.
Record mx : Type := Mx { x_cls : xcls; x_dims : list Z; x_cplx : bool; x_data : list (option Z) }.

(** mxGetNumberOfElements, times two for complex arrays; matlab/p8binop.cpp 28, 33, p8unop.cpp 28, p8Tofloat.cpp 36, src/floatTop8.cpp 20. *)
Definition x_numel (dims : list Z) : Z := fold_right Z.mul 1 dims.
Definition x_count (dims : list Z) (cplx : bool) : Z := x_numel dims * (if cplx then 2 else 1).
Definition x_items (a : mx) : Z := cast c_int (x_count (x_dims a) (x_cplx a)).
(** mxCreateUninitNumericArray. *)
Definition x_uninit (dims : list Z) (cls : xcls) (cplx : bool) : mx := Mx cls dims cplx (repeat None (Z.to_nat (x_count dims cplx))).
(** prhs[k]. *)
Definition x_arg (args : list mx) (k : nat) : res mx := match nth_error args k with Some a => Ok a | None => UB OutOfBounds end.
(** Reading and writing an element. *)
Definition x_get (l : list (option Z)) (i : nat) : res Z :=
  match nth_error l i with Some (Some v) => Ok v | Some None => UB Uninit | None => UB OutOfBounds end.
Definition x_set (l : list (option Z)) (i : nat) (v : Z) : res (list (option Z)) :=
  if (i <? List.length l)%nat then Ok (firstn i l ++ Some v :: skipn (S i) l) else UB OutOfBounds.
(** for(int i = 0; i < n; i++) dst[i] = body(i), from [i] on with [n] steps left. *)
Fixpoint x_loop (body : nat -> res Z) (n i : nat) (dst : list (option Z)) : res (list (option Z)) :=
  match n with
  | O => Ok dst
  | S m => let! v := body i in let! dst := x_set dst i v in x_loop body m (S i) dst
  end.
Definition x_fill (body : nat -> res Z) (n : Z) (a : mx) : res mx :=
  let! d := x_loop body (Z.to_nat n) 0 (x_data a) in Ok (Mx (x_cls a) (x_dims a) (x_cplx a) d).

(** What the caller gets: only a message, or an array (with or without a message). *)
Inductive mexout : Type := Message | Returned (a : mx).
(** mxArrayToString: the characters, as codes, and a terminating zero. *)
Definition x_string (a : mx) : list (option Z) := x_data a ++ [Some 0].
Definition code (c : ascii) : Z := Z.of_nat (nat_of_ascii c).
Fixpoint codes (s : string) : list Z := match s with EmptyString => [] | String c r => code c :: codes r end.

Section functions.
Variable sp : spec.
(** p8binop.cpp 5, p8unop.cpp 5, p8Tofloat.cpp 6, floatTop8.cpp 5. *)
Definition zposit : cfg := Cfg 8 8 0 16 sp.

(** p8binop.cpp 55-84; None is the message of line 82. *)
Definition p8_op (op : Z) : option (Z -> Z -> res Z) :=
  if op =? code "+" then Some (p_add zposit)
  else if op =? code "-" then Some (p_sub zposit)
  else if op =? code "*" then Some (p_mul zposit)
  else if op =? code "/" then Some (p_div zposit)
  else None.
(** p8binop.cpp 8-86. *)
Definition p8binop (nlhs : Z) (args : list mx) : res mexout :=
  if negb (List.length args =? 3)%nat && negb (nlhs =? 1) then Ok Message
  else
    let! a := x_arg args 0 in
    let! b := x_arg args 1 in
    if negb (xcls_eqb (x_cls a) (x_cls b)) || negb (xcls_eqb (x_cls a) XInt8) then Ok Message
    else
      let! s := x_arg args 2 in
      if negb (xcls_eqb (x_cls s) XChar) then Ok Message
      else if negb (x_items a =? x_items b) then Ok Message
      else
        let! o1 := x_get (x_string s) 1 in
        if negb (o1 =? 0) then Ok Message
        else
          let dst := x_uninit (x_dims a) XInt8 (x_cplx b) in
          let! op := x_get (x_string s) 0 in
          match p8_op op with
          | Some f => let! r := x_fill (fun i => let! x := x_get (x_data a) i in let! y := x_get (x_data b) i in f x y) (x_items a) dst in Ok (Returned r)
          | None => Ok (Returned dst)
          end.
(** strcmp(opa,"inv") == 0, p8unop.cpp 36, for a string of characters other than zero. *)
Definition x_is_inv (s : mx) : bool :=
  match x_data s with [Some a; Some b; Some c] => (a =? code "i") && (b =? code "n") && (c =? code "v") | _ => false end.
(** p8unop.cpp 8-50. *)
Definition p8unop (nlhs : Z) (args : list mx) : res mexout :=
  if negb (List.length args =? 2)%nat && negb (nlhs =? 1) then Ok Message
  else
    let! a := x_arg args 0 in
    if negb (xcls_eqb (x_cls a) XInt8) then Ok Message
    else
      let! s := x_arg args 1 in
      if negb (xcls_eqb (x_cls s) XChar) then Ok Message
      else
        let dst := x_uninit (x_dims a) XInt8 (x_cplx a) in
        if x_is_inv s then let! r := x_fill (fun i => let! x := x_get (x_data a) i in p_inv zposit x) (x_items a) dst in Ok (Returned r)
        else Ok (Returned dst).
(** The format the elements of a class stand for, p8Tofloat.cpp 37-70, floatTop8.cpp 21-55; the halves go through Unpacked,
    which is what the conversions of [Posit] do as well. *)
Definition x_trait (cls : xcls) : option ftrait :=
  match cls with XDouble => Some double_trait | XSingle => Some single_trait | XInt16 | XUint16 => Some half_trait | _ => None end.
(** p8Tofloat.cpp 8-72. *)
Definition p8Tofloat (nlhs : Z) (args : list mx) : res mexout :=
  if negb (List.length args =? 2)%nat && negb (nlhs =? 1) then Ok Message
  else
    let! a := x_arg args 0 in
    if negb (xcls_eqb (x_cls a) XInt8) then Ok Message
    else
      let! t := x_arg args 1 in
      match x_trait (x_cls t) with
      | None => Ok Message
      | Some tr =>
        let! r := x_fill (fun i => let! x := x_get (x_data a) i in p_to_float zposit tr x) (x_items a) (x_uninit (x_dims a) (x_cls t) (x_cplx a)) in
        Ok (Returned r)
      end.
(** floatTop8.cpp 8-57. *)
Definition floatTop8 (nlhs : Z) (args : list mx) : res mexout :=
  if negb (List.length args =? 1)%nat && negb (nlhs =? 1) then Ok Message
  else
    let! a := x_arg args 0 in
    match x_trait (x_cls a) with
    | None => Ok Message
    | Some tr =>
      let! r := x_fill (fun i => let! x := x_get (x_data a) i in p_of_float zposit tr x) (x_items a) (x_uninit (x_dims a) XInt8 (x_cplx a)) in
      Ok (Returned r)
    end.
End functions.
