(** The MATLAB functions on arrays of 8 bit posits. *)
From Coq Require Import ZArith QArith List Ascii String.
From Verif Require Import Res Cfg Posit Traits Spec SpecFloat Mex SpecMex MexProof.
Import ListNotations.
Open Scope Z_scope.

(** p8binop applies the operator to every two elements. Missing: a complex array with a real one, see below. *)
Theorem C155_binop_partial sp nlhs a b s xs ys op f R :
  In (op, f, R) [("+"%string, p_add, summed); ("-"%string, p_sub, subtracted); ("*"%string, p_mul, multiplied); ("/"%string, p_div, divided)] ->
  x_cls a = XInt8 -> x_cls b = XInt8 -> says s op -> holds a xs -> holds b ys -> Forall int8 xs -> Forall int8 ys ->
  x_cplx a = x_cplx b -> List.length ys = List.length xs ->
  exists zs, p8binop sp nlhs [a; b; s] = Ok (Returned (like a XInt8 zs)) /\ Forall int8 zs /\
    each2 (fun x y z => f (Cfg 8 8 0 16 sp) x y = Ok z /\ R (Cfg 8 8 0 16 sp) x y z) xs ys zs.
Proof. exact (binop_all sp nlhs a b s xs ys op f R). Qed.
Print Assumptions C155_binop_partial.
(** Arrays that do not go together, or are of another class, are refused. *)
Theorem C155_refused sp nlhs a b s xs ys :
  holds a xs -> holds b ys -> List.length ys <> List.length xs \/ x_cls a <> XInt8 \/ x_cls b <> XInt8 \/ x_cls s <> XChar ->
  p8binop sp nlhs [a; b; s] = Ok Message.
Proof. exact (binop_refused sp nlhs a b s xs ys). Qed.
Print Assumptions C155_refused.
(** So are texts of more than one character. *)
Theorem C155_long_refused sp nlhs a b s xs ys c1 c2 t :
  holds a xs -> holds b ys -> says s (String c1 (String c2 t)) -> c2 <> Ascii.zero -> p8binop sp nlhs [a; b; s] = Ok Message.
Proof. exact (long_operator sp nlhs a b s xs ys c1 c2 t). Qed.
Print Assumptions C155_long_refused.
Theorem C155_unop sp nlhs a s xs :
  x_cls a = XInt8 -> says s "inv" -> holds a xs -> Forall int8 xs ->
  exists zs, p8unop sp nlhs [a; s] = Ok (Returned (like a XInt8 zs)) /\ Forall int8 zs /\
    each (fun x z => p_inv (Cfg 8 8 0 16 sp) x = Ok z /\ inverted (Cfg 8 8 0 16 sp) x z) xs zs.
Proof. exact (unop_all sp nlhs a s xs). Qed.
Print Assumptions C155_unop.
(** 1, 2, and -1 in a row, plus 1, 1, 1; the quotient by 0 and the inverse of 2. *)
Example C155_ex : holds ex_a [64; 96; -64] /\ holds ex_b [64; 64; 0] /\ Forall int8 [64; 96; -64] /\ Forall int8 [64; 64; 0] /\ says (ex_op "+") "+" /\ says ex_inv "inv" /\
  p8binop WithNan 1 [ex_a; ex_b; ex_op "+"] = Ok (Returned (like ex_a XInt8 [96; 104; -64])) /\
  p8binop WithNan 1 [ex_a; ex_b; ex_op "-"] = Ok (Returned (like ex_a XInt8 [0; 64; -64])) /\
  p8binop WithNan 1 [ex_a; ex_b; ex_op "*"] = Ok (Returned (like ex_a XInt8 [64; 96; 0])) /\
  p8binop WithNan 1 [ex_a; ex_b; ex_op "/"] = Ok (Returned (like ex_a XInt8 [64; 96; -128])) /\
  p8unop WithNan 1 [ex_a; ex_inv] = Ok (Returned (like ex_a XInt8 [64; 32; -64])) /\
  p8binop WithNan 1 [ex_a; Mx XInt8 [2; 1] false [Some 64; Some 64]; ex_op "+"] = Ok Message /\
  says ex_inv (String "i" (String "n" "v")) /\ p8binop WithNan 1 [ex_a; ex_b; ex_inv] = Ok Message.
Proof. unfold holds, says, int8. repeat split; try (vm_compute; reflexivity); repeat (constructor; [split; vm_compute; (reflexivity || discriminate)|]); constructor. Qed.

(** The memory of the result has the dimensions of the first array and is complex if the second is. With a complex first array and a
    real second one of as many numbers, the second half of the result is written beyond its end. *)
Theorem C155_complex_refuted sp nlhs a b s xs ys op f R :
  In (op, f, R) [("+"%string, p_add, summed); ("-"%string, p_sub, subtracted); ("*"%string, p_mul, multiplied); ("/"%string, p_div, divided)] ->
  x_cls a = XInt8 -> x_cls b = XInt8 -> says s op -> holds a xs -> holds b ys -> Forall int8 xs -> Forall int8 ys ->
  x_cplx a = true -> x_cplx b = false -> List.length ys = List.length xs -> xs <> [] ->
  p8binop sp nlhs [a; b; s] = UB OutOfBounds.
Proof. exact (binop_complex sp nlhs a b s xs ys op f R). Qed.
Print Assumptions C155_complex_refuted.
Example C155_ex_complex : p8binop WithNan 1 [Mx XInt8 [1] true [Some 64; Some 96]; Mx XInt8 [2] false [Some 64; Some 64]; ex_op "+"] = UB OutOfBounds.
Proof. vm_compute. reflexivity. Qed.
(** For another operator or function, the array returned is not written at all. *)
Theorem C155_unknown_refuted sp nlhs a b s xs ys ch :
  x_cls a = XInt8 -> x_cls b = XInt8 -> says s (String ch EmptyString) -> holds a xs -> holds b ys -> List.length ys = List.length xs ->
  ~ In ch ["+"; "-"; "*"; "/"]%char ->
  exists r, p8binop sp nlhs [a; b; s] = Ok (Returned r) /\ x_dims r = x_dims a /\ unwritten r.
Proof. exact (binop_unknown sp nlhs a b s xs ys ch). Qed.
Print Assumptions C155_unknown_refuted.
Theorem C155_unknown_unary_refuted sp nlhs a s t :
  x_cls a = XInt8 -> says s t -> t <> "inv"%string -> exists r, p8unop sp nlhs [a; s] = Ok (Returned r) /\ x_dims r = x_dims a /\ unwritten r.
Proof. exact (unop_unknown sp nlhs a s t). Qed.
Print Assumptions C155_unknown_unary_refuted.
Example C155_ex_unknown : p8binop WithNan 1 [ex_a; ex_b; ex_op "%"] = Ok (Returned (Mx XInt8 [1; 3] false [None; None; None])).
Proof. vm_compute. reflexivity. Qed.
(** Without an operator the text is read beyond its end; so are the arguments if there are too few of them and one output. *)
Theorem C155_empty_refuted sp nlhs a b s xs ys :
  x_cls a = XInt8 -> x_cls b = XInt8 -> says s EmptyString -> holds a xs -> holds b ys -> List.length ys = List.length xs ->
  p8binop sp nlhs [a; b; s] = UB OutOfBounds.
Proof. exact (empty_operator sp nlhs a b s xs ys). Qed.
Print Assumptions C155_empty_refuted.
Theorem C155_arguments_refuted sp a : x_cls a = XInt8 ->
  p8binop sp 1 [a] = UB OutOfBounds /\ p8binop sp 1 [a; a] = UB OutOfBounds /\ p8unop sp 1 [a] = UB OutOfBounds /\
  p8binop sp 0 [a; a] = Ok Message /\ p8unop sp 0 [a] = Ok Message.
Proof. exact (arguments sp a). Qed.
Print Assumptions C155_arguments_refuted.
Example C155_ex_empty : says (Mx XChar [0; 0] false []) EmptyString /\ x_cls ex_a = XInt8.
Proof. repeat split. Qed.

(** p8Tofloat converts every element exactly to the class of its second argument. *)
Theorem C156_to_float sp nlhs a t xs eb fb :
  x_cls a = XInt8 -> format (x_cls t) = Some (eb, fb) -> holds a xs -> Forall int8 xs ->
  exists zs, p8Tofloat sp nlhs [a; t] = Ok (Returned (like a (x_cls t) zs)) /\ each (same_as (Cfg 8 8 0 16 sp) eb fb) xs zs.
Proof. exact (to_float_all sp nlhs a t xs eb fb). Qed.
Print Assumptions C156_to_float.
(** floatTop8 converts every element to a posit, cutting toward zero. Missing: numbers far below the normal ones become 0, and NaNs
    that are not quiet may become infinities. *)
Theorem C156_from_float_partial sp nlhs a bs eb fb :
  format (x_cls a) = Some (eb, fb) -> holds a bs -> Forall (fun b => 0 <= b < 2 ^ (eb + fb + 1)) bs ->
  exists zs, floatTop8 sp nlhs [a] = Ok (Returned (like a XInt8 zs)) /\ each (cut_from (Cfg 8 8 0 16 sp) eb fb) bs zs.
Proof. exact (from_float_all sp nlhs a bs eb fb). Qed.
Print Assumptions C156_from_float_partial.
(** There and back gives the array again. *)
Theorem C156_round_trip sp n m a t xs eb fb :
  x_cls a = XInt8 -> format (x_cls t) = Some (eb, fb) -> holds a xs -> Forall int8 xs ->
  exists f, p8Tofloat sp n [a; t] = Ok (Returned f) /\ floatTop8 sp m [f] = Ok (Returned a).
Proof. exact (round_trip_all sp n m a t xs eb fb). Qed.
Print Assumptions C156_round_trip.
(** Other classes are refused. *)
Theorem C156_refused sp nlhs a t :
  format (x_cls t) = None -> x_cls a = XInt8 -> p8Tofloat sp nlhs [a; t] = Ok Message /\ floatTop8 sp nlhs [t] = Ok Message.
Proof. exact (class_refused sp nlhs a t). Qed.
Print Assumptions C156_refused.
(** 1, 2, -1 as singles; 1.75, infinity and a quiet NaN as halves. *)
Example C156_ex : format XSingle = Some (8, 23) /\ holds ex_a [64; 96; -64] /\ Forall int8 [64; 96; -64] /\
  p8Tofloat WithNanInf 1 [ex_a; Mx XSingle [1] false [Some 0]] = Ok (Returned (like ex_a XSingle [0x3f800000; 0x40000000; 0xbf800000])) /\
  floatTop8 WithNanInf 1 [Mx XUint16 [3] false [Some 0x3f00; Some 0x7c00; Some 0x7e00]] = Ok (Returned (Mx XInt8 [3] false [Some 88; Some 127; Some (-128)])) /\
  floatTop8 WithNanInf 1 [ex_a] = Ok Message.
Proof. unfold holds, int8. repeat split; try (vm_compute; reflexivity); repeat (constructor; [split; vm_compute; (reflexivity || discriminate)|]); constructor. Qed.
(** A NaN that is not quiet becomes an infinity, the least single becomes 0, and one argument with one output is read beyond the end. *)
Theorem C156_from_float_refuted : 
  ieee_val 8 23 0x7f800001 = NaNVal /\ floatTop8 WithNanInf 1 [Mx XSingle [1] false [Some 0x7f800001]] = Ok (Returned (Mx XInt8 [1] false [Some 127])) /\
  inf_of (Cfg 8 8 0 16 WithNanInf) false = 127 /\
  (exists q, ieee_val 8 23 1 = FinVal q /\ (0 < q)%Q) /\ floatTop8 WithNan 1 [Mx XSingle [1] false [Some 1]] = Ok (Returned (Mx XInt8 [1] false [Some 0])) /\
  (forall a, x_cls a = XInt8 -> p8Tofloat WithNan 1 [a] = UB OutOfBounds).
Proof. exact from_refuted. Qed.
Print Assumptions C156_from_float_refuted.
