(** The binary output of the listing program, src/listposits.cpp, and the MATLAB functions that read it: loadpositdump.m,
    dump2table.m, meandiff.m, describetab.m, limittab.m, toindex.m, fromindex.m.

    A double is its bit pattern. [rnd] is the rounding of exact results to double and [pw n] the double pow(2,n). *)
From Coq Require Import ZArith QArith Bool List String Ascii.
From Verif Require Import Res CInt Cfg Traits Unpacked Posit Spec FloatOps Asimd Soft ListP.
Import ListNotations.
Open Scope Z_scope.
Open Scope res_scope.

(** listposits.cpp 114, typehelpers.hpp 195-219: printableinttype of the holder. *)
Definition tPT (c : cfg) : ity := if cH c =? 8 then sint 16 else tS c.

Section rnd.
Variable rnd : Q -> Z.
Variable pw : Z -> Z.

(** listposits.cpp 145-160: the double written for one letter of the format, none for the other characters. The bits of
    [i] read through a pointer to the unsigned type are its value modulo 2^bits (line 116). *)
Definition d_field (c : cfg) (v : Z) (up : unpacked) (l : ulow) (ch : ascii) : res (option Z) :=
  let int n := Ok (Some (rnd (inject_Z n))) in
  match ch with
  | "i" => int (cast (tPT c) v)
  | "o" => int (cast (tPT c) (cast (tU c) v))
  | "p" | "b" => int 0
  | "k" => int (cast (tPT c) (lreg l))
  | "r" => let! m := cmul (common (tS c) (tPT c)) (REG_SCALE c) (cast (tPT c) (lreg l)) in Ok (Some (pw m))
  | "e" => int (cast (tPT c) (uexp up))
  | "u" => let! b := u_pack_xfloati (cF c) (c_E c) double_trait up in Ok (Some b)
  | "v" => let! b := p_to_float c double_trait v in Ok (Some b)
  | _ => Ok None
  end%char.
(** listposits.cpp 142-163. *)
Fixpoint d_fields (c : cfg) (v : Z) (up : unpacked) (l : ulow) (format : string) : res (list Z) :=
  match format with
  | EmptyString => Ok []
  | String ch rest =>
    let! q := d_field c v up l ch in
    let! r := d_fields c v up l rest in
    Ok (match q with Some d => d :: r | None => r end)
  end.
(** listposits.cpp 108-165, with binaryoutput. *)
Definition d_print1 (c : cfg) (format : string) (v : Z) : res (list Z) :=
  let! up := unpack c v in
  let! l := unpack_low c v in
  d_fields c v up l format.

(** listposits.cpp 214-228: whether the format holds the letter. *)
Fixpoint d_has (ch : ascii) (format : string) : bool :=
  match format with EmptyString => false | String a r => Ascii.eqb a ch || d_has ch r end.
(** listposits.cpp 330-337 and 348-354: what is written for one posit. *)
Definition d_posit (c : cfg) (format : string) (v : Z) : res (list Z) :=
  let! a := d_print1 c format v in
  let! b := (if d_has "I" format then let! x := p_inv c v in d_print1 c format x else Ok []) in
  let! d := (if d_has "2" format then let! t := p_of_int c 2 in let! x := p_mul c v t in d_print1 c format x else Ok []) in
  let! e := (if d_has "A" format then let! t := p_of_int c 2 in let! x := p_div c v t in d_print1 c format x else Ok []) in
  Ok (a ++ b ++ d ++ e)%list.
Fixpoint d_posits (c : cfg) (format : string) (l : list Z) : res (list Z) :=
  match l with
  | [] => Ok []
  | v :: r => let! a := d_posit c format v in let! b := d_posits c format r in Ok (a ++ b)%list
  end.
(** listposits.cpp 319-384: the doubles in the file, for a format with the letter B and without h, which only prints help
    (line 187). [fuel] as in [ListP]. The loop writes while it runs; undefined behaviour of the loop itself, after which
    nothing is promised, is put first here. *)
Definition d_file (c : cfg) (format : string) (fuel : nat) : option (res (list Z)) :=
  match (if d_has "U" format then lp_unsigned c fuel else lp_signed c fuel) with
  | None => None
  | Some (UB w) => Some (UB w)
  | Some (Ok l) => Some (d_posits c format l)
  end.

(** Double arithmetic of MATLAB. *)
Definition m_sub (a b : Z) : Z := f_add 11 52 rnd a (Z.lxor b (2 ^ 63)).
Definition m_half (a : Z) : Z := f_div 11 52 rnd a 0x4000000000000000.
Definition m_sq (a : Z) : Z := f_mul 11 52 rnd a a.
Definition m_nan : Z := f_nan 11 52.
Definition m_finite (d : Z) : bool := match ieee_val 11 52 d with FinVal _ => true | _ => false end.
(** max and min of a vector without NaN; None stands for the empty result, which no table column takes. *)
Definition m_max (l : list Z) : option Z :=
  match l with [] => None | x :: r => Some (fold_left (fun a b => if f_lt 11 52 a b then b else a) r x) end.
Definition m_min (l : list Z) : option Z :=
  match l with [] => None | x :: r => Some (fold_left (fun a b => if f_lt 11 52 b a then b else a) r x) end.
Definition m_abs (d : Z) : Z := d mod 2 ^ 63.

(** meandiff.m, also dump2table.m 15-21. *)
Fixpoint m_diffs (x : list Z) : list Z :=
  match x with
  | a :: ((_ :: b :: _) as r) => m_half (m_sub b a) :: m_diffs r
  | _ => []
  end.
Definition meandiff (x : list Z) : list Z :=
  match x with
  | [] => []
  | [_] => [m_nan]
  | _ => m_nan :: m_diffs x ++ [m_nan]
  end.

(** The row of the table that dump2table.m makes; each column holds a vector. *)
Record table : Set := Tab { t_signed : list Z; t_unsigned : list Z; t_float : list Z; t_res : list Z }.
(** The columns describetab.m adds. *)
Record summary : Set := Sum { s_max : Z; s_min : Z; s_smallest : Z; s_minres : Z; s_maxres : Z }.
(** describetab.m 3-13, for one row. *)
Definition describetab (t : table) : option summary :=
  let W := filter m_finite (t_float t) in
  let Q := filter m_finite (t_res t) in
  match m_max W, m_min W, m_min (map m_abs (filter (fun d => negb (f_eq 11 52 d 0)) W)), m_min Q, m_max Q with
  | Some a, Some b, Some s, Some p, Some q => Some (Sum a b s p q)
  | _, _, _, _, _ => None
  end.
(** loadpositdump.m 10: reshape(r,3,[])', an error unless the number of doubles is a multiple of 3. *)
Fixpoint rows3 (l : list Z) : option (list (Z * Z * Z)) :=
  match l with
  | [] => Some []
  | a :: b :: d :: r => match rows3 r with Some x => Some ((a, b, d) :: x) | None => None end
  | _ => None
  end.
(** loadpositdump.m 8-11 and dump2table.m. *)
Definition loadpositdump (file : list Z) : option (table * summary) :=
  match rows3 file with
  | None => None
  | Some r =>
    let t := Tab (map (fun x => fst (fst x)) r) (map (fun x => snd (fst x)) r) (map snd r) (meandiff (map snd r)) in
    match describetab t with Some s => Some (t, s) | None => None end
  end.

(** limittab.m 9-21, for a table of one row; indexing by a vector of truth values. *)
Fixpoint m_where (ba : list bool) (l : list Z) : list Z :=
  match ba, l with
  | b :: ba, x :: l => if b then x :: m_where ba l else m_where ba l
  | _, _ => []
  end.
Definition limittab (t : table) (mi ma : Z) (exclusive : bool) : option (table * summary) :=
  let ba := map (fun v => if exclusive then f_lt 11 52 mi v && f_lt 11 52 v ma else f_le 11 52 mi v && f_le 11 52 v ma) (t_float t) in
  let t := Tab (m_where ba (t_signed t)) (m_where ba (t_unsigned t)) (m_where ba (t_float t)) (m_where ba (t_res t)) in
  match describetab t with Some s => Some (t, s) | None => None end.

(** toindex.m 8-19: find(x==a,1,'first'), counting from 1, empty when there is none. *)
Inductive mode : Set := MIndex | MSigned | MUnsigned | MFloat.
Fixpoint m_find (l : list Z) (a : Z) (i : Z) : option Z :=
  match l with
  | [] => None
  | x :: r => if f_eq 11 52 x a then Some i else m_find r a (i + 1)
  end.
(** The index of the first least element; NaNs are skipped unless there is nothing else. *)
Fixpoint m_argmin (l : list Z) (i : Z) (best : Z) (at_ : Z) : Z :=
  match l with
  | [] => at_
  | x :: r =>
    if match ieee_val 11 52 best with NaNVal => match ieee_val 11 52 x with NaNVal => false | _ => true end | _ => f_lt 11 52 x best end
    then m_argmin r (i + 1) x i else m_argmin r (i + 1) best at_
  end.
Definition toindex (t : table) (m : mode) (a : Z) : option Z :=
  match m with
  | MIndex => Some a
  | MSigned => m_find (t_signed t) a 1
  | MUnsigned => m_find (t_unsigned t) a 1
  | MFloat =>
    match map (fun x => m_sq (m_sub x a)) (t_float t) with
    | [] => None
    | x :: r => Some (m_argmin r 2 x 1)
    end
  end.
(** fromindex.m 8-19; None is an index out of range, an error. *)
Definition m_at (l : list Z) (i : Z) : option Z := if 1 <=? i then nth_error l (Z.to_nat (i - 1)) else None.
Definition fromindex (t : table) (m : mode) (i : Z) : option Z :=
  match m with
  | MIndex => Some i
  | MSigned => m_at (t_signed t) i
  | MUnsigned => m_at (t_unsigned t) i
  | MFloat => m_at (t_float t) i
  end.
End rnd.
