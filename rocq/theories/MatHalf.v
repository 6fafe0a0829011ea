(** matlab/halfprecision: conversions between half precision and single and double.

    The same four loops are in halfprecision.c, the MATLAB gateway, and in ieeehalfprecision.c, for use from C. Both
    line ranges are cited. The files differ in the integer types, int32_t against long; the loops below have the 32 bit
    ones, the only ones the check of ieeehalfprecision.c lets pass. The floats are accessed through pointers to integers;
    the model reads and writes their bits and does not treat the type punning as undefined. Forming a pointer more than
    one past the end of an array, as xp += next on the last double does, is not treated as undefined either. *)
From Coq Require Import ZArith QArith Bool List.
From Verif Require Import Res CInt SpecHalf.
Import ListNotations.
Open Scope Z_scope.
Open Scope res_scope.

Definition u16 : ity := uint 16.
Definition u32 : ity := uint 32.

(** One element of singles2halfp, halfprecision.c 397-436, ieeehalfprecision.c 127-166. *)
Definition s2h (x : Z) : res Z :=
  if cand x 0x7FFFFFFF =? 0 then let! r := cshr u32 x 16 in Ok (cast u16 r)
  else
    let xs := cand x 0x80000000 in
    let xe := cand x 0x7F800000 in
    let xm := cand x 0x007FFFFF in
    if xe =? 0 then let! r := cshr u32 xs 16 in Ok (cast u16 r)
    else if xe =? 0x7F800000 then
      if xm =? 0 then let! r := cshr u32 xs 16 in Ok (cast u16 (cor r 0x7C00))
      else Ok (cast u16 0xFE00)
    else
      let! hs := cshr u32 xs 16 in
      let hs := cast u16 hs in
      let! e := cshr u32 xe 23 in
      let! hes := csub c_int (cast c_int e) 127 in
      let! hes := cadd c_int hes 15 in
      if 0x1F <=? hes then let! r := cshr u32 xs 16 in Ok (cast u16 (cor r 0x7C00))
      else if hes <=? 0 then
        let! d := csub c_int 14 hes in
        let! hm :=
          if 24 <? d then Ok (cast u16 0)
          else
            let xm := cor xm 0x00800000 in
            let! m := cshr u32 xm d in
            let hm := cast u16 m in
            let! d' := csub c_int 13 hes in
            let! b := cshr u32 xm d' in
            if negb (cand b 1 =? 0) then let! h := cadd c_int hm 1 in Ok (cast u16 h) else Ok hm in
        Ok (cast u16 (cor hs hm))
      else
        let! he := cshl c_int hes 10 in
        let he := cast u16 he in
        let! m := cshr u32 xm 13 in
        let hm := cast u16 m in
        if negb (cand xm 0x00001000 =? 0) then let! h := cadd c_int (cor (cor hs he) hm) 1 in Ok (cast u16 h)
        else Ok (cast u16 (cor (cor hs he) hm)).

(** One element of doubles2halfp, of which [x] is the upper word; halfprecision.c 456-495, ieeehalfprecision.c 222-261. *)
Definition d2h (x : Z) : res Z :=
  if cand x 0x7FFFFFFF =? 0 then let! r := cshr u32 x 16 in Ok (cast u16 r)
  else
    let xs := cand x 0x80000000 in
    let xe := cand x 0x7FF00000 in
    let xm := cand x 0x000FFFFF in
    if xe =? 0 then let! r := cshr u32 xs 16 in Ok (cast u16 r)
    else if xe =? 0x7FF00000 then
      if xm =? 0 then let! r := cshr u32 xs 16 in Ok (cast u16 (cor r 0x7C00))
      else Ok (cast u16 0xFE00)
    else
      let! hs := cshr u32 xs 16 in
      let hs := cast u16 hs in
      let! e := cshr u32 xe 20 in
      let! hes := csub c_int (cast c_int e) 1023 in
      let! hes := cadd c_int hes 15 in
      if 0x1F <=? hes then let! r := cshr u32 xs 16 in Ok (cast u16 (cor r 0x7C00))
      else if hes <=? 0 then
        let! d := csub c_int 10 hes in
        let! hm :=
          if 21 <? d then Ok (cast u16 0)
          else
            let xm := cor xm 0x00100000 in
            let! d' := csub c_int 11 hes in
            let! m := cshr u32 xm d' in
            let hm := cast u16 m in
            let! b := cshr u32 xm d in
            if negb (cand b 1 =? 0) then let! h := cadd c_int hm 1 in Ok (cast u16 h) else Ok hm in
        Ok (cast u16 (cor hs hm))
      else
        let! he := cshl c_int hes 10 in
        let he := cast u16 he in
        let! m := cshr u32 xm 10 in
        let hm := cast u16 m in
        if negb (cand xm 0x00000200 =? 0) then let! h := cadd c_int (cor (cor hs he) hm) 1 in Ok (cast u16 h)
        else Ok (cast u16 (cor (cor hs he) hm)).

(** The do-while loop that normalises a subnormal half, halfprecision.c 522-525 and 573-576, ieeehalfprecision.c 324-327
    and 411-414. It ends after at most 10 rounds unless hm is 0; running out of rounds counts as undefined. *)
Fixpoint normalise (rounds : nat) (e hm : Z) : res (Z * Z) :=
  match rounds with
  | O => UB Uninit
  | S k =>
    let! e := cadd c_int e 1 in
    let! h := cshl c_int hm 1 in
    let hm := cast u16 h in
    if cand hm 0x0400 =? 0 then normalise k e hm else Ok (e, hm)
  end.

(** One element of halfp2singles, halfprecision.c 513-544, ieeehalfprecision.c 315-346. *)
Definition h2s (h : Z) : res Z :=
  if cand h 0x7FFF =? 0 then cshl u32 h 16
  else
    let hs := cand h 0x8000 in
    let he := cand h 0x7C00 in
    let hm := cand h 0x03FF in
    if he =? 0 then
      let! p := normalise 16 (-1) hm in
      let e := fst p in
      let hm := snd p in
      let! xs := cshl u32 hs 16 in
      let! b := cshr c_int he 10 in
      let! xes := csub c_int b 15 in
      let! xes := cadd c_int xes 127 in
      let! xes := csub c_int xes e in
      let! xe := cshl c_int xes 23 in
      let xe := cast u32 xe in
      let! xm := cshl u32 (cand hm 0x03FF) 13 in
      Ok (cor (cor xs xe) xm)
    else if he =? 0x7C00 then
      if hm =? 0 then let! xs := cshl u32 hs 16 in Ok (cor xs 0x7F800000) else Ok 0xFFC00000
    else
      let! xs := cshl u32 hs 16 in
      let! b := cshr c_int he 10 in
      let! xes := csub c_int b 15 in
      let! xes := cadd c_int xes 127 in
      let! xe := cshl c_int xes 23 in
      let xe := cast u32 xe in
      let! xm := cshl u32 hm 13 in
      Ok (cor (cor xs xe) xm).

(** One element of halfp2doubles, of which only the upper word is written; halfprecision.c 564-595,
    ieeehalfprecision.c 402-433. *)
Definition h2d (h : Z) : res Z :=
  if cand h 0x7FFF =? 0 then cshl u32 h 16
  else
    let hs := cand h 0x8000 in
    let he := cand h 0x7C00 in
    let hm := cand h 0x03FF in
    if he =? 0 then
      let! p := normalise 16 (-1) hm in
      let e := fst p in
      let hm := snd p in
      let! xs := cshl u32 hs 16 in
      let! b := cshr c_int he 10 in
      let! xes := csub c_int b 15 in
      let! xes := cadd c_int xes 1023 in
      let! xes := csub c_int xes e in
      let! xe := cshl c_int xes 20 in
      let xe := cast u32 xe in
      let! xm := cshl u32 (cand hm 0x03FF) 10 in
      Ok (cor (cor xs xe) xm)
    else if he =? 0x7C00 then
      if hm =? 0 then let! xs := cshl u32 hs 16 in Ok (cor xs 0x7FF00000) else Ok 0xFFF80000
    else
      let! xs := cshl u32 hs 16 in
      let! b := cshr c_int he 10 in
      let! xes := csub c_int b 15 in
      let! xes := cadd c_int xes 1023 in
      let! xe := cshl c_int xes 20 in
      let xe := cast u32 xe in
      let! xm := cshl u32 hm 10 in
      Ok (cor (cor xs xe) xm).

(** The loops while( numel-- ). An array is the list of its elements from the pointer on, so moving a pointer takes
    the tail. numel counts down from its value as int or as mwSize; a negative one never meets 0 before the arrays
    end. *)
(** halfprecision.c 396, 512; ieeehalfprecision.c 126, 314. *)
Fixpoint each (f : Z -> res Z) (src dst : list Z) (numel : Z) : res (list Z) :=
  if numel =? 0 then Ok dst
  else match src, dst with
       | x :: src', _ :: dst' =>
         let! r := f x in
         let! rest := each f src' dst' (numel - 1) in
         Ok (r :: rest)
       | _, _ => UB OutOfBounds
       end.
(** doubles2halfp, halfprecision.c 455-456, ieeehalfprecision.c 221-222: after each word read one is skipped. *)
Fixpoint each_from_double (src dst : list Z) (numel : Z) : res (list Z) :=
  if numel =? 0 then Ok dst
  else match src, dst with
       | x :: src', _ :: dst' =>
         let! r := d2h x in
         let! rest := match src' with
                      | [] => if numel - 1 =? 0 then Ok dst' else UB OutOfBounds
                      | _ :: src'' => each_from_double src'' dst' (numel - 1)
                      end in
         Ok (r :: rest)
       | _, _ => UB OutOfBounds
       end.
(** halfp2doubles, halfprecision.c 563-596, ieeehalfprecision.c 401-434: after each word written one is skipped. *)
Fixpoint each_to_double (src dst : list Z) (numel : Z) : res (list Z) :=
  if numel =? 0 then Ok dst
  else match src, dst with
       | x :: src', _ :: dst' =>
         let! r := h2d x in
         let! rest := match dst' with
                      | [] => if numel - 1 =? 0 then Ok [] else UB OutOfBounds
                      | w :: dst'' => let! t := each_to_double src' dst'' (numel - 1) in Ok (w :: t)
                      end in
         Ok (r :: rest)
       | _, _ => UB OutOfBounds
       end.

(** The routines; [None] is a NULL pointer. [next] is 1 if the lower word of a double comes first.
    halfprecision.c 385-438, 442-497, 501-546, 550-598. The double routines move their pointer by [next] words first. *)
Definition singles2halfp (target source : option (list Z)) (numel : Z) : res (option (list Z)) :=
  match source, target with
  | Some s, Some t => let! r := each s2h s t numel in Ok (Some r)
  | _, _ => Ok target
  end.
Definition halfp2singles (target source : option (list Z)) (numel : Z) : res (option (list Z)) :=
  match source, target with
  | Some s, Some t => let! r := each h2s s t numel in Ok (Some r)
  | _, _ => Ok target
  end.
Definition doubles2halfp (next : nat) (target source : option (list Z)) (numel : Z) : res (option (list Z)) :=
  match source, target with
  | Some s, Some t => let! r := each_from_double (skipn next s) t numel in Ok (Some r)
  | _, _ => Ok target
  end.
Definition halfp2doubles (next : nat) (target source : option (list Z)) (numel : Z) : res (option (list Z)) :=
  match source, target with
  | Some s, Some t => let! r := each_to_double s (skipn next t) numel in Ok (Some (firstn next t ++ r))
  | _, _ => Ok target
  end.

(** The check on the first call, halfprecision.c 206-221, ieeehalfprecision.c 105-120: the words of the double 1.0, read as
    unsigned integers of [w] bits. [None] is the failure, [Some next] the byte order found. The outcome is the same on
    every call, so the static variables are not modelled. *)
Definition one_word (little : bool) (w i : Z) : res Z :=
  if 64 <? w * (i + 1) then UB OutOfBounds
  else Ok ((0x3FF0000000000000 / 2 ^ (if little then w * i else 64 - w * (i + 1))) mod 2 ^ w).
Definition check_ieee (little : bool) (w : Z) : res (option nat) :=
  let! a := one_word little w 0 in
  let! p := if a =? 0 then let! b := one_word little w 1 in Ok (1%nat, b) else Ok (0%nat, a) in
  if negb (snd p =? 0x3FF00000) then Ok None
  else if negb (w =? 32) then Ok None
  else Ok (Some (fst p)).

(** The routines of ieeehalfprecision.c 93-437: the value returned and the target. [w] is the width of long. *)
Inductive routine : Set := Singles2halfp | Doubles2halfp | Halfp2singles | Halfp2doubles.
Definition run_routine (r : routine) (next : nat) (target source : option (list Z)) (numel : Z) : res (option (list Z)) :=
  match r with
  | Singles2halfp => singles2halfp target source numel
  | Doubles2halfp => doubles2halfp next target source numel
  | Halfp2singles => halfp2singles target source numel
  | Halfp2doubles => halfp2doubles next target source numel
  end.
Definition ieee_routine (little : bool) (w : Z) (r : routine) (target source : option (list Z)) (numel : Z) : res (Z * option (list Z)) :=
  let! c := check_ieee little w in
  match c with
  | None => Ok (1, target)
  | Some next => let! t := run_routine r next target source numel in Ok (0, t)
  end.

(** The gateway, halfprecision.c 193-381, for one array argument that is not sparse. An array has a class and lists of
    elements, the imaginary ones if it is complex; floats are given by their bits. *)
Inductive mclass : Set := MDouble | MSingle | MInteger (t : ity) | MLogical | MChar | MOther.
Section gateway.
Variable little : bool.
(** The functions single() and the conversion of a single to another class, which the gateway calls in MATLAB. *)
Variable to_single : Z -> Z.
Variable from_single : mclass -> Z -> Z.
Definition zeros (n : nat) : list Z := repeat 0 n.
Definition opt_length (l : option (list Z)) : option (list Z) := option_map (fun l => zeros (length l)) l.

(** halfprecision(x), lines 271-320; [None] is an error message. mxCreateNumericArray sets the elements to 0. *)
Definition half_of_array (cl : mclass) (re : list Z) (im : option (list Z)) : res (option (list Z * option (list Z))) :=
  let! c := check_ieee little 32 in
  match c with
  | None => Ok None
  | Some next =>
    let numel := Z.of_nat (length re) in
    let conv (part : option (list Z)) : res (option (list Z)) :=
      match cl with
      | MDouble => doubles2halfp next (opt_length part) (option_map (in_words little) part) numel
      | MSingle => singles2halfp (opt_length part) part numel
      | _ => singles2halfp (opt_length part) (option_map (map to_single) part) numel
      end in
    match cl with
    | MOther => Ok None
    | _ =>
      let! r := conv (Some re) in
      let! i := conv im in
      match r with Some r => Ok (Some (r, i)) | None => Ok None end
    end
  end.

(** The doubles that words in memory make up. *)
Fixpoint doubles_of (ws : list Z) : list Z :=
  match ws with
  | a :: b :: ws' => (if little then b * 2 ^ 32 + a else a * 2 ^ 32 + b) :: doubles_of ws'
  | _ => []
  end.
(** halfprecision(h, class), lines 343-381, where h is uint16 or int16, given by its bits. *)
Definition array_of_half (cl : mclass) (re : list Z) (im : option (list Z)) : res (option (list Z * option (list Z))) :=
  let! c := check_ieee little 32 in
  match c with
  | None => Ok None
  | Some next =>
    let numel := Z.of_nat (length re) in
    let conv (part : option (list Z)) : res (option (list Z)) :=
      match cl with
      | MDouble =>
        let! t := halfp2doubles next (option_map (fun l => zeros (2 * length l)) part) part numel in
        Ok (option_map doubles_of t)
      | MSingle => halfp2singles (opt_length part) part numel
      | _ => let! t := halfp2singles (opt_length part) part numel in Ok (option_map (map (from_single cl)) t)
      end in
    match cl with
    | MOther => Ok None
    | _ =>
      let! r := conv (Some re) in
      let! i := conv im in
      match r with Some r => Ok (Some (r, i)) | None => Ok None end
    end
  end.
End gateway.
