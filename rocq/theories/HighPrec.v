(** tests/testunpacked.cpp, the test case "High Precision Test". *)
From Coq Require Import ZArith List.
From Verif Require Import Res Traits Unpacked.
Open Scope Z_scope.

(** testunpacked.cpp 183-188: the loop, on the bits of the floats in the arrays a and b; the number of elements is that of the list. *)
Fixpoint hp_loop (F E : Z) (t : ftrait) (r : unpacked) (l : list (Z * Z)) : res unpacked :=
  match l with
  | nil => Ok r
  | (a, b) :: l' =>
    let! x := u_unpack_xfloati F E t a in
    let! y := u_unpack_xfloati F E t b in
    let! z := u_mul F E x y in
    let! r' := u_add F E r z in
    hp_loop F E t r' l'
  end.
(** testunpacked.cpp 182-189: the sum starts as zero and is converted back to a float. *)
Definition hp_test (F E : Z) (t : ftrait) (l : list (Z * Z)) : res Z :=
  let! r := hp_loop F E t u_zero l in
  u_pack_xfloati F E t r.
