(** Conversion between posit formats through the unpacked representation. *)
From Coq Require Import ZArith.
From Verif Require Import Res CInt Unpacked Cfg Posit.
Open Scope Z_scope.

(** posit.h 325 and 464-470: Posit2(p.unpack()), for two Posit types with the same Unpacked type, that is
    the same fraction and exponent types ([same_unpacked]); any other pair does not compile. *)
Definition same_unpacked (c c' : cfg) : Prop := cF c = cF c' /\ c_E c = c_E c'.
Definition p_convert (c c' : cfg) (v : Z) : res Z :=
  let! u := unpack c v in pack_posit c' u.
