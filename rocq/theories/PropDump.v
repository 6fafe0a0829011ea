(** The binary listing of the posits and the MATLAB functions that read it. *)
From Coq Require Import ZArith QArith List String Sorted Lia.
From Verif Require Import Res Cfg Spec SpecFloat FloatOps Dump SpecDump FloatProof DumpProof DumpProof5 DumpProof6.
Import ListNotations.
Open Scope Z_scope.

(** C148. Full statement: the listing program, asked for a binary listing in the order of signed patterns with the columns
    pattern, unsigned pattern and value (format "Biov"), writes a file from which loadpositdump.m makes a table with one
    row for every finite posit, in increasing order, holding its pattern as a signed and as an unsigned number, its value
    and half the distance of its neighbours, and with the greatest, least and smallest values; limittab.m keeps the rows
    within given limits; toindex.m and fromindex.m find the row of a posit and the posit of a row.
    Missing: the loop overflows its counter for 32 and 64 bit holders filled by the format, unless there are two
    infinities (C104_signed_refuted), hence [C148_loads_partial]; the unsigned column (C148_unsigned_refuted); the search for
    a value when the squares of the distances vanish (C148_value_refuted).
    [rnd] is any rounding to double and [pw] what pow(2,n) gives. The values are doubles: [float_covers c 11 52]. *)
Theorem C148_loads_partial : forall rnd pw c, rounding 11 52 rnd -> valid_cfg c -> frac_fits c -> float_covers c 11 52 ->
  cH c < 32 \/ cN c < cH c \/ csp c = WithNanInf ->
  exists n, forall m, (n <= m)%nat -> exists file t s, d_file rnd pw c "Biov" m = Some (Ok file) /\ loadpositdump rnd file = Some (t, s).
Proof. intros rnd pw c RN V FF FC E. exact (loads rnd pw c RN V FF FC E). Qed.
Print Assumptions C148_loads_partial.

(** One row for every finite posit, in increasing order. *)
Theorem C148_columns : forall rnd pw c m file t s, rounding 11 52 rnd -> valid_cfg c -> frac_fits c -> float_covers c 11 52 -> cN c <= 54 ->
  d_file rnd pw c "Biov" m = Some (Ok file) -> loadpositdump rnd file = Some (t, s) ->
  exists l, (forall v, In v l <-> real c v) /\ StronglySorted (fun a b => (value c a < value c b)%Q) l /\
    Forall2 (fun v d => is_double d (inject_Z v)) l (t_signed t) /\ Forall2 (fun v d => is_double d (value c v)) l (t_float t).
Proof. intros rnd pw c m file t s RN V FF FC N F L. exact (cols rnd pw c RN V FF FC N m file t s F L). Qed.
Print Assumptions C148_columns.

(** The unsigned pattern is right for formats of 8 bits only. For the others the entry of a negative posit is the signed
    pattern again, or, for shorter formats in 8 bits, the pattern extended to 8 bits. *)
Theorem C148_unsigned_partial : forall rnd pw c m file t s, rounding 11 52 rnd -> valid_cfg c -> frac_fits c -> float_covers c 11 52 ->
  d_file rnd pw c "Biov" m = Some (Ok file) -> loadpositdump rnd file = Some (t, s) -> cH c = 8 -> cN c = 8 ->
  Forall2 (fun d u => forall v, real c v -> is_double d (inject_Z v) -> is_double u (inject_Z (v mod 2 ^ cN c))) (t_signed t) (t_unsigned t).
Proof. intros rnd pw c m file t s RN V FF FC F L H8 N8. exact (unsigned8 rnd pw c RN V FF FC ltac:(lia) m file t s F L H8 N8). Qed.
Print Assumptions C148_unsigned_partial.
Theorem C148_unsigned_refuted : forall rnd pw c m file t s, rounding 11 52 rnd -> valid_cfg c -> frac_fits c -> float_covers c 11 52 -> cN c <= 54 ->
  d_file rnd pw c "Biov" m = Some (Ok file) -> loadpositdump rnd file = Some (t, s) -> ~ (cH c = 8 /\ cN c = 8) ->
  Forall2 (fun d u => forall v, real c v -> v < 0 -> is_double d (inject_Z v) ->
    ~ is_double u (inject_Z (v mod 2 ^ cN c)) /\ is_double u (inject_Z (if cH c =? 8 then v mod 2 ^ 8 else v))) (t_signed t) (t_unsigned t).
Proof. intros rnd pw c m file t s RN V FF FC N F L H8. exact (unsigned_wrong rnd pw c RN V FF FC N m file t s F L H8). Qed.
Print Assumptions C148_unsigned_refuted.

(** The greatest and least posits, the smallest positive one, the least and greatest resolutions. *)
Theorem C148_summary : forall rnd pw c m file t s, rounding 11 52 rnd -> valid_cfg c -> frac_fits c -> float_covers c 11 52 -> cN c <= 54 ->
  d_file rnd pw c "Biov" m = Some (Ok file) -> loadpositdump rnd file = Some (t, s) ->
  is_double (s_max s) (value c (maxreal c)) /\ is_double (s_min s) (value c (- maxreal c)) /\ is_double (s_smallest s) (value c 1) /\
  least_of (t_res t) (s_minres s) /\ greatest_of (t_res t) (s_maxres s).
Proof. intros rnd pw c m file t s RN V FF FC N F L. exact (summary_ok rnd pw c RN V FF FC N m file t s F L). Qed.
Print Assumptions C148_summary.

(** The resolution in the row of [v]: NaN at both ends, elsewhere half the distance of the neighbours, rounded after each
    step, and exact for formats where the distances have at most 53 bits. *)
Theorem C148_resolution : forall rnd pw c m file t s i v d, rounding 11 52 rnd -> valid_cfg c -> frac_fits c -> float_covers c 11 52 -> cN c <= 54 ->
  d_file rnd pw c "Biov" m = Some (Ok file) -> loadpositdump rnd file = Some (t, s) ->
  nth_error (t_signed t) i = Some d -> is_double d (inject_Z v) -> real c v ->
  exists r, nth_error (t_res t) i = Some r /\
    (Z.abs v = maxreal c -> ieee_val 11 52 r = NaNVal) /\
    (Z.abs v < maxreal c ->
      (exists x, ieee_val 11 52 (rnd (value c (v + 1) - value c (v - 1))%Q) = FinVal x /\ same_ext (ieee_val 11 52 r) (ieee_val 11 52 (rnd (x / 2)%Q))) /\
      (cN c - 2 - ces c + 2 * 2 ^ ces c <= 53 -> is_double r ((value c (v + 1) - value c (v - 1)) / 2)%Q)).
Proof. intros rnd pw c m file t s i v d RN V FF FC N F L. exact (res_ok rnd pw c RN V FF FC N m file t s F L i v d). Qed.
Print Assumptions C148_resolution.

(** limittab keeps exactly the rows within the limits, in their order, and describes them anew. *)
Theorem C148_limits : forall rnd pw c m file t s mi ma exclusive t' s', rounding 11 52 rnd -> valid_cfg c -> frac_fits c -> float_covers c 11 52 -> cN c <= 54 ->
  d_file rnd pw c "Biov" m = Some (Ok file) -> loadpositdump rnd file = Some (t, s) -> limittab t mi ma exclusive = Some (t', s') ->
  rectangular t /\ rectangular t' /\ (exists keep, (forall r, keep r = true <-> within mi ma exclusive r) /\ rows t' = filter keep (rows t)) /\
  greatest_of (t_float t') (s_max s') /\ least_of (t_float t') (s_min s') /\ least_of (t_res t') (s_minres s') /\ greatest_of (t_res t') (s_maxres s').
Proof. intros rnd pw c m file t s mi ma ex t' s' RN V FF FC N F L. exact (limits rnd pw c RN V FF FC N m file t s F L mi ma ex t' s'). Qed.
Print Assumptions C148_limits.

(** The searches: by pattern, by value and by the entry of the unsigned column. *)
Theorem C148_search : forall rnd pw c m file t s v, rounding 11 52 rnd -> valid_cfg c -> frac_fits c -> float_covers c 11 52 -> cN c <= 54 ->
  d_file rnd pw c "Biov" m = Some (Ok file) -> loadpositdump rnd file = Some (t, s) -> real c v ->
  exists i, (exists d, fromindex t MSigned i = Some d /\ is_double d (inject_Z v)) /\ (exists d, fromindex t MFloat i = Some d /\ is_double d (value c v)) /\
    (forall d, is_double d (inject_Z v) -> toindex rnd t MSigned d = Some i) /\
    (forall d, (cN c - 2) * 2 ^ ces c + (cN c - 3 - ces c) <= 537 -> is_double d (value c v) -> toindex rnd t MFloat d = Some i) /\
    (forall d, fromindex t MUnsigned i = Some d -> toindex rnd t MUnsigned d = Some i).
Proof. intros rnd pw c m file t s v RN V FF FC N F L R. exact (finds rnd pw c RN V FF FC N m file t s F L v R). Qed.
Print Assumptions C148_search.
(** The search by value fails for the smallest positive posit of a format of 11 bits with 6 exponent bits: the square of
    its distance to the greatest negative one rounds to zero. *)
Theorem C148_value_refuted : let c := Cfg 16 11 6 16 WithNan in
  (valid_cfg c /\ frac_fits c /\ float_covers c 11 52) /\
  forall pw m file t s d i x, d_file (rne 11 52) pw c "Biov" m = Some (Ok file) -> loadpositdump (rne 11 52) file = Some (t, s) ->
  is_double d (value c 1) -> toindex (rne 11 52) t MFloat d = Some i -> fromindex t MSigned i = Some x -> ~ is_double x (inject_Z 1).
Proof. exact close_refuted. Qed.
Print Assumptions C148_value_refuted.

(** The seven finite posits of 3 bits. *)
Example C148_ex : let c := Cfg 8 3 0 8 WithNan in
  rounding 11 52 (rne 11 52) /\ valid_cfg c /\ frac_fits c /\ float_covers c 11 52 /\
  exists file t s, d_file (rne 11 52) (fun _ => 0) c "Biov" 8 = Some (Ok file) /\ loadpositdump (rne 11 52) file = Some (t, s) /\
    List.length (t_float t) = 7%nat /\ is_double (s_max s) 2 /\ is_double (s_smallest s) (1 # 2) /\ is_double (s_maxres s) (3 # 4).
Proof. exact tiny_ok. Qed.
