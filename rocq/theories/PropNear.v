(** The search for a number among the posits of a table, and the sum made with it in MATLAB. *)
From Coq Require Import ZArith QArith Qabs List String.
From Verif Require Import Res Cfg Spec SpecFloat FloatOps Dump SpecDump TestSum SpecNear FloatProof DumpProof6 NearProof4 NearProof5.
Import ListNotations.
Open Scope Z_scope.

(** C151. Full statement: with a table of all the posits of a format (C148), toindex.m asked for a number by value gives
    the row of the posit nearest to it, the lower one of two; testfloat11.m gives the rows of its two arguments, the sum of
    their values, the row of the posit nearest to the sum and the difference of both.
    Missing: numbers beyond twice the greatest posit, for which all squares may overflow (C151_far_refuted), and
    formats whose distances have squares out of reach of a double, hence [C151_nearest_partial]; the sum is rounded to a
    double (C151_sum_refuted), and is exact only for formats of limited range.
    [rnd] is any rounding to double and [pw] what pow(2,n) gives; C148_loads_partial says which formats have a table. *)
Theorem C151_nearest_partial : forall rnd pw c m file t s d q, rounding 11 52 rnd -> valid_cfg c -> frac_fits c -> float_covers c 11 52 ->
  cN c + 2 ^ ces c <= 48 -> (cN c - 2) * 2 ^ ces c + (cN c - 3 - ces c) <= 390 ->
  d_file rnd pw c "Biov" m = Some (Ok file) -> loadpositdump rnd file = Some (t, s) ->
  is_double d q -> (Qabs q <= 2 * value c (maxreal c))%Q ->
  exists v i, nearest_posit c q v /\ toindex rnd t MFloat d = Some i /\
    (exists x, fromindex t MSigned i = Some x /\ is_double x (inject_Z v)) /\ (exists x, fromindex t MFloat i = Some x /\ is_double x (value c v)).
Proof. intros rnd pw c m file t s d q RN V FF FC SM RE F L. exact (nearest rnd pw c RN V FF FC SM RE m file t s F L d q). Qed.
Print Assumptions C151_nearest_partial.

(** The number 2^1000 is taken for the most negative posit. *)
Theorem C151_far_refuted : forall pw c m file t s d, valid_cfg c -> frac_fits c -> float_covers c 11 52 ->
  cN c + 2 ^ ces c <= 48 -> (cN c - 2) * 2 ^ ces c + (cN c - 3 - ces c) <= 390 ->
  d_file (rne 11 52) pw c "Biov" m = Some (Ok file) -> loadpositdump (rne 11 52) file = Some (t, s) -> is_double d (pow2 1000) ->
  exists i x, toindex (rne 11 52) t MFloat d = Some i /\ fromindex t MSigned i = Some x /\ is_double x (inject_Z (- maxreal c)) /\ ~ nearest_posit c (pow2 1000) (- maxreal c).
Proof. intros pw c m file t s d. exact (far_refuted pw c m file t s d). Qed.
Print Assumptions C151_far_refuted.

(** The sum. The arguments are those of any of the four modes; [va] and [vb] are the posits in their rows. The sum [sq] is
    the exact one rounded once, the posit [vy] is nearest to [sq], and for formats up to 2^26 nothing is rounded. *)
Theorem C151_sum : forall rnd pw c m file t s md da db ia ib xa xb va vb, rounding 11 52 rnd -> valid_cfg c -> frac_fits c -> float_covers c 11 52 ->
  cN c + 2 ^ ces c <= 48 -> (cN c - 2) * 2 ^ ces c + (cN c - 3 - ces c) <= 390 ->
  d_file rnd pw c "Biov" m = Some (Ok file) -> loadpositdump rnd file = Some (t, s) ->
  toindex rnd t md da = Some ia -> fromindex t MSigned ia = Some xa -> is_double xa (inject_Z va) -> real c va ->
  toindex rnd t md db = Some ib -> fromindex t MSigned ib = Some xb -> is_double xb (inject_Z vb) -> real c vb ->
  exists ea eb sd sq vy ey diff, testfloat11 rnd t md da db = Some (Test (Some ea) (Some eb) (Some sd) (Some ey) (Some diff)) /\
    entry_of c t va ea /\ entry_of c t vb eb /\ entry_of c t vy ey /\
    is_double sd sq /\ same_ext (FinVal sq) (ieee_val 11 52 (rnd (value c va + value c vb)%Q)) /\ nearest_posit c sq vy /\
    same_ext (ieee_val 11 52 diff) (ieee_val 11 52 (rnd (sq - value c vy)%Q)) /\
    ((cN c - 2) * 2 ^ ces c <= 26 -> (sq == value c va + value c vb)%Q /\ is_double diff (value c va + value c vb - value c vy)).
Proof. intros rnd pw c m file t s md da db ia ib xa xb va vb RN V FF FC SM RE F L. exact (sums rnd pw c RN V FF FC SM RE m file t s F L md da db ia ib xa xb va vb). Qed.
Print Assumptions C151_sum.

(** Posits of 16 bits with one exponent bit: the greatest and the smallest one have a sum that is no double. *)
Theorem C151_sum_refuted : let c := Cfg 16 16 1 16 WithNan in forall rnd pw m file t s da db, rounding 11 52 rnd ->
  d_file rnd pw c "Biov" m = Some (Ok file) -> loadpositdump rnd file = Some (t, s) -> is_double da (inject_Z 32767) -> is_double db (inject_Z 1) ->
  exists r sd, testfloat11 rnd t MSigned da db = Some r /\ r_s r = Some sd /\ ~ is_double sd (value c 32767 + value c 1).
Proof. exact sum_refuted. Qed.
Print Assumptions C151_sum_refuted.

(** Posits of 3 bits: 13/8 is taken for 2; 1 + 1/2 is 3/2, for which the lower neighbour 1 is given, with the error 1/2. *)
Example C151_ex : let c := Cfg 8 3 0 8 WithNan in exists file t s,
  d_file (rne 11 52) (fun _ => 0) c "Biov" 8 = Some (Ok file) /\ loadpositdump (rne 11 52) file = Some (t, s) /\
  (exists d i x, is_double d (13 # 8) /\ toindex (rne 11 52) t MFloat d = Some i /\ fromindex t MFloat i = Some x /\ is_double x 2) /\
  (exists da db ea eb sd ey diff, is_double da (inject_Z 2) /\ is_double db (inject_Z 1) /\
    testfloat11 (rne 11 52) t MSigned da db = Some (Test (Some ea) (Some eb) (Some sd) (Some ey) (Some diff)) /\
    is_double (e_float ea) 1 /\ is_double (e_float eb) (1 # 2) /\ is_double sd (3 # 2) /\ is_double (e_float ey) 1 /\ is_double diff (1 # 2)).
Proof. exact tiny_near. Qed.
Example C151_ex_cfg : let c := Cfg 8 3 0 8 WithNan in
  (rounding 11 52 (rne 11 52) /\ valid_cfg c /\ frac_fits c /\ float_covers c 11 52) /\ cN c + 2 ^ ces c <= 48 /\ (cN c - 2) * 2 ^ ces c + (cN c - 3 - ces c) <= 26.
Proof. exact tiny_hyps. Qed.
