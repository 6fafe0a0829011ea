(** The half precision numbers in a range and the table made of them: C149, C150. *)
From Coq Require Import ZArith QArith Qabs List Sorted Lia.
From Verif Require Import Res Spec SpecFloat SpecHalf SpecDump SpecRange FloatOps MatHalf Dump HalfRange FloatProof DumpProof RangeProof RangeProof2 RangeProof3.
Import ListNotations.
Open Scope Z_scope.

(** C149. halfinrange(mi,ma) returns the patterns of all halves between the limits, both included, each once, in
    increasing order of their numbers and, for the two zeros, of the patterns, and the same numbers as doubles. *)
Theorem C149_range : forall little from_single mi ma, exists u h, halfinrange little from_single mi ma = Ok (Some (u, h)) /\
  Forall2 (same_number 11 52) u h /\ NoDup u /\ StronglySorted half_before u /\ (forall p, In p u <-> half_within mi ma p).
Proof. exact range_ok. Qed.
Print Assumptions C149_range.
(** Among the patterns of 0, 1.0, -1.0, 2^-24, -0, infinity and NaN those between -2 and infinity. *)
Example C149_ex : half_select true (fun _ x => x) [0; 1; 0x3c00; 0x7c00; 0x7e00; 0x8000; 0xbc00; 0xfc00] 0xC000000000000000 0x7FF0000000000000 =
  Ok (Some ([0xbc00; 0; 0x8000; 1; 0x3c00; 0x7c00],
    [0xBFF0000000000000; 0; 0x8000000000000000; 0x3E70000000000000; 0x3FF0000000000000; 0x7FF0000000000000])) /\
  half_within 0xC000000000000000 0x7FF0000000000000 0x7c00 /\ ~ half_within 0xC000000000000000 0x7FF0000000000000 0x7e00.
Proof.
  split; [vm_compute; reflexivity|]. split; [|intros (_ & A & _); vm_compute in A; exact A]. split; [split; vm_compute; congruence|]. split; vm_compute; exact I.
Qed.

(** C150. Full statement: the table that compareposits.m makes of the halves between two finite limits has a row for every
    such half in increasing order, with its number counted from the middle of the table, its pattern, its value and half
    the distance of the numbers next to it; and the greatest and least of the values, the smallest but zero, and the least
    and greatest resolutions.
    Missing: the resolution of the two zeros, which each count as a number next to the other (C150_resolution_refuted).
    [rnd] is any rounding to double. *)
Theorem C150_made : forall rnd little fs mi ma lo hi u h, rounding 11 52 rnd -> is_double mi lo -> is_double ma hi ->
  halfinrange little fs mi ma = Ok (Some (u, h)) -> (3 <= length u)%nat -> exists t s, half_table rnd u h = Some (t, s).
Proof. intros rnd little fs mi ma lo hi u h RN LO HI E L. exact (made rnd RN little fs mi ma lo hi LO HI u h E L). Qed.
Print Assumptions C150_made.
(** The rows, in the order of C149. *)
Theorem C150_columns : forall rnd little fs mi ma lo hi u h t s, rounding 11 52 rnd -> is_double mi lo -> is_double ma hi ->
  halfinrange little fs mi ma = Ok (Some (u, h)) -> half_table rnd u h = Some (t, s) -> rectangular t /\ length (t_signed t) = length u /\
  forall i p, nth_error u i = Some p -> exists a b d x,
    nth_error (t_signed t) i = Some a /\ is_double a (inject_Z (Z.of_nat i) - inject_Z (Z.of_nat (length u)) / 2)%Q /\
    nth_error (t_unsigned t) i = Some b /\ is_double b (inject_Z p) /\ nth_error (t_float t) i = Some d /\ is_double d x /\ is_half p x.
Proof.
  intros rnd little fs mi ma lo hi u h t s RN LO HI E T.
  exact (conj (table_rect rnd little fs mi ma u h E t s T) (conj (signed_len rnd u h t s T) (cols_ok rnd RN little fs mi ma lo hi LO HI u h E t s T))).
Qed.
Print Assumptions C150_columns.
(** The resolution of a number other than 0 that is not the first or last; NaN at the ends. *)
Theorem C150_resolution_partial : forall rnd little fs mi ma lo hi u h t s, rounding 11 52 rnd -> is_double mi lo -> is_double ma hi ->
  halfinrange little fs mi ma = Ok (Some (u, h)) -> half_table rnd u h = Some (t, s) ->
  forall i p y, nth_error u i = Some p -> is_half p y -> ~ (y == 0)%Q -> (0 < i)%nat -> (i < length u - 1)%nat ->
  exists r x z, nth_error (t_res t) i = Some r /\ half_next x y /\ half_next y z /\ is_double r ((z - x) / 2)%Q.
Proof. intros rnd little fs mi ma lo hi u h t s RN LO HI E T. exact (res_ok2 rnd RN little fs mi ma lo hi LO HI u h E t s T). Qed.
Print Assumptions C150_resolution_partial.
Theorem C150_ends : forall rnd little fs mi ma u h t s, halfinrange little fs mi ma = Ok (Some (u, h)) -> half_table rnd u h = Some (t, s) -> u <> [] ->
  (exists r, nth_error (t_res t) 0 = Some r /\ ieee_val 11 52 r = NaNVal) /\ (exists r, nth_error (t_res t) (length u - 1) = Some r /\ ieee_val 11 52 r = NaNVal).
Proof. intros rnd little fs mi ma u h t s E T. exact (res_ends rnd little fs mi ma u h E t s T). Qed.
Print Assumptions C150_ends.
(** The numbers next to 0 are 2^-24 and its opposite, so its resolution is 2^-24. Both rows of 0 have half of it, and so the
    least resolution of the table is 2^-25, which is not the resolution of any half. *)
Theorem C150_resolution_refuted : forall rnd little fs mi ma lo hi u h t s, rounding 11 52 rnd -> is_double mi lo -> is_double ma hi ->
  halfinrange little fs mi ma = Ok (Some (u, h)) -> half_table rnd u h = Some (t, s) -> (lo <= - pow2 (-24))%Q -> (pow2 (-24) <= hi)%Q ->
  half_next (- pow2 (-24)) 0 /\ half_next 0 (pow2 (-24)) /\
  (exists i r, nth_error u i = Some 0 /\ nth_error (t_res t) i = Some r /\ is_double r (pow2 (-25))) /\
  (exists i r, nth_error u i = Some (2 ^ 15) /\ nth_error (t_res t) i = Some r /\ is_double r (pow2 (-25))) /\ is_double (s_minres s) (pow2 (-25)).
Proof.
  intros rnd little fs mi ma lo hi u h t s RN LO HI E T ZL ZH.
  exact (conj (proj1 least_next) (conj (proj2 least_next) (zero_res rnd RN little fs mi ma lo hi LO HI u h E t s T ZL ZH))).
Qed.
Print Assumptions C150_resolution_refuted.
Theorem C150_summary : forall rnd little fs mi ma lo hi u h t s, rounding 11 52 rnd -> is_double mi lo -> is_double ma hi ->
  halfinrange little fs mi ma = Ok (Some (u, h)) -> half_table rnd u h = Some (t, s) ->
  (exists p x, half_within mi ma p /\ is_half p x /\ is_double (s_max s) x /\ forall q y, half_within mi ma q -> is_half q y -> (y <= x)%Q) /\
  (exists p x, half_within mi ma p /\ is_half p x /\ is_double (s_min s) x /\ forall q y, half_within mi ma q -> is_half q y -> (x <= y)%Q) /\
  (exists p x, half_within mi ma p /\ is_half p x /\ ~ (x == 0)%Q /\ is_double (s_smallest s) (Qabs x) /\
    forall q y, half_within mi ma q -> is_half q y -> ~ (y == 0)%Q -> (Qabs x <= Qabs y)%Q) /\
  least_of (t_res t) (s_minres s) /\ greatest_of (t_res t) (s_maxres s).
Proof. intros rnd little fs mi ma lo hi u h t s RN LO HI E T. exact (summary2 rnd RN little fs mi ma lo hi LO HI u h E t s T). Qed.
Print Assumptions C150_summary.
(** The limits that compareposits.m uses. *)
Example C150_ex : rounding 11 52 (rne 11 52) /\ is_double 0xC024000000000000 (- inject_Z 10) /\ is_double 0x4024000000000000 (inject_Z 10) /\
  (- inject_Z 10 <= - pow2 (-24))%Q /\ (pow2 (-24) <= inject_Z 10)%Q /\ is_half 0x3c00 1 /\
  exists u h t s, halfinrange true (fun _ x => x) 0xC024000000000000 0x4024000000000000 = Ok (Some (u, h)) /\ half_table (rne 11 52) u h = Some (t, s).
Proof.
  split; [exact (rne_rounding 11 52 fmt_d)|]. split; [exact (proj1 ten_ok)|]. split; [exact (proj2 ten_ok)|]. split; [vm_compute; congruence|]. split; [vm_compute; congruence|].
  split; [split; [split; vm_compute; congruence|]; eexists; split; vm_compute; reflexivity|]. exact (ten_made (rne 11 52) true (fun _ x => x) (rne_rounding 11 52 fmt_d)).
Qed.
