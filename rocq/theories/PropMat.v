(** The half precision conversions of matlab/halfprecision: C112 to C119. *)
From Coq Require Import ZArith QArith List Lia.
From Verif Require Import Res CInt Spec SpecFloat SpecHalf FloatOps PositF AnyFloat PositFProof4 MatHalf MatProof7.
Import ListNotations.
Open Scope Z_scope.

(** C112. Singles become the nearest halves, ties away from zero, with infinities, NaN and signs of zeros kept; only the
    first elements of the target change. *)
Theorem C112_singles src rest dst : Forall (fun x => 0 <= x < 2 ^ 32) src -> (length src <= length dst)%nat ->
  exists new, singles2halfp (Some dst) (Some (src ++ rest)) (Z.of_nat (length src)) = Ok (Some new) /\ converted (half_of 8 23) src dst new.
Proof. exact (singles_ok src rest dst). Qed.
Print Assumptions C112_singles.
(** -inf, -1.2, NaN, 1.2, 1e30 and 2^-25, which is halfway between 0 and the least half. *)
Example C112_case : singles2halfp (Some [9; 9; 9; 9; 9; 9; 9]) (Some [0xFF800000; 0xBF99999A; 0x7FC00000; 0x3F99999A; 0x7149F2CA; 0x33000000; 5]) 6 =
  Ok (Some [64512; 48333; 65024; 15565; 31744; 1; 9]).
Proof. vm_compute. reflexivity. Qed.

(** C113. Doubles, which lie in memory as two words, become the nearest halves, ties away from zero. Missing from the full
    claim, which has no [upper_tells]: a NaN all of whose fraction bits are in its lower word becomes an infinity. *)
Theorem C113_doubles_partial (little : bool) ds rest dst : Forall (fun d => 0 <= d < 2 ^ 64) ds -> (length ds <= length dst)%nat ->
  exists new, doubles2halfp (if little then 1%nat else 0%nat) (Some dst) (Some (in_words little ds ++ rest)) (Z.of_nat (length ds)) = Ok (Some new) /\
    converted (fun d r => 0 <= r < 2 ^ 16 /\ (upper_tells d -> half_of 11 52 d r)) ds dst new.
Proof. exact (doubles_ok little ds rest dst). Qed.
Print Assumptions C113_doubles_partial.
Theorem C113_doubles_refuted : exists d new, 0 <= d < 2 ^ 64 /\ ieee_val 11 52 d = NaNVal /\
  doubles2halfp 1 (Some [0]) (Some (in_words true [d])) 1 = Ok (Some [new]) /\ ieee_val 5 10 new = InfVal false.
Proof. exact doubles_nan_wrong. Qed.
Print Assumptions C113_doubles_refuted.
(** -1.2, the quiet NaN and a double just below 2^-25, in both byte orders. *)
Example C113_case : let ds := [0xBFF3333333333333; 0xFFF8000000000000; 0x3E5FFFFFFFFFFFFF] in
  doubles2halfp 1 (Some [9; 9; 9]) (Some (in_words true ds)) 3 = Ok (Some [48333; 65024; 0]) /\
  doubles2halfp 0 (Some [9; 9; 9]) (Some (in_words false ds)) 3 = Ok (Some [48333; 65024; 0]) /\ Forall upper_tells ds.
Proof.
  cbv zeta. split; [vm_compute; reflexivity|]. split; [vm_compute; reflexivity|].
  constructor; [left; vm_compute; discriminate|]. constructor; [right; vm_compute; discriminate|]. constructor; [left; vm_compute; discriminate|constructor].
Qed.

(** C114. Every half is converted exactly to a single. *)
Theorem C114_to_singles hs rest dst : Forall (fun h => 0 <= h < 2 ^ 16) hs -> (length hs <= length dst)%nat ->
  exists new, halfp2singles (Some dst) (Some (hs ++ rest)) (Z.of_nat (length hs)) = Ok (Some new) /\ converted (same_number 8 23) hs dst new.
Proof. exact (to_singles_ok hs rest dst). Qed.
Print Assumptions C114_to_singles.
Example C114_case : halfp2singles (Some [9; 9; 9]) (Some [0x8001; 0x7BFF]) 2 = Ok (Some [0xB3800000; 0x477FE000; 9]).
Proof. vm_compute. reflexivity. Qed.

(** C115. Every half is converted exactly to a double. Missing from the full claim: the lower words of the target must be 0
    before, as the routine does not write them. In general it is the upper words that become right. *)
Theorem C115_to_doubles_partial (little : bool) hs rest olds tail : Forall (fun h => 0 <= h < 2 ^ 16) hs -> length olds = length hs ->
  Forall (fun o => o mod 2 ^ 32 = 0) olds ->
  exists outs, halfp2doubles (if little then 1%nat else 0%nat) (Some (in_words little olds ++ tail)) (Some (hs ++ rest)) (Z.of_nat (length hs)) = Ok (Some (in_words little outs ++ tail)) /\
    Forall2 (same_number 11 52) hs outs.
Proof. exact (to_doubles_zero little hs rest olds tail). Qed.
Print Assumptions C115_to_doubles_partial.
Theorem C115_upper_word_partial (little : bool) hs rest olds tail : Forall (fun h => 0 <= h < 2 ^ 16) hs -> length olds = length hs ->
  exists outs, halfp2doubles (if little then 1%nat else 0%nat) (Some (in_words little olds ++ tail)) (Some (hs ++ rest)) (Z.of_nat (length hs)) = Ok (Some (in_words little outs ++ tail)) /\
    Forall2 (fun h d => same_number 11 52 h (d - d mod 2 ^ 32)) hs outs /\ Forall2 (fun o d => d mod 2 ^ 32 = o mod 2 ^ 32) olds outs.
Proof. exact (to_doubles_ok little hs rest olds tail). Qed.
Print Assumptions C115_upper_word_partial.
Theorem C115_to_doubles_refuted : exists h old new q, 0 <= h < 2 ^ 16 /\ 0 <= old < 2 ^ 64 /\
  halfp2doubles 1 (Some (in_words true [old])) (Some [h]) 1 = Ok (Some (in_words true [new])) /\
  ieee_val 5 10 h = FinVal q /\ ~ same_ext (ieee_val 11 52 new) (FinVal q).
Proof. exact to_doubles_wrong. Qed.
Print Assumptions C115_to_doubles_refuted.
Example C115_case : halfp2doubles 1 (Some [0; 9; 0; 9; 8]) (Some [0x8001; 0x7BFF]) 2 = Ok (Some [0; 0xBE700000; 0; 0x40EFFC00; 8]) /\
  in_words true [9 * 2 ^ 32; 9 * 2 ^ 32] = [0; 9; 0; 9].
Proof. vm_compute. split; reflexivity. Qed.

(** C116. A half converted to single or double and back is the same half; a NaN stays a NaN. The words in the doubles the
    first routine leaves do no harm. *)
Theorem C116_single hs t1 t2 : Forall (fun h => 0 <= h < 2 ^ 16) hs -> length t1 = length hs -> length t2 = length hs ->
  exists xs hs', halfp2singles (Some t1) (Some hs) (Z.of_nat (length hs)) = Ok (Some xs) /\
    singles2halfp (Some t2) (Some xs) (Z.of_nat (length hs)) = Ok (Some hs') /\
    Forall2 (fun h h' => (ieee_val 5 10 h <> NaNVal -> h' = h) /\ (ieee_val 5 10 h = NaNVal -> ieee_val 5 10 h' = NaNVal)) hs hs'.
Proof. exact (trip_single hs t1 t2). Qed.
Print Assumptions C116_single.
Theorem C116_double (little : bool) hs olds t2 : Forall (fun h => 0 <= h < 2 ^ 16) hs -> length olds = length hs -> length t2 = length hs ->
  Forall (fun o => 0 <= o < 2 ^ 64) olds ->
  exists ds hs', halfp2doubles (if little then 1%nat else 0%nat) (Some (in_words little olds)) (Some hs) (Z.of_nat (length hs)) = Ok (Some (in_words little ds)) /\
    doubles2halfp (if little then 1%nat else 0%nat) (Some t2) (Some (in_words little ds)) (Z.of_nat (length hs)) = Ok (Some hs') /\
    Forall2 (fun h h' => (ieee_val 5 10 h <> NaNVal -> h' = h) /\ (ieee_val 5 10 h = NaNVal -> ieee_val 5 10 h' = NaNVal)) hs hs'.
Proof. exact (trip_double little hs olds t2). Qed.
Print Assumptions C116_double.
Example C116_case : halfp2doubles 1 (Some [7; 9; 7; 9]) (Some [0x8001; 0x7BFF]) 2 = Ok (Some [7; 0xBE700000; 7; 0x40EFFC00]) /\
  doubles2halfp 1 (Some [0; 0]) (Some [7; 0xBE700000; 7; 0x40EFFC00]) 2 = Ok (Some [0x8001; 0x7BFF]).
Proof. vm_compute. split; reflexivity. Qed.

(** C117. The routines are defined, without access out of bounds, shift or overflow, exactly when the number of elements is
    not negative and both arrays have as many; with a null pointer they do nothing. *)
Theorem C117_singles src dst n : Forall (fun x => 0 <= x < 2 ^ 32) src ->
  defined (singles2halfp (Some dst) (Some src) n) <-> 0 <= n <= Z.min (Z.of_nat (length src)) (Z.of_nat (length dst)).
Proof. exact (singles_defined src dst n). Qed.
Print Assumptions C117_singles.
Theorem C117_doubles (little : bool) ds dst n : Forall (fun d => 0 <= d < 2 ^ 64) ds ->
  defined (doubles2halfp (if little then 1%nat else 0%nat) (Some dst) (Some (in_words little ds)) n) <->
  0 <= n <= Z.min (Z.of_nat (length ds)) (Z.of_nat (length dst)).
Proof. exact (doubles_defined little ds dst n). Qed.
Print Assumptions C117_doubles.
Theorem C117_to_singles hs dst n : Forall (fun h => 0 <= h < 2 ^ 16) hs ->
  defined (halfp2singles (Some dst) (Some hs) n) <-> 0 <= n <= Z.min (Z.of_nat (length hs)) (Z.of_nat (length dst)).
Proof. exact (to_singles_defined hs dst n). Qed.
Print Assumptions C117_to_singles.
Theorem C117_to_doubles (little : bool) hs olds n : Forall (fun h => 0 <= h < 2 ^ 16) hs ->
  defined (halfp2doubles (if little then 1%nat else 0%nat) (Some (in_words little olds)) (Some hs) n) <->
  0 <= n <= Z.min (Z.of_nat (length hs)) (Z.of_nat (length olds)).
Proof. exact (to_doubles_defined little hs olds n). Qed.
Print Assumptions C117_to_doubles.
Theorem C117_null r next t s n : t = None \/ s = None -> run_routine r next t s n = Ok t.
Proof. exact (null_kept r next t s n). Qed.
Print Assumptions C117_null.
Example C117_case : singles2halfp (Some [0; 0]) (Some [0x3F800000]) 2 = UB OutOfBounds /\ singles2halfp (Some [0]) (Some [0x3F800000]) 1 = Ok (Some [0x3C00]).
Proof. vm_compute. split; reflexivity. Qed.

(** C118. Called from C, the routines return 0 and convert. Missing from the full claim: long must have 32 bits. Where it has
    64, as in LP64, they return 1 and convert nothing, although the floats are IEEE. *)
Theorem C118_return_partial (little : bool) r t s n :
  ieee_routine little 32 r t s n = bind (run_routine r (if little then 1%nat else 0%nat) t s n) (fun t => Ok (0, t)).
Proof. exact (ieee_32 little r t s n). Qed.
Print Assumptions C118_return_partial.
Theorem C118_long_refuted (little : bool) r t s n : ieee_routine little 64 r t s n = Ok (1, t).
Proof. exact (ieee_64 little r t s n). Qed.
Print Assumptions C118_long_refuted.
Example C118_case : ieee_routine true 32 Singles2halfp (Some [0]) (Some [0x3F800000]) 1 = Ok (0, Some [0x3C00]) /\
  ieee_routine true 64 Singles2halfp (Some [0]) (Some [0x3F800000]) 1 = Ok (1, Some [0]).
Proof. vm_compute. split; reflexivity. Qed.

(** C119. The MATLAB function. An array of singles, of doubles, or of integers, logicals or characters becomes the halves
    nearest to its elements, ties away from zero, and so do the imaginary parts. Integers go through single precision,
    which changes nothing. Missing from the full claim: NaN doubles as in C113. *)
Theorem C119_of_single (little : bool) to_single re im :
  Forall (fun x => 0 <= x < 2 ^ 32) re -> opt_all (fun x => 0 <= x < 2 ^ 32) im -> same_length re im ->
  exists r i, half_of_array little to_single MSingle re im = Ok (Some (r, i)) /\ Forall2 (half_of 8 23) re r /\ opt_rel (half_of 8 23) im i.
Proof. exact (gate_single little to_single re im). Qed.
Print Assumptions C119_of_single.
Theorem C119_of_double_partial (little : bool) to_single re im :
  Forall (fun d => 0 <= d < 2 ^ 64) re -> opt_all (fun d => 0 <= d < 2 ^ 64) im -> same_length re im ->
  exists r i, half_of_array little to_single MDouble re im = Ok (Some (r, i)) /\
    Forall2 (fun d r => 0 <= r < 2 ^ 16 /\ (upper_tells d -> half_of 11 52 d r)) re r /\
    opt_rel (fun d r => 0 <= r < 2 ^ 16 /\ (upper_tells d -> half_of 11 52 d r)) im i.
Proof. exact (gate_double little to_single re im). Qed.
Print Assumptions C119_of_double_partial.
Theorem C119_of_double_refuted (little : bool) to_single : exists d new, 0 <= d < 2 ^ 64 /\ ieee_val 11 52 d = NaNVal /\
  half_of_array little to_single MDouble [d] None = Ok (Some ([new], None)) /\ ieee_val 5 10 new = InfVal false.
Proof. exact (gate_nan_wrong little to_single). Qed.
Print Assumptions C119_of_double_refuted.
Theorem C119_of_integer (little : bool) (rnd : Q -> Z) cl re im :
  rounding 8 23 rnd -> cl <> MDouble /\ cl <> MSingle /\ cl <> MOther -> same_length re im ->
  exists r i, half_of_array little (fun i => rnd (inject_Z i)) cl re im = Ok (Some (r, i)) /\
    Forall2 (fun i r => half_for (FinVal (inject_Z i)) r) re r /\ opt_rel (fun i r => half_for (FinVal (inject_Z i)) r) im i.
Proof. exact (gate_integers little rnd cl re im). Qed.
Print Assumptions C119_of_integer.
(** Back, singles and doubles are exact, and other classes are those of the exact singles. *)
Theorem C119_to_single (little : bool) from_single re im :
  Forall (fun h => 0 <= h < 2 ^ 16) re -> opt_all (fun h => 0 <= h < 2 ^ 16) im -> same_length re im ->
  exists r i, array_of_half little from_single MSingle re im = Ok (Some (r, i)) /\ Forall2 (same_number 8 23) re r /\ opt_rel (same_number 8 23) im i.
Proof. exact (gate_to_single little from_single re im). Qed.
Print Assumptions C119_to_single.
Theorem C119_to_double (little : bool) from_single re im :
  Forall (fun h => 0 <= h < 2 ^ 16) re -> opt_all (fun h => 0 <= h < 2 ^ 16) im -> same_length re im ->
  exists r i, array_of_half little from_single MDouble re im = Ok (Some (r, i)) /\ Forall2 (same_number 11 52) re r /\ opt_rel (same_number 11 52) im i.
Proof. exact (gate_to_double little from_single re im). Qed.
Print Assumptions C119_to_double.
Theorem C119_to_other (little : bool) from_single cl re im : cl <> MDouble /\ cl <> MSingle /\ cl <> MOther ->
  Forall (fun h => 0 <= h < 2 ^ 16) re -> opt_all (fun h => 0 <= h < 2 ^ 16) im -> same_length re im ->
  exists xs ys, array_of_half little from_single cl re im = Ok (Some (map (from_single cl) xs, option_map (map (from_single cl)) ys)) /\
    Forall2 (same_number 8 23) re xs /\ opt_rel (same_number 8 23) im ys.
Proof. exact (gate_to_other little from_single cl re im). Qed.
Print Assumptions C119_to_other.
Example C119_case :
  half_of_array true (fun i => i) MDouble [0x3FF3333333333333; 0x7FF0000000000000] (Some [0xBFF3333333333333; 0]) = Ok (Some ([15565; 31744], Some [48333; 0])) /\
  half_of_array true (fun i => rne 8 23 (inject_Z i)) (MInteger (sint 32)) [-3; 65519] None = Ok (Some ([0xC200; 0x7BFF], None)) /\
  array_of_half true (fun _ x => x) MDouble [0x3C00; 0x0001] None = Ok (Some ([0x3FF0000000000000; 0x3E70000000000000], None)) /\
  (MInteger (sint 32) <> MDouble /\ MInteger (sint 32) <> MSingle /\ MInteger (sint 32) <> MOther) /\ rounding 8 23 (rne 8 23).
Proof.
  split; [vm_compute; reflexivity|]. split; [vm_compute; reflexivity|]. split; [vm_compute; reflexivity|]. split; [repeat split; discriminate|].
  exact (rnek_rounding FFloat).
Qed.
