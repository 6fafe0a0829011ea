(** The limits of half precision and the Morton order: C153, C154. *)
From Coq Require Import ZArith QArith Qabs List Lia.
From Verif Require Import Res Spec SpecHalf SpecRange SpecMorton MatHalf Morton MortonProof.
Import ListNotations.
Open Scope Z_scope.

(** C153. halfprecisionmax returns the greatest half: the magnitude of no half is above it. *)
Theorem C153_max : exists m, is_half halfprecisionmax m /\ forall p x, is_half p x -> (Qabs x <= m)%Q.
Proof. exact (ex_intro _ _ (conj max_is half_most)). Qed.
Print Assumptions C153_max.
(** halfprecisionmin returns the smallest: the magnitude of no half other than 0 is below it. *)
Theorem C153_min : exists m, is_half halfprecisionmin m /\ (0 < m)%Q /\ forall p x, is_half p x -> ~ (x == 0)%Q -> (m <= Qabs x)%Q.
Proof. exact (ex_intro _ _ (conj min_is (conj eq_refl half_min))). Qed.
Print Assumptions C153_min.
(** halfprecision(x) of a double is finite just when it is less than half a step, 16, above the greatest half, and it is 0
    just when it is less than half of the smallest. *)
Theorem C153_converted : forall little to_single d x, 0 <= d < 2 ^ 64 -> ieee_val 11 52 d = FinVal x ->
  exists hi lo r, is_half halfprecisionmax hi /\ is_half halfprecisionmin lo /\
    half_of_array little to_single MDouble [d] None = Ok (Some ([r], None)) /\
    ((Qabs x < hi + 16)%Q <-> exists y, is_half r y) /\ ((Qabs x < lo / 2)%Q <-> is_half r 0).
Proof.
  intros little to_single d x D X. destruct (converted_range little to_single d x D X) as (r & H).
  exact (ex_intro _ _ (ex_intro _ _ (ex_intro _ r (conj max_is (conj min_is H))))).
Qed.
Print Assumptions C153_converted.
(** The values, and the doubles 65504, the one before 65520, 65520, 2^-25 and the one before it. *)
Example C153_ex : is_half halfprecisionmax 65504 /\ is_half halfprecisionmin (1 # 16777216) /\
  half_of_array true (fun i => i) MDouble [0x40EFFC0000000000; 0x40EFFDFFFFFFFFFF; 0x40EFFE0000000000; 0x3E60000000000000; 0x3E5FFFFFFFFFFFFF] None =
    Ok (Some ([halfprecisionmax; halfprecisionmax; 0x7C00; halfprecisionmin; 0], None)).
Proof. split; [exact max_is|]. split; [exact min_is|]. vm_compute. reflexivity. Qed.

(** C154. Full statement: morton(n) returns the Morton order of an array of 2^n rows and columns, for every n.
    Missing: every n but 2 ([C154_order_refuted], [C154_small_refuted]).
    For n = 2 the indices go through the elements in Morton order, each once. *)
Theorem C154_order_partial : exists l, morton 2 = Some l /\ morton_order 2 l /\ goes_through 2 l.
Proof. exact two_order. Qed.
Print Assumptions C154_order_partial.
(** For greater n the two leading base 4 digits decide: the first four rows and columns are gone through in Morton order,
    each element repeated 4^(n-2) times. *)
Theorem C154_corner : forall n, (2 <= n)%nat -> exists l, morton n = Some l /\ Z.of_nat (length l) = 4 ^ Z.of_nat n /\
  forall i, 0 <= i < 4 ^ Z.of_nat n -> exists row col, 0 <= row < 4 /\ 0 <= col < 4 /\
    interleaved row col (i / 4 ^ (Z.of_nat n - 2)) /\ nth_error l (Z.to_nat i) = Some (element n row col).
Proof. exact corner. Qed.
Print Assumptions C154_corner.
(** So it is no permutation, and no element of the other rows and columns occurs. *)
Theorem C154_order_refuted : forall n l, (3 <= n)%nat -> morton n = Some l -> ~ morton_order n l /\ ~ goes_through n l /\ ~ NoDup l /\
  forall row col, 0 <= row < 2 ^ Z.of_nat n -> 0 <= col -> 4 <= row \/ 4 <= col -> ~ In (element n row col) l.
Proof. exact not_order. Qed.
Print Assumptions C154_order_refuted.
(** There is no second digit when n is 0 or 1, and the function stops with an error. *)
Theorem C154_small_refuted : forall n, (n < 2)%nat -> morton n = None.
Proof. exact small_stops. Qed.
Print Assumptions C154_small_refuted.
(** The indices for n = 2, the first and last for n = 3; the order asked for exists for n = 1 too. *)
Example C154_ex : morton 2 = Some [1; 5; 2; 6; 9; 13; 10; 14; 3; 7; 4; 8; 11; 15; 12; 16] /\
  (exists l, morton 3 = Some l /\ firstn 6 l = [1; 1; 1; 1; 9; 9] /\ nth_error l 63 = Some 28) /\
  morton_order 1 [1; 3; 2; 4] /\ element 3 7 7 = 64.
Proof.
  split; [vm_compute; reflexivity|]. split; [eexists; split; [vm_compute; reflexivity|split; reflexivity]|]. split; [|reflexivity].
  split; [reflexivity|]. change (4 ^ Z.of_nat 1) with 4. change (2 ^ Z.of_nat 1) with 2. intros i I.
  exists (i / 2), (i mod 2). assert (O : i = 0 \/ i = 1 \/ i = 2 \/ i = 3) by lia.
  destruct O as [-> | [-> | [-> | ->]]]; (split; [vm_compute; split; congruence|]; split; [vm_compute; split; congruence|]; split; [|reflexivity]);
    intros k K; (destruct (Z.eq_dec k 0) as [->|N]; [split; reflexivity|]; destruct k as [|k|k]; [lia| |lia]; destruct k; split; reflexivity).
Qed.
