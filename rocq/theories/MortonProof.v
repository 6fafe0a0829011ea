(** The limits of half precision and the Morton order. *)
From Coq Require Import ZArith QArith Qabs Bool List Lia Lqa.
From Verif Require Import Res CInt Traits Cfg Spec SpecFloat SpecHalf SpecAny SpecRange FloatOps MatHalf QPow Core Arith SpecLemmas EncodeProof Conv1 FloatProof PositFProof
  MatProof MatProof5 MatProof7 RangeProof RangeProof2 SpecMorton Morton.
Import ListNotations.
Open Scope Z_scope.

(** * The limits *)
Lemma max_is : is_half halfprecisionmax 65504.
Proof. split; [vm_compute; split; congruence|]. eexists. split; [vm_compute; reflexivity|]. vm_compute. reflexivity. Qed.
Lemma min_is : is_half halfprecisionmin (pow2 (-24)).
Proof. split; [vm_compute; split; congruence|]. eexists. split; [vm_compute; reflexivity|]. vm_compute. reflexivity. Qed.
Lemma half_most p x : is_half p x -> (Qabs x <= 65504)%Q.
Proof.
  intros (P & y & I & X). destruct (ieee_code_inv 5 10 fmt_h p y P I) as (s & g & G & E & V).
  change ((2 ^ 5 - 1) * 2 ^ 10) with 31744 in G.
  assert (M : (mval 5 10 31743 == 65504)%Q) by (vm_compute; reflexivity).
  pose proof (mval_le 5 10 fmt_h g 31743 ltac:(lia) ltac:(lia)) as L. pose proof (mval_le 5 10 fmt_h 0 g ltac:(lia) ltac:(lia)) as L0.
  rewrite (mval_0 5 10 fmt_h) in L0. rewrite <- X, V. apply Qabs_Qle_condition. destruct s; cbn [sgq]; lra.
Qed.
Lemma half_min p x : is_half p x -> ~ (x == 0)%Q -> (pow2 (-24) <= Qabs x)%Q.
Proof.
  intros P N. apply Qabs_case; intros S.
  - apply (half_least p); [exact P|]. lra.
  - destruct (half_opp p x P) as (q & Q). apply (half_least q); [exact Q|]. lra.
Qed.

(** What becomes infinite and what becomes 0. *)
Lemma converted_range little to_single d x : 0 <= d < 2 ^ 64 -> ieee_val 11 52 d = FinVal x ->
  exists r, half_of_array little to_single MDouble [d] None = Ok (Some ([r], None)) /\
    ((Qabs x < 65520)%Q <-> exists y, is_half r y) /\ ((Qabs x < pow2 (-25))%Q <-> is_half r 0).
Proof.
  intros D X. destruct (gate_double little to_single [d] None) as (r & i & E & R & I); [constructor; [exact D|constructor]|exact Logic.I|exact Logic.I|].
  inversion R as [|d' r0 ds rs (R0 & H) RS]; subst. inversion RS; subst. destruct i; [destruct I|]. exists r0. split; [exact E|].
  destruct (H ltac:(left; congruence)) as ((_ & A) & _). rewrite X in A. unfold half_away in A.
  assert (P24 : (pow2 (-24) == 1 # 16777216)%Q) by (vm_compute; reflexivity). assert (P25 : (pow2 (-25) == 1 # 33554432)%Q) by (vm_compute; reflexivity).
  destruct (ieee_val 5 10 r0) as [y|s|] eqn:Y; [| |destruct A].
  - destruct A as (L & A). split; [split; [intros _; exists y; split; [exact R0|]; exists y; split; [exact Y|reflexivity]|intros _; exact L]|].
    assert (HY : is_half r0 y) by (split; [exact R0|]; exists y; split; [exact Y|reflexivity]).
    destruct min_is as (M0 & m & M & ME). pose proof (A _ _ M0 M) as (N1 & T1).
    destruct (half_opp _ _ min_is) as (b & B0 & m' & M' & ME'). pose proof (A _ _ B0 M') as (N2 & T2).
    destruct (A 0 _ ltac:(lia) ltac:(vm_compute; reflexivity)) as (N0 & T0). clear A. rewrite ME in N1, T1. rewrite ME' in N2, T2.
    match type of N0 with (_ <= Qabs (?t - _))%Q => assert (Z0 : (t == 0)%Q) by (vm_compute; reflexivity); rewrite Z0 in N0, T0 end.
    rewrite P24 in *. rewrite P25.
    split.
    + intros S. split; [exact R0|]. exists y. split; [exact Y|]. destruct (Qeq_dec y 0) as [|NZ]; [assumption|]. exfalso.
      pose proof (half_min _ _ HY NZ) as LY. rewrite P24 in LY. revert N0 LY S. apply (Qabs_case (y - x)); intros ?; apply (Qabs_case (0 - x)); intros ?; apply (Qabs_case y); intros ?; apply (Qabs_case x); intros; lra.
    + intros (_ & y' & Y' & E0). assert (y' = y) by congruence. subst y'.
      destruct (Qlt_le_dec (Qabs x) (1 # 33554432)) as [|G]; [assumption|]. exfalso.
      rewrite E0 in N1, T1, N2, T2. clear T0 N0.
      assert (Qabs 0 == 0)%Q as Z by reflexivity.
      assert (A1 : (Qabs (1 # 16777216) == 1 # 16777216)%Q) by reflexivity. assert (A2 : (Qabs (- (1 # 16777216)) == 1 # 16777216)%Q) by reflexivity. rewrite Z in T1, T2. rewrite A1 in T1. rewrite A2 in T2.
      revert N1 T1 N2 T2 G. apply (Qabs_case (0 - x)); intros ?; apply (Qabs_case ((1 # 16777216) - x)); intros ?; apply (Qabs_case (- (1 # 16777216) - x)); intros ?; apply (Qabs_case x); intros; try lra;
      first [assert (F : (1 # 16777216 <= 0)%Q) by (apply T1; lra); lra | assert (F : (1 # 16777216 <= 0)%Q) by (apply T2; lra); lra].
  - destruct A as (L & _). split; (split; [intros S; exfalso; lra|]).
    + intros (y & _ & y' & Y' & _). congruence.
    + intros (_ & y' & Y' & _). congruence.
Qed.

(** * The Morton order *)
Lemma col_map {A} k (g : A -> list Z) (h : A -> Z) xs : (forall x, In x xs -> nth_error (g x) k = Some (h x)) -> m_col k (map g xs) = Some (map h xs).
Proof.
  induction xs as [|x xs IH]; intros H; [reflexivity|]. cbn [map]. unfold m_col. cbn [fold_right]. rewrite (H x) by (left; reflexivity).
  fold (m_col k (map g xs)). rewrite IH by (intros y Y; apply H; right; exact Y). reflexivity.
Qed.
Lemma max_map m xs : 0 <= m -> (forall x, In x xs -> x <= m) -> In m xs -> fold_right Z.max 0 xs = m.
Proof.
  intros M L I. assert (U : forall ys, (forall x, In x ys -> x <= m) -> fold_right Z.max 0 ys <= m).
  { induction ys as [|y ys IH]; intros H; cbn [fold_right]; [lia|]. pose proof (H y (or_introl eq_refl)). pose proof (IH (fun x X => H x (or_intror X))). lia. }
  assert (B : forall ys, In m ys -> m <= fold_right Z.max 0 ys).
  { induction ys as [|y ys IH]; intros H; [destruct H|]. cbn [fold_right]. destruct H as [->|H]; [lia|]. pose proof (IH H). lia. }
  pose proof (U xs L). pose proof (B xs I). lia.
Qed.
Lemma combine_maps {A} (f g : A -> Z) xs : combine (map f xs) (map g xs) = map (fun x => (f x, g x)) xs.
Proof. induction xs as [|x xs IH]; [reflexivity|]. cbn [map combine]. rewrite IH. reflexivity. Qed.

Definition ups (n : nat) : list Z := map Z.of_nat (seq 0 (Nat.pow 4 n)).
Lemma pow4 n : Z.of_nat (Nat.pow 4 n) = 4 ^ Z.of_nat n.
Proof. rewrite Nat2Z.inj_pow. reflexivity. Qed.
Lemma ups_in n x : In x (ups n) <-> 0 <= x < 4 ^ Z.of_nat n.
Proof.
  unfold ups. rewrite in_map_iff. setoid_rewrite in_seq. rewrite <- pow4. split; [intros (k & <- & K); lia|].
  intros X. exists (Z.to_nat x). split; [apply Z2Nat.id; lia|]. lia.
Qed.
Lemma ups_nth n i : 0 <= i < 4 ^ Z.of_nat n -> nth_error (ups n) (Z.to_nat i) = Some i.
Proof.
  intros I. rewrite <- pow4 in I. unfold ups. rewrite map_nth_error_seq by lia. f_equal. lia.
Qed.
Lemma ups_max n : fold_right Z.max 0 (ups n) = 4 ^ Z.of_nat n - 1.
Proof.
  assert (0 < 4 ^ Z.of_nat n) by (apply Z.pow_pos_nonneg; lia). apply max_map; [lia| |apply ups_in; lia]. intros x X. apply ups_in in X. lia.
Qed.
Lemma width4 m : m_width 4 (4 ^ Z.of_nat (S m) - 1) = S m.
Proof.
  unfold m_width. change (Z.log2 4) with 2.
  assert (L : Z.log2 (4 ^ Z.of_nat (S m) - 1) = 2 * Z.of_nat m + 1).
  { change 4 with (2 ^ 2). rewrite <- Z.pow_mul_r by lia. rewrite <- Z.sub_1_r || idtac. replace (2 ^ (2 * Z.of_nat (S m)) - 1) with (Z.pred (2 ^ (2 * Z.of_nat (S m)))) by lia.
    rewrite Z.log2_pred_pow2 by lia. lia. }
  rewrite L. replace (2 * Z.of_nat m + 1) with (1 + Z.of_nat m * 2) by lia. rewrite Z.div_add by lia. change (1 / 2) with 0. lia.
Qed.
Lemma digits_nth b w k x : (k < w)%nat -> nth_error (m_digits b w x) k = Some ((x / b ^ Z.of_nat (w - 1 - k)) mod b).
Proof.
  intros K. unfold m_digits. apply (map_nth_error (fun k => (x / b ^ Z.of_nat k) mod b)). rewrite nth_error_nth' with (d := 0%nat) by (rewrite rev_length, seq_length; exact K).
  rewrite rev_nth by (rewrite seq_length; exact K). rewrite seq_length, seq_nth by lia. f_equal. lia.
Qed.
(** Two columns of the base 4 digits. *)
Definition dig (n k : nat) (x : Z) : Z := (x / 4 ^ Z.of_nat (n - 1 - k)) mod 4.
Lemma dig_in n k x : (k < n)%nat -> 0 <= x < 4 ^ Z.of_nat n -> 0 <= dig n k x <= 3.
Proof. intros K X. unfold dig. pose proof (Z.mod_pos_bound (x / 4 ^ Z.of_nat (n - 1 - k)) 4 ltac:(lia)). lia. Qed.
Lemma dig_col n k : (k < n)%nat -> m_col k (dec2base 4 (ups n)) = Some (map (dig n k) (ups n)).
Proof.
  intros K. unfold dec2base. rewrite ups_max. destruct n as [|m]; [lia|]. rewrite width4. apply col_map. intros x _. apply digits_nth. exact K.
Qed.
Lemma dig_max n k : (k < n)%nat -> fold_right Z.max 0 (map (dig n k) (ups n)) = 3.
Proof.
  intros K. apply max_map; [lia| |].
  - intros x X. apply in_map_iff in X. destruct X as (y & <- & Y). apply ups_in in Y. pose proof (dig_in n k y K Y). lia.
  - apply in_map_iff. exists (3 * 4 ^ Z.of_nat (n - 1 - k)). assert (0 < 4 ^ Z.of_nat (n - 1 - k)) by (apply Z.pow_pos_nonneg; lia).
    split; [unfold dig; rewrite Z.div_mul by lia; reflexivity|]. apply ups_in. split; [lia|].
    apply Z.lt_le_trans with (4 ^ Z.of_nat (S (n - 1 - k))); [rewrite Nat2Z.inj_succ, Z.pow_succ_r by lia; lia|]. apply Z.pow_le_mono_r; lia.
Qed.
Lemma bit_col n k j : (k < n)%nat -> (j < 2)%nat -> m_col j (dec2base 2 (map (dig n k) (ups n))) = Some (map (fun x => (dig n k x / 2 ^ Z.of_nat (1 - j)) mod 2) (ups n)).
Proof.
  intros K J. unfold dec2base. rewrite dig_max by exact K. change (m_width 2 3) with 2%nat. rewrite map_map. apply col_map. intros x _.
  rewrite digits_nth by exact J. replace (2 - 1 - j)%nat with (1 - j)%nat by lia. reflexivity.
Qed.
Definition row_of (j : Z) : Z := 2 * ((j / 4) mod 4 / 2 mod 2) + j mod 4 / 2 mod 2.
Definition col_of (j : Z) : Z := 2 * ((j / 4) mod 4 mod 2) + j mod 4 mod 2.
Lemma morton_is m : let n := S (S m) in
  morton n = Some (map (fun x => element n (row_of (x / 4 ^ Z.of_nat m)) (col_of (x / 4 ^ Z.of_nat m))) (ups n)).
Proof.
  intros n. unfold morton. fold (ups n). cbv zeta. rewrite dig_col by (unfold n; lia). cbn [obind]. rewrite dig_col by (unfold n; lia). cbn [obind].
  rewrite !bit_col by (unfold n; lia). cbn [obind]. unfold bin2dec. rewrite !combine_maps, !map_map, combine_maps, map_map. f_equal. apply map_ext. intros x. cbn [fst snd].
  unfold element, row_of, col_of, dig. change (Z.of_nat (1 - 0)) with 1. change (Z.of_nat (1 - 1)) with 0. change (2 ^ 1) with 2. change (2 ^ 0) with 1. rewrite !Z.div_1_r.
  replace (n - 1 - 0)%nat with (S m) by (unfold n; lia). replace (n - 1 - 1)%nat with m by (unfold n; lia).
  assert (E : x / 4 ^ Z.of_nat (S m) = x / 4 ^ Z.of_nat m / 4).
  { rewrite Nat2Z.inj_succ, Z.pow_succ_r by lia. rewrite Z.mul_comm. assert (0 < 4 ^ Z.of_nat m) by (apply Z.pow_pos_nonneg; lia). rewrite Z.div_div by lia. reflexivity. }
  rewrite E. lia.
Qed.
Lemma row_range j : 0 <= row_of j < 4 /\ 0 <= col_of j < 4.
Proof.
  unfold row_of, col_of. pose proof (Z.mod_pos_bound ((j / 4) mod 4 / 2) 2 ltac:(lia)). pose proof (Z.mod_pos_bound (j mod 4 / 2) 2 ltac:(lia)).
  pose proof (Z.mod_pos_bound ((j / 4) mod 4) 2 ltac:(lia)). pose proof (Z.mod_pos_bound (j mod 4) 2 ltac:(lia)). lia.
Qed.
Lemma sixteen (P : Z -> Prop) : P 0 -> P 1 -> P 2 -> P 3 -> P 4 -> P 5 -> P 6 -> P 7 -> P 8 -> P 9 -> P 10 -> P 11 -> P 12 -> P 13 -> P 14 -> P 15 -> forall j, 0 <= j < 16 -> P j.
Proof.
  intros. assert (j = 0 \/ j = 1 \/ j = 2 \/ j = 3 \/ j = 4 \/ j = 5 \/ j = 6 \/ j = 7 \/ j = 8 \/ j = 9 \/ j = 10 \/ j = 11 \/ j = 12 \/ j = 13 \/ j = 14 \/ j = 15) as C by lia.
  repeat (destruct C as [->|C]; [assumption|]). subst j. assumption.
Qed.
Lemma no_bit a k : 0 <= a < 16 -> 4 <= k -> Z.testbit a k = false.
Proof.
  intros A K. destruct (Z.eq_dec a 0) as [->|N]; [apply Z.testbit_0_l|]. apply Z.bits_above_log2; [lia|]. apply Z.log2_lt_pow2; [lia|].
  apply Z.lt_le_trans with (2 ^ 4); [lia|]. apply Z.pow_le_mono_r; lia.
Qed.
Lemma no_bit4 a k : 0 <= a < 4 -> 2 <= k -> Z.testbit a k = false.
Proof.
  intros A K. destruct (Z.eq_dec a 0) as [->|N]; [apply Z.testbit_0_l|]. apply Z.bits_above_log2; [lia|]. apply Z.log2_lt_pow2; [lia|].
  apply Z.lt_le_trans with (2 ^ 2); [lia|]. apply Z.pow_le_mono_r; lia.
Qed.
Lemma row_col j : 0 <= j < 16 -> interleaved (row_of j) (col_of j) j.
Proof.
  intros J k K. pose proof (row_range j) as (R & C). destruct (Z_lt_le_dec k 2) as [L|G].
  - assert (O : k = 0 \/ k = 1) by lia. revert j J R C. refine (sixteen _ _ _ _ _ _ _ _ _ _ _ _ _ _ _ _ _); intros _ _; destruct O as [-> | ->]; vm_compute; split; reflexivity.
  - rewrite (no_bit j (2 * k + 1)), (no_bit j (2 * k)), (no_bit4 (row_of j) k), (no_bit4 (col_of j) k) by lia. split; reflexivity.
Qed.
Lemma above m i : 0 <= i < 4 ^ Z.of_nat (S (S m)) -> 0 <= i / 4 ^ Z.of_nat m < 16.
Proof.
  intros I. assert (0 < 4 ^ Z.of_nat m) by (apply Z.pow_pos_nonneg; lia). split; [apply Z.div_pos; lia|]. apply Z.div_lt_upper_bound; [lia|].
  rewrite !Nat2Z.inj_succ, !Z.pow_succ_r in I by lia. lia.
Qed.
Lemma corner n : (2 <= n)%nat -> exists l, morton n = Some l /\ Z.of_nat (length l) = 4 ^ Z.of_nat n /\
  forall i, 0 <= i < 4 ^ Z.of_nat n -> exists row col, 0 <= row < 4 /\ 0 <= col < 4 /\
    interleaved row col (i / 4 ^ (Z.of_nat n - 2)) /\ nth_error l (Z.to_nat i) = Some (element n row col).
Proof.
  intros N. destruct n as [|[|m]]; [lia|lia|]. eexists. split; [apply morton_is|]. split; [rewrite map_length; unfold ups; rewrite map_length, seq_length; apply pow4|].
  intros i I. pose proof (row_range (i / 4 ^ Z.of_nat m)) as (R & C). pose proof (above m i I) as A.
  exists (row_of (i / 4 ^ Z.of_nat m)), (col_of (i / 4 ^ Z.of_nat m)). replace (Z.of_nat (S (S m)) - 2) with (Z.of_nat m) by lia.
  split; [exact R|]. split; [exact C|]. split; [apply row_col; exact A|]. apply (map_nth_error (fun x => element (S (S m)) (row_of (x / 4 ^ Z.of_nat m)) (col_of (x / 4 ^ Z.of_nat m)))).
  apply ups_nth. exact I.
Qed.
Lemma two_order : exists l, morton 2 = Some l /\ morton_order 2 l /\ goes_through 2 l.
Proof.
  destruct (corner 2 (le_n 2)) as (l & E & L & C). exists l. split; [exact E|]. split.
  - split; [exact L|]. intros i I. destruct (C i I) as (row & col & R & K & B & N). change (i / 4 ^ (Z.of_nat 2 - 2)) with (i / 1) in B. rewrite Z.div_1_r in B.
    exists row, col. change (2 ^ Z.of_nat 2) with 4. repeat split; assumption || lia || (apply B; assumption).
  - assert (LE : l = [1; 5; 2; 6; 9; 13; 10; 14; 3; 7; 4; 8; 11; 15; 12; 16]) by (vm_compute in E; congruence). clear E C L. subst l. split.
    + repeat constructor; cbn [In]; intuition discriminate.
    + intros e. unfold element. change (2 ^ Z.of_nat 2) with 4. cbn [In]. split.
      * intros I. assert (B : 1 <= e <= 16) by lia. exists ((e - 1) mod 4), ((e - 1) / 4). pose proof (Z.mod_pos_bound (e - 1) 4 ltac:(lia)). pose proof (Z.div_mod (e - 1) 4 ltac:(lia)). lia.
      * intros (row & col & R & K & ->). lia.
Qed.
Lemma element_inj n a b c d : 0 <= a < 2 ^ Z.of_nat n -> 0 <= c < 2 ^ Z.of_nat n -> element n a b = element n c d -> a = c /\ b = d.
Proof.
  unfold element. intros A C E. assert (b = d).
  { apply (Z.div_mod_unique (2 ^ Z.of_nat n) b d a c); lia. }
  subst d. lia.
Qed.
Lemma not_order n l : (3 <= n)%nat -> morton n = Some l -> ~ morton_order n l /\ ~ goes_through n l /\ ~ NoDup l /\
  forall row col, 0 <= row < 2 ^ Z.of_nat n -> 0 <= col -> 4 <= row \/ 4 <= col -> ~ In (element n row col) l.
Proof.
  intros N E. destruct (corner n ltac:(lia)) as (l' & E' & L & C). assert (l' = l) by congruence. subst l'. clear E'.
  assert (P8 : 2 ^ 3 <= 2 ^ Z.of_nat n) by (apply Z.pow_le_mono_r; lia). change (2 ^ 3) with 8 in P8.
  assert (P16 : 4 ^ 3 <= 4 ^ Z.of_nat n) by (apply Z.pow_le_mono_r; lia). change (4 ^ 3) with 64 in P16.
  assert (P4 : 4 ^ 1 <= 4 ^ (Z.of_nat n - 2)) by (apply Z.pow_le_mono_r; lia). change (4 ^ 1) with 4 in P4.
  destruct n as [|[|m]]; [lia|lia|]. pose proof (morton_is m) as M. cbv zeta in M. rewrite E in M. injection M as M.
  set (n := S (S m)) in *.
  assert (SAME : nth_error l (Z.to_nat 0) = nth_error l (Z.to_nat 1)).
  { rewrite M. erewrite !map_nth_error by (apply ups_nth; lia). replace (Z.of_nat n - 2) with (Z.of_nat m) in P4 by (unfold n; lia). rewrite !Z.div_small by lia. reflexivity. }
  assert (OUT : forall row col, 0 <= row < 2 ^ Z.of_nat n -> 0 <= col -> 4 <= row \/ 4 <= col -> ~ In (element n row col) l).
  { intros row col R K B I. apply In_nth_error in I. destruct I as (k & I). assert (KL : (k < length l)%nat) by (apply nth_error_Some; congruence).
    destruct (C (Z.of_nat k) ltac:(lia)) as (r & c & R' & K' & _ & I'). rewrite Nat2Z.id, I in I'. injection I' as I'. apply element_inj in I'; [lia|lia|lia]. }
  assert (ND : ~ NoDup l).
  { intros D. rewrite NoDup_nth_error in D. assert (T : Z.to_nat 0 = Z.to_nat 1) by (apply D; [lia|exact SAME]). discriminate T. }
  split; [|split; [intros (D & _); exact (ND D)|split; [exact ND|exact OUT]]].
  intros (_ & O). destruct (O 0 ltac:(lia)) as (r & c & R & K & B & I), (O 1 ltac:(lia)) as (r' & c' & R' & K' & B' & I').
  rewrite SAME, I' in I. injection I as I. apply element_inj in I; [|lia|lia]. destruct I as (_ & ->).
  destruct (B 0 ltac:(lia)) as (_ & X), (B' 0 ltac:(lia)) as (_ & X'). cbn in X, X'. congruence.
Qed.
Lemma small_stops n : (n < 2)%nat -> morton n = None.
Proof. intros N. destruct n as [|[|n]]; [reflexivity|reflexivity|lia]. Qed.
