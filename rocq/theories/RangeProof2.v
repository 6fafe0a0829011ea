(** The table of halves. *)
From Coq Require Import ZArith QArith Qabs Bool List Sorted Permutation Lia Lqa.
From Verif Require Import Res CInt Traits Cfg Spec SpecFloat SpecHalf SpecAny SpecRange SpecDump FloatOps Asimd Soft MatHalf Dump HalfRange QPow Core Arith SpecLemmas EncodeProof Conv1 FloatProof PositFProof AnyProof2 PositFProof3
  SoftProof MatProof MatProof5 MatProof7 DumpProof DumpProof2 DumpProof4 RangeProof.
Import ListNotations.
Open Scope Z_scope.

Lemma half_grid p x : is_half p x -> exists z, (x == dy z (-24))%Q /\ Z.abs z < 2 ^ 40.
Proof.
  intros (P & y & I & X). unfold ieee_val in I. change (2 ^ (5 - 1) - 1) with 15 in I. change (2 ^ 5 - 1) with 31 in I. change (2 ^ 5) with 32 in I. change (2 ^ 10) with 1024 in I.
  pose proof (Z.mod_pos_bound p 1024 ltac:(lia)) as F. pose proof (Z.mod_pos_bound (p / 1024) 32 ltac:(lia)) as E.
  set (f := p mod 1024) in *. set (e := (p / 1024) mod 32) in *. set (sg := if (p / 2 ^ (10 + 5)) mod 2 =? 0 then 1%Q else (-1)%Q) in *.
  assert (SG : (sg == inject_Z 1)%Q \/ (sg == inject_Z (-1))%Q) by (unfold sg; destruct (_ =? 0); [left|right]; reflexivity). clearbody sg.
  assert (K : exists m k, (x == sg * dy m (k - 24))%Q /\ 0 <= m < 2048 /\ 0 <= k <= 29).
  { destruct (Z.eqb_spec e 31); [destruct (f =? 0); discriminate|]. destruct (Z.eqb_spec e 0); injection I as <-.
    - exists f, 0. split; [rewrite <- X; unfold dy; reflexivity|lia].
    - exists (1024 + f), (e - 1). split; [rewrite <- X; unfold dy; replace (e - 1 - 24) with (e - 15 - 10) by lia; reflexivity|lia]. }
  destruct K as (m & k & K & M & KB). assert (B : 0 <= m * 2 ^ k < 2 ^ 40).
  { pose proof (pow2_mono k 29 ltac:(lia)). pose proof (Z.pow_pos_nonneg 2 k ltac:(lia) ltac:(lia)). change (2 ^ 40) with (2048 * 2 ^ 29). nia. }
  assert (D : (dy m (k - 24) == dy (m * 2 ^ k) (-24))%Q) by (rewrite dy_pow by lia; replace (-24 + k) with (k - 24) by lia; reflexivity).
  destruct SG as [SG|SG].
  - exists (m * 2 ^ k). split; [rewrite K, SG, D; ring|lia].
  - exists (- (m * 2 ^ k)). split; [rewrite K, SG, D, <- dy_opp; ring|lia].
Qed.
Lemma grid_float z j : Z.abs z <= 2 ^ 52 -> -60 <= j <= 0 -> is_float 11 52 (dy z j).
Proof.
  intros Z J. assert (P : forall n, 0 <= n <= 2 ^ 52 -> is_float 11 52 (dy n j)).
  { intros n N. apply (is_float_dy 11 52 fmt_d); [change (2 ^ (52 + 1)) with 9007199254740992; change (2 ^ 52) with 4503599627370496 in N; lia|change (2 ^ (11 - 1)) with 1024; lia|].
    apply Qle_lt_trans with (dy (2 ^ 52) j); [apply dy_le; lia|]. unfold dy. rewrite <- pow2_Z by lia. rewrite <- pow2_plus. apply pow2_lt. change (2 ^ (11 - 1)) with 1024. lia. }
  destruct (Z_le_gt_dec 0 z) as [G|G]; [apply P; lia|].
  apply (is_float_comp 11 52 (- dy (- z) j)); [rewrite <- dy_opp; ring|]. apply (is_float_opp 11 52 fmt_d). apply P. lia.
Qed.
Lemma half_dy z j : (dy z j / 2 == dy z (j - 1))%Q.
Proof. unfold dy. rewrite pow2_sub. change (pow2 1) with (2 # 1)%Q. field. Qed.
Lemma half_diff p q x y : is_half p x -> is_half q y -> is_float 11 52 (y - x) /\ is_float 11 52 ((y - x) / 2) /\ exists z, ((y - x) / 2 == dy z (-25))%Q.
Proof.
  intros P Q. destruct (half_grid p x P) as (a & A & AB), (half_grid q y Q) as (b & B & BB).
  assert (D : (y - x == dy (b - a) (-24))%Q) by (rewrite A, B; unfold Qminus; rewrite dy_opp, dy_add; f_equiv; reflexivity).
  change (2 ^ 40) with 1099511627776 in *. split; [|split].
  - apply (is_float_comp 11 52 (dy (b - a) (-24))); [symmetry; exact D|]. apply grid_float; [change (2 ^ 52) with 4503599627370496|]; lia.
  - apply (is_float_comp 11 52 (dy (b - a) (-25))); [rewrite D; symmetry; apply half_dy|]. apply grid_float; [change (2 ^ 52) with 4503599627370496|]; lia.
  - exists (b - a). rewrite D. apply half_dy.
Qed.
(** Halves with one value other than 0 are the same. *)
Lemma half_code p x : is_half p x -> exists (s : bool) g, 0 <= g /\ p = g + (if s then 2 ^ 15 else 0) /\ (x == sgq s (mval 5 10 g))%Q.
Proof. intros (P & y & I & X). destruct (ieee_code_inv 5 10 fmt_h p y P I) as (s & g & G & E & V). exists s, g. split; [lia|]. split; [exact E|]. rewrite <- X. exact V. Qed.
Lemma half_inj p q x y : is_half p x -> is_half q y -> (x == y)%Q -> ~ (x == 0)%Q -> p = q.
Proof.
  intros P Q E N. destruct (half_code p x P) as (s & g & G & PE & V), (half_code q y Q) as (t & k & K & QE & W).
  assert (G0 : 0 < g). { destruct (Z.eq_dec g 0) as [->|]; [|lia]. exfalso. apply N. rewrite V. pose proof (mval_0 5 10 fmt_h). destruct s; cbn [sgq]; lra. }
  assert (K0 : 0 < k). { destruct (Z.eq_dec k 0) as [->|]; [|lia]. exfalso. apply N. rewrite E, W. pose proof (mval_0 5 10 fmt_h). destruct t; cbn [sgq]; lra. }
  pose proof (mval_pos 5 10 fmt_h g G0). pose proof (mval_pos 5 10 fmt_h k K0).
  assert (EQ : s = t /\ (mval 5 10 g == mval 5 10 k)%Q) by (destruct s, t; cbn [sgq] in V, W; (split; [try reflexivity; exfalso; lra|lra])).
  destruct EQ as (-> & EQ). rewrite PE, QE. f_equal. apply mval_inj; [lia|lia|exact EQ].
Qed.
Lemma half_zero p x : is_half p x -> (x == 0)%Q -> p = 0 \/ p = 2 ^ 15.
Proof.
  intros P E. destruct (half_code p x P) as (s & g & G & PE & V). destruct (Z.eq_dec g 0) as [->|N]; [destruct s; [right|left]; exact PE|].
  pose proof (mval_pos 5 10 fmt_h g ltac:(lia)). destruct s; cbn [sgq] in V; lra.
Qed.
Lemma half_least p x : is_half p x -> (0 < x)%Q -> (pow2 (-24) <= x)%Q.
Proof.
  intros P X. destruct (half_grid p x P) as (z & Z & _). assert (0 < z). { apply (dy_lt_inv _ _ (-24)). rewrite dy_0, <- Z. exact X. }
  rewrite Z. apply Qle_trans with (dy 1 (-24)); [unfold dy; change (inject_Z 1) with 1%Q; lra|]. apply dy_le. lia.
Qed.
Lemma half_opp p x : is_half p x -> exists q, is_half q (- x).
Proof.
  intros (P & y & I & X). destruct (ieee_code_inv 5 10 fmt_h p y P I) as (s & g & G & E & V).
  destruct (ieee_code 5 10 fmt_h (negb s) g G) as (q & J & Q). eexists. split; [|exists q; split; [exact J|]].
  - change ((2 ^ 5 - 1) * 2 ^ 10) with 31744 in G. change (2 ^ 16) with 65536. change (2 ^ (5 + 10)) with 32768. destruct s; cbn [negb]; lia.
  - rewrite Q, <- X, V. destruct s; cbn [negb sgq]; ring.
Qed.

Lemma is_half_comp p x y : (x == y)%Q -> is_half p x -> is_half p y.
Proof. intros E (P & z & I & Z). split; [exact P|]. exists z. split; [exact I|]. rewrite Z. exact E. Qed.
Lemma is_half_val p x y : is_half p x -> is_half p y -> (x == y)%Q.
Proof. intros (_ & a & I & A) (_ & b & J & B). rewrite I in J. injection J as ->. rewrite <- A, <- B. reflexivity. Qed.

Lemma sorted_nth {A} (R : A -> A -> Prop) l : StronglySorted R l -> forall i j a b, (i < j)%nat -> nth_error l i = Some a -> nth_error l j = Some b -> R a b.
Proof.
  induction 1 as [|x l S IH H]; intros i j a b L I J; [destruct i; discriminate|]. destruct j as [|j]; [lia|]. cbn [nth_error] in J. destruct i as [|i]; cbn [nth_error] in I.
  - injection I as ->. rewrite Forall_forall in H. apply H. eapply nth_error_In, J.
  - apply (IH i j); [lia|assumption|assumption].
Qed.
Lemma forall2_nth {A B} (R : A -> B -> Prop) l l' : Forall2 R l l' -> forall i a, nth_error l i = Some a -> exists b, nth_error l' i = Some b /\ R a b.
Proof. induction 1 as [|a b l l' H F IH]; intros [|i] c C; cbn [nth_error] in *; try discriminate; [injection C as <-; eauto|eauto]. Qed.
Lemma map_nth_error_seq {B} (f : nat -> B) n i : (i < n)%nat -> nth_error (map f (seq 0 n)) i = Some (f i).
Proof. intros L. apply map_nth_error. rewrite (nth_error_nth' _ 0%nat) by (rewrite seq_length; exact L). rewrite seq_nth by exact L. reflexivity. Qed.

Lemma few u n : NoDup u -> (forall p, In p u -> 0 <= p < Z.of_nat n) -> (length u <= n)%nat.
Proof. intros N I. pose proof (NoDup_incl_length N (fun p P => proj2 (up_in n p) (I p P))) as L. rewrite map_length, seq_length in L. exact L. Qed.

Section t.
Context (rnd : Q -> Z) (RN : rounding 11 52 rnd).
Context (little : bool) (fs : mclass -> Z -> Z) (mi ma : Z) (lo hi : Q) (LO : is_double mi lo) (HI : is_double ma hi).
Context (u h : list Z) (UH : halfinrange little fs mi ma = Ok (Some (u, h))).

Lemma facts : Forall2 (same_number 11 52) u h /\ NoDup u /\ StronglySorted half_before u /\ (forall p, In p u <-> half_within mi ma p).
Proof using UH. destruct (range_ok little fs mi ma) as (u' & h' & E & F). rewrite UH in E. injection E as <- <-. exact F. Qed.
Lemma within_val p : half_within mi ma p <-> exists x, is_half p x /\ (lo <= x)%Q /\ (x <= hi)%Q.
Proof using LO HI.
  destruct LO as (_ & a & I & A), HI as (_ & b & J & B). unfold half_within, is_half. rewrite I, J. split.
  - intros (P & L & H). destruct (ieee_val 5 10 p) as [x|[]|]; cbn [ext_le] in L, H; try tauto. exists x. split; [split; [exact P|]; exists x; split; [reflexivity|lra]|]. rewrite <- A, <- B. split; assumption.
  - intros (x & (P & y & K & Y) & L & H). split; [exact P|]. rewrite K. cbn [ext_le]. rewrite A, B, Y. split; assumption.
Qed.
Lemma row_val i p : nth_error u i = Some p -> exists x d, is_half p x /\ (lo <= x)%Q /\ (x <= hi)%Q /\ nth_error h i = Some d /\ is_double d x.
Proof using LO HI UH.
  intros P. destruct facts as (F & _ & _ & W). destruct (forall2_nth _ _ _ F i p P) as (d & D & (B & S & _)).
  pose proof (proj1 (within_val p) (proj1 (W p) (nth_error_In _ _ P))) as (x & X & L & H). exists x, d. repeat split; try assumption; try apply X; try apply B.
  destruct X as (_ & y & I & Y). rewrite I in S. destruct (ieee_val 11 52 d) as [z| |]; cbn [same_ext] in S; try discriminate. exists z. split; [reflexivity|]. rewrite S. exact Y.
Qed.
Lemma row_in p x : is_half p x -> (lo <= x)%Q -> (x <= hi)%Q -> exists i, nth_error u i = Some p.
Proof using LO HI UH. intros P L H. apply In_nth_error. apply facts. apply within_val. eauto. Qed.
Lemma row_le i j p q x y : (i < j)%nat -> nth_error u i = Some p -> nth_error u j = Some q -> is_half p x -> is_half q y -> (x <= y)%Q /\ ((x == y)%Q -> p < q).
Proof using UH.
  intros L P Q (_ & a & I & A) (_ & b & J & B). destruct facts as (_ & _ & S & _). destruct (sorted_nth _ _ S i j p q L P Q) as (H1 & H2). rewrite I, J in *. cbn [ext_le] in *.
  split; [lra|]. intros E. apply H2. lra.
Qed.

Lemma res_row i p1 p2 x y : nth_error u i = Some p1 -> nth_error u (i + 2) = Some p2 -> is_half p1 x -> is_half p2 y ->
  exists r, nth_error (meandiff rnd h) (i + 1) = Some r /\ is_double r ((y - x) / 2).
Proof using LO HI UH RN.
  intros P1 P2 X Y. destruct (row_val i p1 P1) as (x' & d1 & X' & _ & _ & D1 & DX), (row_val _ p2 P2) as (y' & d2 & Y' & _ & _ & D2 & DY).
  apply (is_double_comp _ _ _ (is_half_val _ _ _ X' X)) in DX. apply (is_double_comp _ _ _ (is_half_val _ _ _ Y' Y)) in DY.
  destruct (half_diff p1 p2 x y X Y) as (F1 & F2 & _). eexists. split; [apply meandiff_nth; eassumption|].
  apply (half_exact rnd RN); [|exact F2]. apply (sub_exact rnd RN); assumption.
Qed.
(** The neighbours of a row with another number than 0. *)
Lemma next_rows i p q x y : nth_error u i = Some p -> nth_error u (S i) = Some q -> is_half p x -> is_half q y -> ~ (x == 0 /\ y == 0)%Q -> half_next x y.
Proof using LO HI UH.
  intros P Q X Y N. destruct (row_le i (S i) p q x y ltac:(lia) P Q X Y) as (L & E).
  assert (LT : (x < y)%Q).
  { destruct (Qlt_le_dec x y) as [|G]; [assumption|]. assert (XY : (x == y)%Q) by lra. exfalso. assert (p = q); [|specialize (E XY); lia]. apply (half_inj p q x y X Y XY). intros Z. apply N. split; lra. }
  split; [exact LT|]. split; [eauto|]. split; [eauto|]. intros r z R (Z1 & Z2).
  destruct (row_val i p P) as (x' & _ & X' & L1 & _ & _), (row_val _ q Q) as (y' & _ & Y' & _ & L2 & _).
  pose proof (is_half_val _ _ _ X' X). pose proof (is_half_val _ _ _ Y' Y).
  destruct (row_in r z R ltac:(lra) ltac:(lra)) as (j & J). destruct (Nat.lt_trichotomy j i) as [C|[C|C]].
  - destruct (row_le j i r p z x C J P R X) as (K & _). lra.
  - subst j. rewrite P in J. injection J as <-. pose proof (is_half_val _ _ _ X R). lra.
  - destruct (Nat.eq_dec j (S i)) as [C'|C']; [subst j; rewrite Q in J; injection J as <-; pose proof (is_half_val _ _ _ Y R); lra|].
    destruct (row_le (S i) j q r y z ltac:(lia) Q J Y R) as (K & _). lra.
Qed.

Context (t : table) (s : summary) (TS : half_table rnd u h = Some (t, s)).
Lemma table_is : t = Tab (map (fun i => rnd (inject_Z (2 * Z.of_nat i - Z.of_nat (length u)) / 2)%Q) (seq 0 (length u))) (map (fun p => rnd (inject_Z p)) u) h (meandiff rnd h) /\ describetab t = Some s.
Proof using TS. unfold half_table in TS. cbv zeta in TS. destruct (describetab _) as [s'|] eqn:D; [|discriminate]. injection TS as <- <-. split; [reflexivity|exact D]. Qed.
Lemma uh_len : length h = length u.
Proof using UH. symmetry. eapply Forall2_len, facts. Qed.
Lemma table_rect : rectangular t.
Proof using UH TS. destruct table_is as (-> & _). unfold rectangular. cbn [t_signed t_unsigned t_float t_res]. rewrite meandiff_len, !map_length, seq_length, uh_len. auto. Qed.
Lemma signed_len : length (t_signed t) = length u.
Proof using TS. destruct table_is as (-> & _). cbn [t_signed]. rewrite map_length, seq_length. reflexivity. Qed.
Lemma length_small : Z.of_nat (length u) <= 65536.
Proof using UH.
  destruct facts as (_ & N & _ & W). destruct (Z_of_nat_complete 65536 ltac:(lia)) as (n & NE). rewrite NE. apply Nat2Z.inj_le. apply few; [exact N|].
  intros p P. apply W in P. rewrite <- NE. apply P.
Qed.
Lemma cols_ok : forall i p, nth_error u i = Some p -> exists a b d x,
  nth_error (t_signed t) i = Some a /\ is_double a (inject_Z (Z.of_nat i) - inject_Z (Z.of_nat (length u)) / 2)%Q /\
  nth_error (t_unsigned t) i = Some b /\ is_double b (inject_Z p) /\ nth_error (t_float t) i = Some d /\ is_double d x /\ is_half p x.
Proof using RN LO HI UH TS.
  intros i p P. destruct table_is as (-> & _). cbn [t_signed t_unsigned t_float]. destruct (row_val i p P) as (x & d & X & _ & _ & D & DX).
  assert (L : (i < length u)%nat) by (apply nth_error_Some; congruence). pose proof length_small as LS.
  eexists _, _, d, x. split; [apply map_nth_error_seq; exact L|]. split; [|split; [apply map_nth_error; exact P|]; split; [|auto]].
  - set (n := Z.of_nat (length u)) in *. set (k := Z.of_nat i). assert (K : 0 <= k < n) by (unfold k, n; lia).
    assert (E : (inject_Z (2 * k - n) / 2 == dy (2 * k - n) (-1))%Q) by (unfold dy; change (pow2 (-1)) with (1 # 2)%Q; field).
    apply (is_double_comp _ (dy (2 * k - n) (-1))).
    { rewrite <- E. unfold Zminus. rewrite inject_Z_plus, inject_Z_opp, inject_Z_mult. change (inject_Z 2) with 2%Q. field. }
    apply val_is_double; [exact (rn_range _ _ _ RN _)|]. eapply same_trans; [apply (rnd_same rnd RN); exact E|].
    apply (round_exact 11 52 rnd RN). apply grid_float; [change (2 ^ 52) with 4503599627370496|]; lia.
  - apply (int_is rnd RN). destruct X as (B & _). change (2 ^ 16) with 65536 in B. change (2 ^ 53) with 9007199254740992. lia.
Qed.
Lemma res_ends : ~ u = [] -> (exists r, nth_error (t_res t) 0 = Some r /\ ieee_val 11 52 r = NaNVal) /\ (exists r, nth_error (t_res t) (length u - 1) = Some r /\ ieee_val 11 52 r = NaNVal).
Proof using UH TS.
  intros N. destruct table_is as (-> & _). cbn [t_res]. assert (HN : h <> []) by (intros E; pose proof uh_len as L; rewrite E in L; destruct u; [congruence|discriminate]).
  destruct (meandiff_ends rnd h HN) as (A & B). rewrite uh_len in B. split; eexists; (split; [eassumption|]); vm_compute; reflexivity.
Qed.
Lemma res_ok2 i p y : nth_error u i = Some p -> is_half p y -> ~ (y == 0)%Q -> (0 < i)%nat -> (i < length u - 1)%nat ->
  exists r x z, nth_error (t_res t) i = Some r /\ half_next x y /\ half_next y z /\ is_double r ((z - x) / 2)%Q.
Proof using RN LO HI UH TS.
  intros P Y N I1 I2. destruct i as [|i]; [lia|]. destruct table_is as (-> & _). cbn [t_res].
  destruct (nth_error u i) as [p1|] eqn:P1; [|apply nth_error_None in P1; lia]. destruct (nth_error u (S (S i))) as [p2|] eqn:P2; [|apply nth_error_None in P2; lia].
  destruct (row_val i p1 P1) as (x & _ & X & _ & _ & _), (row_val _ p2 P2) as (z & _ & Z & _ & _ & _).
  destruct (res_row i p1 p2 x z P1 ltac:(rewrite Nat.add_comm; exact P2) X Z) as (r & R & D). exists r, x, z. rewrite Nat.add_comm in R. split; [exact R|].
  split; [eapply (next_rows i p1 p); try eassumption; tauto|]. split; [eapply (next_rows (S i) p p2); try eassumption; tauto|exact D].
Qed.
(** Every finite resolution. *)
Lemma res_inv r : In r (t_res t) -> ieee_val 11 52 r <> NaNVal -> exists i p1 p2 x y, nth_error u i = Some p1 /\ nth_error u (i + 2) = Some p2 /\ is_half p1 x /\ is_half p2 y /\ is_double r ((y - x) / 2)%Q.
Proof using RN LO HI UH TS.
  intros R N. destruct table_is as (E & _). rewrite E in R. cbn [t_res] in R. apply In_nth_error in R. destruct R as (j & R).
  assert (J : (j < length u)%nat) by (rewrite <- uh_len, <- (meandiff_len rnd h); apply nth_error_Some; congruence).
  assert (HN : h <> []) by (intros EH; rewrite EH in R; destruct j; discriminate). destruct (meandiff_ends rnd h HN) as (A & B). rewrite uh_len in B.
  assert (NN : ieee_val 11 52 m_nan = NaNVal) by (vm_compute; reflexivity).
  destruct j as [|j]; [rewrite A in R; injection R as <-; congruence|]. destruct (Nat.eq_dec (S j) (length u - 1)) as [JE|JE]; [rewrite <- JE, R in B; injection B as ->; congruence|].
  destruct (nth_error u j) as [p1|] eqn:P1; [|apply nth_error_None in P1; lia]. destruct (nth_error u (j + 2)) as [p2|] eqn:P2; [|apply nth_error_None in P2; lia].
  destruct (row_val j p1 P1) as (x & _ & X & _ & _ & _), (row_val _ p2 P2) as (y & _ & Y & _ & _ & _).
  destruct (res_row j p1 p2 x y P1 P2 X Y) as (r' & R' & D). rewrite Nat.add_comm in R'. cbn [plus] in R'. rewrite R in R'. injection R' as <-. exists j, p1, p2, x, y. auto.
Qed.

(** The rows of the zeros. *)
Hypothesis ZL : (lo <= - pow2 (-24))%Q.
Hypothesis ZH : (pow2 (-24) <= hi)%Q.
Lemma tiny_half : is_half 1 (pow2 (-24)) /\ is_half (2 ^ 15 + 1) (- pow2 (-24)) /\ is_half 0 0 /\ is_half (2 ^ 15) 0.
Proof using. repeat split; try (cbn; lia); (eexists; split; vm_compute; reflexivity). Qed.
Lemma least_next : half_next (- pow2 (-24)) 0 /\ half_next 0 (pow2 (-24)).
Proof using.
  destruct tiny_half as (A & B & C & _). pose proof (pow2_pos (-24)). split; (split; [lra|]); (split; [eauto|]); (split; [eauto|]).
  - intros r z R (Z1 & Z2). destruct (half_opp r z R) as (q & Q). pose proof (half_least q _ Q ltac:(lra)). lra.
  - intros r z R (Z1 & Z2). pose proof (half_least r z R Z1). lra.
Qed.
Lemma zero_rows : exists i, nth_error u i = Some (2 ^ 15 + 1) /\ nth_error u (S i) = Some 0 /\ nth_error u (S (S i)) = Some (2 ^ 15) /\ nth_error u (S (S (S i))) = Some 1.
Proof using LO HI UH ZL ZH.
  destruct tiny_half as (A & B & C & D). pose proof (pow2_pos (-24)) as P.
  destruct (row_in 1 _ A ltac:(lra) ltac:(lra)) as (i1 & I1), (row_in _ _ B ltac:(lra) ltac:(lra)) as (i2 & I2), (row_in 0 0 C ltac:(lra) ltac:(lra)) as (i3 & I3), (row_in _ 0 D ltac:(lra) ltac:(lra)) as (i4 & I4).
  assert (LT : forall i j p q x y, nth_error u i = Some p -> nth_error u j = Some q -> is_half p x -> is_half q y -> (x < y)%Q \/ (x == y)%Q /\ p < q -> (i < j)%nat).
  { intros i j p q x y U1 U2 X Y R. destruct (Nat.lt_trichotomy i j) as [L|[L|L]]; [exact L| |]; exfalso.
    - subst j. rewrite U1 in U2. injection U2 as <-. pose proof (is_half_val _ _ _ X Y). destruct R as [R|[_ R]]; [lra|lia].
    - destruct (row_le j i q p y x L U2 U1 Y X) as (K1 & K2). destruct R as [R|[R1 R2]]; [lra|]. specialize (K2 ltac:(lra)). lia. }
  pose proof (LT _ _ _ _ _ _ I2 I3 B C ltac:(left; lra)) as L1. pose proof (LT _ _ _ _ _ _ I3 I4 C D ltac:(right; split; [reflexivity|lia])) as L2.
  pose proof (LT _ _ _ _ _ _ I4 I1 D A ltac:(left; lra)) as L3.
  (* nothing lies between *)
  assert (BT : forall j r z, nth_error u j = Some r -> is_half r z -> (i2 < j < i1)%nat -> r = 0 \/ r = 2 ^ 15).
  { intros j r z J R (J1 & J2). destruct (row_le i2 j _ _ _ _ J1 I2 J B R) as (K1 & K1'), (row_le j i1 _ _ _ _ J2 J I1 R A) as (K2 & K2').
    apply (half_zero r z R). destruct (Qlt_le_dec 0 z) as [Z|Z].
    - pose proof (half_least r z R Z). assert (E : (z == pow2 (-24))%Q) by lra. specialize (K2' E). pose proof (half_inj r 1 _ _ R A E ltac:(lra)). lia.
    - destruct (Qlt_le_dec z 0) as [Z'|Z']; [|lra]. destruct (half_opp r z R) as (q & Q). pose proof (half_least q _ Q ltac:(lra)). assert (E : (- pow2 (-24) == z)%Q) by lra.
      specialize (K1' E). pose proof (half_inj _ r _ _ B R E ltac:(lra)). lia. }
  assert (ND : NoDup u) by apply facts.
  assert (UN : forall j k r, nth_error u j = Some r -> nth_error u k = Some r -> j = k).
  { intros j k r J K. apply (proj1 (NoDup_nth_error u) ND); [apply nth_error_Some; congruence|congruence]. }
  assert (LEN : (i1 < length u)%nat) by (apply nth_error_Some; congruence).
  assert (AT : forall j, (i2 < j < i1)%nat -> j = i3 \/ j = i4).
  { intros j J. destruct (nth_error u j) as [r|] eqn:R; [|apply nth_error_None in R; lia]. destruct (row_val j r R) as (z & _ & Z & _). destruct (BT j r z R Z J) as [->| ->]; [left|right]; eapply UN; eassumption. }
  assert (E1 : i3 = S i2) by (destruct (AT (S i2) ltac:(lia)); lia).
  assert (E2 : i4 = S i3) by (destruct (Nat.eq_dec i4 (S i3)); [assumption|]; destruct (AT (S i3) ltac:(lia)); lia).
  assert (E3 : i1 = S i4) by (destruct (Nat.eq_dec i1 (S i4)); [assumption|]; destruct (AT (S i4) ltac:(lia)); lia).
  exists i2. subst i3 i4 i1. repeat split; assumption.
Qed.
Lemma zero_res : (exists i r, nth_error u i = Some 0 /\ nth_error (t_res t) i = Some r /\ is_double r (pow2 (-25))) /\
  (exists i r, nth_error u i = Some (2 ^ 15) /\ nth_error (t_res t) i = Some r /\ is_double r (pow2 (-25))) /\ is_double (s_minres s) (pow2 (-25)).
Proof using RN LO HI UH TS ZL ZH.
  destruct zero_rows as (i & R1 & R2 & R3 & R4). destruct tiny_half as (A & B & C & D). destruct table_is as (E & DS).
  assert (HP : (pow2 (-24) / 2 == pow2 (-25))%Q) by (vm_compute; reflexivity).
  destruct (res_row i _ _ _ _ R1 ltac:(rewrite Nat.add_comm; exact R3) B D) as (r & RR & RD). rewrite Nat.add_comm in RR. cbn [plus] in RR.
  destruct (res_row (S i) _ _ _ _ R2 ltac:(rewrite Nat.add_comm; exact R4) C A) as (r2 & RR2 & RD2). rewrite Nat.add_comm in RR2. cbn [plus] in RR2.
  apply (is_double_comp _ _ (pow2 (-25))) in RD; [|rewrite <- HP; unfold Qdiv; ring]. apply (is_double_comp _ _ (pow2 (-25))) in RD2; [|rewrite <- HP; unfold Qdiv; ring].
  assert (T : t_res t = meandiff rnd h) by (rewrite E; reflexivity). rewrite T. split; [exists (S i), r; auto|]. split; [exists (S (S i)), r2; auto|].
  assert (FD : forall d, In d (t_float t) -> dbl d).
  { intros d DI. rewrite E in DI. cbn [t_float] in DI. apply In_nth_error in DI. destruct DI as (j & J). assert (JL : (j < length u)%nat) by (rewrite <- uh_len; apply nth_error_Some; congruence).
    destruct (nth_error u j) as [p|] eqn:P; [|apply nth_error_None in P; lia]. destruct (row_val j p P) as (x & d' & _ & _ & _ & J' & K). rewrite J in J'. injection J' as <-. apply K. }
  destruct (describe_ok t s FD DS) as (_ & _ & (LI & (v & LV) & LL) & _). destruct (res_inv _ LI ltac:(congruence)) as (j & p1 & p2 & x & y & P1 & P2 & X & Y & RY).
  assert (XY : (x < y)%Q).
  { assert (J1 : exists p, nth_error u (S j) = Some p) by (destruct (nth_error u (S j)) as [p|] eqn:P; [eauto|]; apply nth_error_None in P; assert (j + 2 < length u)%nat by (apply nth_error_Some; congruence); lia).
    destruct J1 as (p & P). destruct (row_val _ p P) as (z & _ & Z & _). destruct (row_le j (S j) _ _ _ _ ltac:(lia) P1 P X Z) as (K1 & K1'), (row_le (S j) (j + 2) _ _ _ _ ltac:(lia) P P2 Z Y) as (K2 & K2').
    destruct (Qlt_le_dec x y) as [|G]; [assumption|]. exfalso. assert (E1 : (x == z)%Q) by lra. assert (E2 : (z == y)%Q) by lra. specialize (K1' E1). specialize (K2' E2).
    assert (Z0 : (z == 0)%Q). { destruct (Qeq_dec z 0) as [|NZ]; [assumption|]. pose proof (half_inj _ _ _ _ X Z E1 ltac:(lra)). lia. }
    destruct (half_zero _ _ X ltac:(lra)), (half_zero _ _ Z Z0), (half_zero _ _ Y ltac:(lra)); lia. }
  assert (GE : (pow2 (-25) <= (y - x) / 2)%Q).
  { destruct (half_diff _ _ _ _ X Y) as (_ & _ & z & Z). assert (0 < z). { apply (dy_lt_inv _ _ (-25)). rewrite dy_0, <- Z. unfold Qdiv. change (/ 2)%Q with (1 # 2)%Q. lra. }
    rewrite Z. apply Qle_trans with (dy 1 (-25)); [unfold dy; change (inject_Z 1) with 1%Q; lra|]. apply dy_le. lia. }
  pose proof RD as (_ & w & W & WE). assert (RI : In r (t_res t)) by (rewrite T; eapply nth_error_In, RR).
  pose proof (LL r w RI W) as LE. pose proof RY as (_ & v' & V' & VE). rewrite V' in LE. cbn [ext_le] in LE. apply (is_double_comp _ ((y - x) / 2)); [|exact RY]. lra.
Qed.
End t.
