(** Double arithmetic, greatest and least entries. *)
From Coq Require Import ZArith QArith Qabs Bool List String Ascii Sorted Lia Lqa.
From Verif Require Import Res CInt Traits Unpacked Cfg Spec SpecFloat SpecAny Posit FloatOps AnyFloat Asimd Soft ListP Dump SpecDump QPow Core Arith SpecLemmas DecodeProof EncodeProof UOps UAdd
  Final1 Final4 Conv1 Conv5 FloatProof PositFProof PositFProof2 AnyProof AnyProof2 AnyProof3 SoftProof ListProof DumpProof.
Import ListNotations.
Open Scope Z_scope.

Definition dbl (d : Z) : Prop := 0 <= d < 2 ^ 64.
Lemma is_double_dbl d q : is_double d q -> dbl d. Proof. intros [A _]. exact A. Qed.
Lemma is_double_comp d p q : (p == q)%Q -> is_double d p -> is_double d q.
Proof. intros E (B & x & I & X). split; [exact B|]. exists x. split; [exact I|]. rewrite X. exact E. Qed.
Lemma is_double_val d q : is_double d q -> same_ext (ieee_val 11 52 d) (FinVal q).
Proof. intros (_ & x & I & X). rewrite I. exact X. Qed.
Lemma val_is_double d q : dbl d -> same_ext (ieee_val 11 52 d) (FinVal q) -> is_double d q.
Proof. intros B H. split; [exact B|]. destruct (ieee_val 11 52 d) as [x| |]; cbn [same_ext] in H; try discriminate. exists x. split; [reflexivity|exact H]. Qed.
Lemma is_double_inj d p q : is_double d p -> is_double d q -> (p == q)%Q.
Proof. intros (_ & x & I & X) (_ & y & J & Y). rewrite I in J. injection J as ->. rewrite <- X, <- Y. reflexivity. Qed.
Lemma is_double_float d q : is_double d q -> is_float 11 52 q.
Proof. intros (B & x & I & X). exists d, x. repeat split; try apply B; assumption. Qed.

Section r.
Context (rnd : Q -> Z).
Hypothesis RN : rounding 11 52 rnd.

Lemma rnd_dbl q : dbl (rnd q). Proof using RN. exact (rn_range _ _ _ RN q). Qed.
Lemma rnd_same p q : (p == q)%Q -> same_ext (ieee_val 11 52 (rnd p)) (ieee_val 11 52 (rnd q)).
Proof using RN. intros E. exact (round_same 11 52 rnd RN (FinVal p) (FinVal q) E). Qed.
Lemma opp_ok b y : is_double b y -> is_double (Z.lxor b (2 ^ 63)) (- y).
Proof using.
  intros B. destruct (neg_val 11 52 fmt_d b (is_double_dbl _ _ B)) as (A1 & A2 & _). unfold af_neg in *. rewrite (proj1 (sbit 11 52 fmt_d)) in *. change (11 + 52) with 63 in *.
  apply val_is_double; [exact A1|]. eapply same_trans; [exact A2|]. destruct B as (_ & x & I & X). rewrite I. cbn [x_opp same_ext]. rewrite X. reflexivity.
Qed.
Lemma sub_ok a b x y : is_double a x -> is_double b y -> dbl (m_sub rnd a b) /\ same_ext (ieee_val 11 52 (m_sub rnd a b)) (ieee_val 11 52 (rnd (x - y))).
Proof using RN.
  intros A B. apply opp_ok in B. unfold m_sub. destruct (f_add_gives 11 52 rnd fmt_d RN a _ (is_double_dbl _ _ A) (is_double_dbl _ _ B)) as (G1 & G2 & _).
  split; [exact G1|]. rewrite G2. destruct A as (_ & p & I & P), B as (_ & q & J & Q). rewrite I, J. cbn [x_add x_round]. apply rnd_same. rewrite P, Q. ring.
Qed.
Lemma sub_exact a b x y : is_double a x -> is_double b y -> is_float 11 52 (x - y) -> is_double (m_sub rnd a b) (x - y).
Proof using RN.
  intros A B F. destruct (sub_ok a b x y A B) as (G1 & G2). apply val_is_double; [exact G1|]. eapply same_trans; [exact G2|].
  exact (round_exact 11 52 rnd RN (x - y) F).
Qed.
Lemma half_ok a x : is_double a x -> dbl (m_half rnd a) /\ same_ext (ieee_val 11 52 (m_half rnd a)) (ieee_val 11 52 (rnd (x / 2))).
Proof using RN.
  intros A. unfold m_half. assert (T : ieee_val 11 52 0x4000000000000000 = FinVal (1 * (inject_Z (2 ^ 52) * pow2 (-51)))) by (vm_compute; reflexivity).
  assert (TV : (1 * (inject_Z (2 ^ 52) * pow2 (-51)) == 2)%Q) by (vm_compute; reflexivity).
  set (t := (1 * (inject_Z (2 ^ 52) * pow2 (-51)))%Q) in *. clearbody t.
  destruct (f_div_gives 11 52 rnd fmt_d RN a 0x4000000000000000 (is_double_dbl _ _ A)) as (G1 & G2 & _).
  { cbn. lia. }
  { intros q J Z. rewrite T in J. injection J as <-. lra. }
  split; [exact G1|]. rewrite G2. destruct A as (_ & p & I & P). rewrite I, T. cbn [x_div].
  rewrite (proj2 (zero_q_false t)) by lra. cbn [x_round]. apply rnd_same. rewrite P, TV. reflexivity.
Qed.
Lemma half_exact a x : is_double a x -> is_float 11 52 (x / 2) -> is_double (m_half rnd a) (x / 2).
Proof using RN.
  intros A F. destruct (half_ok a x A) as (G1 & G2). apply val_is_double; [exact G1|]. eapply same_trans; [exact G2|]. exact (round_exact 11 52 rnd RN (x / 2) F).
Qed.
Lemma sq_ok a x : is_double a x -> dbl (m_sq rnd a) /\ same_ext (ieee_val 11 52 (m_sq rnd a)) (ieee_val 11 52 (rnd (x * x))).
Proof using RN.
  intros A. unfold m_sq. destruct (f_mul_gives 11 52 rnd fmt_d RN a a (is_double_dbl _ _ A) (is_double_dbl _ _ A)) as (G1 & G2 & _).
  split; [exact G1|]. rewrite G2. destruct A as (_ & p & I & P). rewrite I. cbn [x_mul x_round]. apply rnd_same. rewrite P. reflexivity.
Qed.
Lemma abs_ok a x : is_double a x -> is_double (m_abs a) (Qabs x).
Proof using.
  intros A. unfold m_abs. destruct (split_sign 11 52 fmt_d a (is_double_dbl _ _ A)) as (m & s & M & E). change (11 + 52) with 63 in *.
  assert (EM : a mod 2 ^ 63 = m) by (rewrite E; destruct s; [replace (m + 2 ^ 63) with (m + 1 * 2 ^ 63) by ring; rewrite Z.mod_add by lia; apply Z.mod_small; lia|rewrite Z.add_0_r; apply Z.mod_small; lia]).
  rewrite EM. destruct (ieee_signed 11 52 fmt_d m s M) as [H1 H2]. change (11 + 52) with 63 in *. rewrite <- E in H1.
  assert (M2 : 2 ^ 64 = 2 * 2 ^ 63) by reflexivity. apply val_is_double; [unfold dbl; lia|].
  destruct A as (_ & p & I & P). rewrite I in H1. destruct (ieee_val 11 52 m) as [q|t|]; destruct s; cbn [x_opp same_ext] in *; try discriminate.
  - rewrite <- P, H1, Qabs_opp. symmetry. apply Qabs_pos. exact H2.
  - rewrite <- P, H1. symmetry. apply Qabs_pos. exact H2.
Qed.

(** Greatest and least. *)
Definition num (d : Z) : Prop := exists x, ieee_val 11 52 d = FinVal x.
Lemma lt_num a b x y : ieee_val 11 52 a = FinVal x -> ieee_val 11 52 b = FinVal y -> f_lt 11 52 a b = true <-> (x < y)%Q.
Proof using. intros A B. rewrite f_lt_spec, A, B. reflexivity. Qed.
Lemma fold_max l : forall a, num a -> (forall d, In d l -> num d) ->
  let m := fold_left (fun a b => if f_lt 11 52 a b then b else a) l a in
  (m = a \/ In m l) /\ num m /\ (forall d x, d = a \/ In d l -> ieee_val 11 52 d = FinVal x -> ext_le (FinVal x) (ieee_val 11 52 m)).
Proof using.
  clear. induction l as [|b l IH]; intros a A L; cbn [fold_left].
  - split; [now left|]. split; [exact A|]. intros d x [->|[]] I. rewrite I. cbn [ext_le]. lra.
  - destruct A as (p & P). destruct (L b (or_introl eq_refl)) as (q & Q). set (n := if f_lt 11 52 a b then b else a).
    assert (NN : num n /\ (n = a \/ n = b) /\ forall d x, d = a \/ d = b -> ieee_val 11 52 d = FinVal x -> ext_le (FinVal x) (ieee_val 11 52 n)).
    { unfold n. destruct (f_lt 11 52 a b) eqn:E.
      - apply (lt_num a b p q P Q) in E. split; [exists q; exact Q|]. split; [now right|]. intros d x [->| ->] I; rewrite Q; rewrite ?P, ?Q in I; injection I as <-; cbn [ext_le]; lra.
      - assert (E' : ~ (p < q)%Q) by (intros H; apply (lt_num a b p q P Q) in H; congruence).
        split; [exists p; exact P|]. split; [now left|]. intros d x [->| ->] I; rewrite P; rewrite ?P, ?Q in I; injection I as <-; cbn [ext_le]; lra. }
    destruct NN as (N1 & N2 & N3). destruct (IH n N1) as (I1 & I2 & I3); [intros d D; apply L; now right|]. split.
    { cbn [In]. destruct I1 as [I1|I1]; [rewrite I1; destruct N2 as [->| ->]; tauto|tauto]. }
    split; [exact I2|]. intros d x D X. assert (C : d = a \/ d = b \/ In d l) by (cbn [In] in D; destruct D as [->|[->|D]]; tauto).
    destruct C as [C|[C|C]]; [| |apply (I3 d x); tauto].
    all: pose proof (N3 d x ltac:(tauto) X) as T1; destruct N1 as (y & Y); pose proof (I3 n y ltac:(tauto) Y) as T2; rewrite Y in T1; destruct I2 as (z & Z); rewrite Z in T2 |- *; cbn [ext_le] in *; lra.
Qed.
Lemma fold_min l : forall a, num a -> (forall d, In d l -> num d) ->
  let m := fold_left (fun a b => if f_lt 11 52 b a then b else a) l a in
  (m = a \/ In m l) /\ num m /\ (forall d x, d = a \/ In d l -> ieee_val 11 52 d = FinVal x -> ext_le (ieee_val 11 52 m) (FinVal x)).
Proof using.
  clear. induction l as [|b l IH]; intros a A L; cbn [fold_left].
  - split; [now left|]. split; [exact A|]. intros d x [->|[]] I. rewrite I. cbn [ext_le]. lra.
  - destruct A as (p & P). destruct (L b (or_introl eq_refl)) as (q & Q). set (n := if f_lt 11 52 b a then b else a).
    assert (NN : num n /\ (n = a \/ n = b) /\ forall d x, d = a \/ d = b -> ieee_val 11 52 d = FinVal x -> ext_le (ieee_val 11 52 n) (FinVal x)).
    { unfold n. destruct (f_lt 11 52 b a) eqn:E.
      - apply (lt_num b a q p Q P) in E. split; [exists q; exact Q|]. split; [now right|]. intros d x [->| ->] I; rewrite Q; rewrite ?P, ?Q in I; injection I as <-; cbn [ext_le]; lra.
      - assert (E' : ~ (q < p)%Q) by (intros H; apply (lt_num b a q p Q P) in H; congruence).
        split; [exists p; exact P|]. split; [now left|]. intros d x [->| ->] I; rewrite P; rewrite ?P, ?Q in I; injection I as <-; cbn [ext_le]; lra. }
    destruct NN as (N1 & N2 & N3). destruct (IH n N1) as (I1 & I2 & I3); [intros d D; apply L; now right|]. split.
    { cbn [In]. destruct I1 as [I1|I1]; [rewrite I1; destruct N2 as [->| ->]; tauto|tauto]. }
    split; [exact I2|]. intros d x D X. assert (C : d = a \/ d = b \/ In d l) by (cbn [In] in D; destruct D as [->|[->|D]]; tauto).
    destruct C as [C|[C|C]]; [| |apply (I3 d x); tauto].
    all: pose proof (N3 d x ltac:(tauto) X) as T1; destruct N1 as (y & Y); pose proof (I3 n y ltac:(tauto) Y) as T2; rewrite Y in T1; destruct I2 as (z & Z); rewrite Z in T2 |- *; cbn [ext_le] in *; lra.
Qed.
Lemma m_max_ok l m : (forall d, In d l -> num d) -> m_max l = Some m -> greatest_of l m.
Proof using.
  clear. destruct l as [|a l]; cbn [m_max]; [discriminate|]. intros N H. injection H as <-.
  destruct (fold_max l a (N a (or_introl eq_refl)) (fun d D => N d (or_intror D))) as (A & B & C). split; [cbn [In]; destruct A as [A|A]; [left; symmetry; exact A|right; exact A]|].
  split; [exact B|]. intros d x [D|D] I; apply (C d x); auto.
Qed.
Lemma m_min_ok l m : (forall d, In d l -> num d) -> m_min l = Some m -> least_of l m.
Proof using.
  clear. destruct l as [|a l]; cbn [m_min]; [discriminate|]. intros N H. injection H as <-.
  destruct (fold_min l a (N a (or_introl eq_refl)) (fun d D => N d (or_intror D))) as (A & B & C). split; [cbn [In]; destruct A as [A|A]; [left; symmetry; exact A|right; exact A]|].
  split; [exact B|]. intros d x [D|D] I; apply (C d x); auto.
Qed.
Lemma m_finite_num d : m_finite d = true <-> num d.
Proof using. clear. unfold m_finite, num. destruct (ieee_val 11 52 d); split; try discriminate; try (intros (x & X); discriminate); eauto. Qed.
Lemma m_max_some l d : In d l -> exists m, m_max l = Some m.
Proof using. clear. destruct l; [intros []|]. cbn [m_max]. eauto. Qed.
Lemma m_min_some l d : In d l -> exists m, m_min l = Some m.
Proof using. clear. destruct l; [intros []|]. cbn [m_min]. eauto. Qed.
Lemma filter_greatest l m : greatest_of (filter m_finite l) m -> greatest_of l m.
Proof using.
  clear. intros (A & B & C). apply filter_In in A. split; [apply A|]. split; [exact B|]. intros d x D I. apply (C d x); [|exact I]. apply filter_In. split; [exact D|]. apply m_finite_num. exists x. exact I.
Qed.
Lemma filter_least l m : least_of (filter m_finite l) m -> least_of l m.
Proof using.
  clear. intros (A & B & C). apply filter_In in A. split; [apply A|]. split; [exact B|]. intros d x D I. apply (C d x); [|exact I]. apply filter_In. split; [exact D|]. apply m_finite_num. exists x. exact I.
Qed.
Lemma filter_num l d : In d (filter m_finite l) -> num d.
Proof using. clear. intros H. apply filter_In in H. apply m_finite_num, H. Qed.

(** What describetab finds in a table whose numbers are doubles. *)
Lemma f_eq0 d x : is_double d x -> f_eq 11 52 d 0 = true <-> (x == 0)%Q.
Proof using.
  clear. intros (_ & p & I & P). rewrite f_eq_spec, I. assert (Z : exists z, ieee_val 11 52 0 = FinVal z /\ (z == 0)%Q) by (eexists; split; vm_compute; reflexivity).
  destruct Z as (z & -> & E). cbn [x_eq]. rewrite E, P. reflexivity.
Qed.
Lemma describe_ok t s : (forall d, In d (t_float t) -> dbl d) -> describetab t = Some s ->
  greatest_of (t_float t) (s_max s) /\ least_of (t_float t) (s_min s) /\ least_of (t_res t) (s_minres s) /\ greatest_of (t_res t) (s_maxres s) /\
  (exists d x, In d (t_float t) /\ is_double d x /\ ~ (x == 0)%Q /\ is_double (s_smallest s) (Qabs x) /\
    forall e y, In e (t_float t) -> is_double e y -> ~ (y == 0)%Q -> (Qabs x <= Qabs y)%Q).
Proof using.
  clear. intros B H. unfold describetab in H. set (W := filter m_finite (t_float t)) in *. set (Q := filter m_finite (t_res t)) in *.
  destruct (m_max W) as [a|] eqn:A; [|discriminate]. destruct (m_min W) as [b|] eqn:Bm; [|discriminate].
  destruct (m_min (map m_abs (filter _ W))) as [z|] eqn:S; [|discriminate]. destruct (m_min Q) as [p|] eqn:P; [|discriminate]. destruct (m_max Q) as [q|] eqn:QQ; [|discriminate].
  injection H as <-. cbn [s_max s_min s_smallest s_minres s_maxres]. pose proof (filter_num (t_float t)) as NF. pose proof (filter_num (t_res t)) as NR.
  split; [apply filter_greatest, m_max_ok; assumption|]. split; [apply filter_least, m_min_ok; assumption|].
  split; [apply filter_least, m_min_ok; assumption|]. split; [apply filter_greatest, m_max_ok; assumption|].
  assert (EL : forall e, In e W -> exists y, is_double e y).
  { intros e E. destruct (NF e E) as (y & Y). exists y. apply filter_In in E. split; [apply B, E|]. exists y. split; [exact Y|reflexivity]. }
  apply m_min_ok in S.
  2:{ intros d D. apply in_map_iff in D. destruct D as (e & <- & D). apply filter_In in D. destruct (EL e (proj1 D)) as (y & Y). destruct (abs_ok e y Y) as (_ & x & I & _). exists x. exact I. }
  destruct S as (S1 & S2 & S3). apply in_map_iff in S1. destruct S1 as (d & <- & D). apply filter_In in D. destruct D as [D1 D2].
  destruct (EL d D1) as (x & X). exists d, x. split; [apply filter_In in D1; apply D1|]. split; [exact X|].
  assert (NZ : forall e y, is_double e y -> negb (f_eq 11 52 e 0) = true <-> ~ (y == 0)%Q).
  { intros e y E. rewrite <- (f_eq0 e y E). destruct (f_eq 11 52 e 0); cbn [negb]; split; congruence. }
  split; [apply (NZ d x X), D2|]. split; [apply abs_ok; exact X|]. intros e y E1 E2 E3.
  destruct (abs_ok e y E2) as (_ & w & WI & WE). destruct (abs_ok d x X) as (_ & u & UI & UE).
  pose proof (S3 (m_abs e) w) as T. rewrite UI in T. cbn [ext_le] in T. rewrite <- WE, <- UE. apply T; [|exact WI].
  apply in_map. apply filter_In. split; [|apply (NZ e y E2), E3]. apply filter_In. split; [exact E1|]. apply m_finite_num. destruct E2 as (_ & k & K & _). exists k. exact K.
Qed.

(** Half the distance of the neighbours. *)
Lemma diffs_nth x : forall i a b, nth_error x i = Some a -> nth_error x (i + 2) = Some b -> nth_error (m_diffs rnd x) i = Some (m_half rnd (m_sub rnd b a)).
Proof using.
  clear. induction x as [|p x IH]; intros i a b A B; [destruct i; discriminate|]. destruct i as [|i].
  - injection A as ->. cbn [plus nth_error] in B. destruct x as [|q [|r x]]; cbn [nth_error] in B; try discriminate. injection B as ->. reflexivity.
  - cbn [plus nth_error] in A, B. destruct x as [|q [|r x]]; [destruct i; discriminate|rewrite Nat.add_comm in B; destruct i; discriminate|]. exact (IH i a b A B).
Qed.
Lemma diffs_len x : List.length (m_diffs rnd x) = (List.length x - 2)%nat.
Proof using. clear. induction x as [|a [|b [|d x]] IH]; try reflexivity. cbn [m_diffs List.length] in *. rewrite IH. lia. Qed.
Lemma meandiff_nth x i a b : nth_error x i = Some a -> nth_error x (i + 2) = Some b -> nth_error (meandiff rnd x) (i + 1) = Some (m_half rnd (m_sub rnd b a)).
Proof using.
  clear. intros A B. pose proof (diffs_nth x i a b A B) as D. assert (L : (i + 2 < List.length x)%nat) by (apply nth_error_Some; congruence).
  destruct x as [|p [|q x]]; cbn [List.length] in L; try lia. cbn [meandiff]. rewrite Nat.add_comm. cbn [plus nth_error].
  rewrite nth_error_app1 by (rewrite diffs_len; cbn [List.length]; lia). exact D.
Qed.
Lemma meandiff_len x : List.length (meandiff rnd x) = List.length x.
Proof using. clear. destruct x as [|p [|q x]]; try reflexivity. cbn [meandiff List.length]. rewrite app_length, diffs_len. cbn [List.length]. lia. Qed.
Lemma meandiff_ends x : x <> [] -> nth_error (meandiff rnd x) 0 = Some m_nan /\ nth_error (meandiff rnd x) (List.length x - 1) = Some m_nan.
Proof using.
  clear. intros N. destruct x as [|p [|q x]]; [congruence|split; reflexivity|]. split; [reflexivity|]. cbn [meandiff].
  replace (List.length (p :: q :: x) - 1)%nat with (S (List.length (m_diffs rnd (p :: q :: x)))) by (rewrite diffs_len; cbn [List.length]; lia).
  cbn [nth_error]. rewrite nth_error_app2, Nat.sub_diag by lia. reflexivity.
Qed.
End r.
