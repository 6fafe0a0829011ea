(** The search by value finds the nearest posit. *)
From Coq Require Import ZArith QArith Qabs Qround Bool List String Lia Lqa.
From Verif Require Import Res CInt Traits Unpacked Cfg Spec SpecFloat SpecAny SpecNear Posit FloatOps AnyFloat Asimd Soft ListP Dump SpecDump TestSum QPow Core Arith SpecLemmas DecodeProof EncodeProof UOps UAdd Ops OpsUnary
  Final1 Final4 Conv1 Conv5 FloatProof PositFProof PositFProof2 AnyProof AnyProof2 AnyProof3 SoftProof ListProof DumpProof DumpProof2 DumpProof3 DumpProof4 DumpProof5 DumpProof6 NearProof NearProof2 Acc1.
Import ListNotations.
Open Scope Z_scope.

(** The first least element. *)
Lemma lt_double a b x y : is_double a x -> is_double b y -> f_lt 11 52 a b = true <-> (x < y)%Q.
Proof. intros (_ & p & P & PE) (_ & q & Q & QE). rewrite (lt_num _ _ _ _ P Q), PE, QE. reflexivity. Qed.
Lemma nan_double best b (y : bool) x : is_double best b -> match ieee_val 11 52 best with NaNVal => match ieee_val 11 52 x with NaNVal => false | _ => true end | _ => y end = y.
Proof. intros (_ & p & -> & _). reflexivity. Qed.
Lemma argmin_keep l : forall i best at_ b, is_double best b -> (forall d, In d l -> exists x, is_double d x /\ (b <= x)%Q) -> m_argmin l i best at_ = at_.
Proof.
  induction l as [|x l IH]; intros i best at_ b B L; [reflexivity|]. cbn [m_argmin]. rewrite (nan_double best b _ x B).
  destruct (L x (or_introl eq_refl)) as (y & Y & YB). destruct (f_lt 11 52 x best) eqn:E; [apply (lt_double _ _ _ _ Y B) in E; lra|].
  apply (IH _ _ _ b B). intros d D. apply L. now right.
Qed.
Lemma argmin_hit h (U : Z -> Q) v n : forall a i best at_ b, a <= v < a + Z.of_nat n -> (forall w, a <= w < a + Z.of_nat n -> is_double (h w) (U w)) -> is_double best b -> (U v < b)%Q ->
  (forall w, a <= w < v -> (U v < U w)%Q) -> (forall w, v < w < a + Z.of_nat n -> (U v <= U w)%Q) -> m_argmin (map h (zup a n)) i best at_ = i + (v - a).
Proof.
  induction n as [|n IH]; intros a i best at_ b A D B L P Q; [lia|]. cbn [zup map m_argmin]. rewrite (nan_double best b _ _ B).
  destruct (Z.eq_dec a v) as [->|N].
  - assert (E : f_lt 11 52 (h v) best = true) by (apply (lt_double _ _ _ _ (D v ltac:(lia)) B); exact L). rewrite E.
    rewrite (argmin_keep _ _ _ _ (U v) (D v ltac:(lia))); [lia|]. intros d I. apply in_map_iff in I. destruct I as (w & <- & I). apply zup_in in I. exists (U w). split; [apply D; lia|apply Q; lia].
  - assert (R : forall x y t, is_double x y -> (U v < y)%Q -> m_argmin (map h (zup (a + 1) n)) (i + 1) x t = i + (v - a)).
    { intros x y t X Y. rewrite (IH (a + 1) (i + 1) x t y); [lia|lia|intros; apply D; lia|exact X|exact Y|intros; apply P; lia|intros; apply Q; lia]. }
    destruct (f_lt 11 52 (h a) best); [apply (R _ (U a)); [apply D; lia|apply P; lia]|apply (R _ b); assumption].
Qed.

Section s.
Context (rnd : Q -> Z) (c : cfg).
Hypothesis RN : rounding 11 52 rnd.
Hypothesis V : valid_cfg c.
Hypothesis FF : frac_fits c.
Hypothesis FC : float_covers c 11 52.
Hypothesis SM : cN c + 2 ^ ces c <= 48.
Hypothesis RE : emax c + gran c <= 390.
Notation third := (DumpProof.third c).
Notation columns := (DumpProof.columns rnd c).

Lemma dist_sqd d q w u : is_double d q -> real c w -> sqd rnd (value c w - q) u -> is_double (dist rnd c d w) u.
Proof using RN V FF FC.
  intros D W (y & z & Y & Z & E). destruct (sub_ok rnd RN _ _ _ _ (third_is c V FF FC w W) D) as [S1 S2]. rewrite Y in S2.
  destruct (sq_ok rnd RN _ _ (val_is_double _ _ S1 S2)) as [Q1 Q2]. rewrite Z in Q2. apply val_is_double; [exact Q1|]. eapply same_trans; [exact Q2|]. exact E.
Qed.
Lemma sqd_all q w : real c w -> (Qabs q <= 2 * value c (maxreal c))%Q -> exists u, sqd rnd (value c w - q) u.
Proof using RN V FC RE.
  intros W Q. apply (sqd_ex rnd RN). pose proof (mb c V) as MB. pose proof (emax_bound c V FC) as [EB GB].
  assert (RM : real c (maxreal c)) by (unfold real; lia). pose proof (value_small c V FC _ RM) as S1. pose proof (value_small c V FC _ W) as S2. pose proof (Qle_Qabs (value c (maxreal c))).
  pose proof (pow2_le (emax c + 1) 391 ltac:(lia)) as BIG. pose proof (Qabs_triangle (value c w) (- q)) as T. rewrite Qabs_opp in T.
  assert (E1 : (pow2 393 == 4 * pow2 391)%Q) by (change 393 with (391 + 1 + 1); rewrite !pow2_dbl; ring). pose proof (pow2_le 393 500 ltac:(lia)). pose proof (pow2_pos 391). unfold Qminus. lra.
Qed.

(** Where a number lies. *)
Lemma locate q : (exists v, real c v /\ (value c v <= q)%Q /\ (real c (v + 1) -> (q < value c (v + 1))%Q)) \/ (q < value c (- maxreal c))%Q.
Proof using V.
  pose proof (mb c V) as MB. destruct (Qlt_le_dec q (value c (- maxreal c))) as [L|L]; [right; exact L|left].
  assert (IND : forall k : nat, Z.of_nat k <= 2 * maxreal c -> (exists v, real c v /\ (value c v <= q)%Q /\ (real c (v + 1) -> (q < value c (v + 1))%Q)) \/ (value c (- maxreal c + Z.of_nat k) <= q)%Q).
  { induction k as [|k IH]; intros K; [right; rewrite Z.add_0_r; exact L|]. destruct (IH ltac:(lia)) as [H|H]; [left; exact H|].
    replace (- maxreal c + Z.of_nat (S k)) with (- maxreal c + Z.of_nat k + 1) by lia.
    destruct (Qlt_le_dec q (value c (- maxreal c + Z.of_nat k + 1))) as [G|G]; [left|right; exact G]. exists (- maxreal c + Z.of_nat k). split; [unfold real; lia|]. auto. }
  destruct (IND (Z.to_nat (2 * maxreal c)) ltac:(lia)) as [H|H]; [exact H|]. replace (- maxreal c + Z.of_nat (Z.to_nat (2 * maxreal c))) with (maxreal c) in H by lia.
  exists (maxreal c). split; [unfold real; lia|]. split; [exact H|]. unfold real. lia.
Qed.
Lemma order a b : real c a -> real c b -> a < b -> (value c a < value c b)%Q.
Proof using V. intros A B L. vcb V. pose proof (real_pat c V a A). pose proof (real_pat c V b B). apply value_lt; lia. Qed.
Lemma order_le a b : real c a -> real c b -> a <= b -> (value c a <= value c b)%Q.
Proof using V. intros A B L. destruct (Z.eq_dec a b) as [->|N]; [lra|]. pose proof (order a b A B ltac:(lia)). lra. Qed.

(** Two ways to be nearest. *)
Definition from_below (q : Q) (v : Z) : Prop := (value c v <= q)%Q /\ (real c (v + 1) -> (q - value c v <= value c (v + 1) - q)%Q).
Definition from_above (q : Q) (v : Z) : Prop := (q <= value c v)%Q /\ (real c (v - 1) -> (value c (v - 1) <= q /\ value c v - q < q - value c (v - 1))%Q).
Lemma choose q : exists v, real c v /\ (from_below q v \/ from_above q v).
Proof using V.
  pose proof (mb c V) as MB. destruct (locate q) as [(v & R & L & U)|H].
  - destruct (Z.eq_dec v (maxreal c)) as [->|N]; [exists (maxreal c); split; [exact R|]; left; split; [exact L|unfold real; lia]|].
    assert (R1 : real c (v + 1)) by (unfold real in *; lia). specialize (U R1). destruct (Qlt_le_dec (value c (v + 1) - q) (q - value c v)) as [K|K].
    + exists (v + 1). split; [exact R1|]. right. split; [lra|]. replace (v + 1 - 1) with v by lia. intros _. split; lra.
    + exists v. split; [exact R|]. left. split; [exact L|]. intros _. lra.
  - exists (- maxreal c). split; [unfold real; lia|]. right. split; [lra|]. unfold real. lia.
Qed.
Lemma near_val q v : real c v -> from_below q v \/ from_above q v -> nearest_posit c q v.
Proof using V.
  intros R H. split; [exact R|]. intros w W. destruct (Z.lt_trichotomy w v) as [L|[->|L]]; [|split; intros; lra|].
  - pose proof (order w v W R L) as O. destruct H as [[A B]|[A B]].
    + rewrite (Qabs_neg (value c v - q)), (Qabs_neg (value c w - q)) by lra. split; [lra|]. intros E. exfalso. lra.
    + assert (R1 : real c (v - 1)) by (unfold real in *; lia). destruct (B R1) as [B1 B2]. pose proof (order_le w (v - 1) W R1 ltac:(lia)) as O1.
      rewrite (Qabs_pos (value c v - q)), (Qabs_neg (value c w - q)) by lra. split; [lra|]. intros E. exfalso. lra.
  - pose proof (order v w R W L) as O. split; [|intros; lra]. destruct H as [[A B]|[A B]].
    + assert (R1 : real c (v + 1)) by (unfold real in *; lia). specialize (B R1). pose proof (order_le (v + 1) w R1 W ltac:(lia)) as O1.
      rewrite (Qabs_neg (value c v - q)), (Qabs_pos (value c w - q)) by lra. lra.
    + rewrite (Qabs_pos (value c v - q)), (Qabs_pos (value c w - q)) by lra. lra.
Qed.
Lemma near_sqd q v w u u' : isf q -> (Qabs q <= 2 * value c (maxreal c))%Q -> real c v -> from_below q v \/ from_above q v -> real c w ->
  sqd rnd (value c v - q) u -> sqd rnd (value c w - q) u' -> (w < v -> (u < u')%Q) /\ (v < w -> (u <= u')%Q).
Proof using RN V FC SM RE.
  intros QF QB R H W S S'. pose proof (Qle_Qabs q) as QA. split; intros L.
  - assert (R1 : real c (v - 1)) by (unfold real in *; lia). destruct (sqd_all q (v - 1) R1 QB) as (k & K). pose proof (order_le w (v - 1) W R1 ltac:(lia)) as O1. pose proof (order (v - 1) v R1 R ltac:(lia)) as O2.
    assert (B1 : (u < k)%Q).
    { destruct H as [[A B]|[A B]].
      - apply (below rnd c RN V FC SM RE v q (value c v - q) (value c (v - 1) - q) u k R1 R A B ltac:(lra) S K); rewrite Qabs_neg by lra; ring.
      - destruct (B R1) as [C1 C2]. assert (Rv : real c (v - 1 + 1)) by (replace (v - 1 + 1) with v by lia; exact R).
        destruct (bracket rnd c RN V FC SM RE (v - 1) q (value c (v - 1) - q) (value c v - q) k u R1 Rv QF C1) as (_ & X & _); try assumption; try (replace (v - 1 + 1) with v by lia).
        + exact A.
        + rewrite Qabs_neg by lra. ring.
        + rewrite Qabs_pos by lra. ring.
        + apply X. rewrite (Qabs_pos (value c v - q)), (Qabs_neg (value c (v - 1) - q)) by lra. lra. }
    assert (B2 : (k <= u')%Q); [|lra]. apply (sqd_mono rnd RN _ _ _ _ K S'). right. destruct H as [[A B]|[A B]]; [lra|]. destruct (B R1) as [C1 C2]. lra.
  - destruct H as [[A B]|[A B]].
    + assert (R1 : real c (v + 1)) by (unfold real in *; lia). specialize (B R1). destruct (sqd_all q (v + 1) R1 QB) as (k & K). pose proof (order_le (v + 1) w R1 W ltac:(lia)) as O1. pose proof (order v (v + 1) R R1 ltac:(lia)) as O2.
      assert (B2 : (k <= u')%Q) by (apply (sqd_mono rnd RN _ _ _ _ K S'); left; lra).
      destruct (bracket rnd c RN V FC SM RE v q (value c v - q) (value c (v + 1) - q) u k R R1 QF A ltac:(lra) S K) as (X1 & _ & X3).
      * rewrite Qabs_neg by lra. ring.
      * rewrite Qabs_pos by lra. ring.
      * rewrite (Qabs_neg (value c v - q)), (Qabs_pos (value c (v + 1) - q)) in X1, X3 by lra. destruct (Qlt_le_dec (- (value c v - q)) (value c (v + 1) - q)) as [G|G]; [specialize (X1 G); lra|].
        assert (E : (- (value c v - q) == value c (v + 1) - q)%Q) by lra. specialize (X3 E). lra.
    + pose proof (order v w R W L) as O. apply (sqd_mono rnd RN _ _ _ _ S S'). left. lra.
Qed.
Lemma near_row d q : is_double d q -> (Qabs q <= 2 * value c (maxreal c))%Q -> exists v, nearest_posit c q v /\ toindex rnd columns MFloat d = Some (v + maxreal c + 1).
Proof using RN V FF FC SM RE.
  intros D QB. pose proof (is_double_float d q D) as QF. destruct (choose q) as (v & R & H). exists v. split; [apply near_val; assumption|].
  rewrite toindex_zup. f_equal. pose proof (mb c V) as M. assert (R' := R). unfold real in R'. set (k := Z.to_nat (2 * maxreal c)). assert (KK : Z.of_nat k = 2 * maxreal c) by lia. clearbody k.
  assert (UU : exists U : Z -> Q, forall w, real c w -> sqd rnd (value c w - q) (U w)).
  { exists (fun w => match ieee_val 11 52 (rnd (value c w - q)) with FinVal y => match ieee_val 11 52 (rnd (y * y)) with FinVal z => z | _ => 0%Q end | _ => 0%Q end).
    intros w W. destruct (sqd_all q w W QB) as (u & y & z & Y & Z & E). exists y, z. split; [exact Y|]. split; [exact Z|]. rewrite Y, Z. reflexivity. }
  destruct UU as (U & UU). 
  assert (DD : forall w, real c w -> is_double (dist rnd c d w) (U w)) by (intros w W; apply (dist_sqd d q); [exact D|exact W|apply UU; exact W]).
  assert (RMm : real c (- maxreal c)) by (unfold real; lia).
  destruct (Z.eq_dec v (- maxreal c)) as [->|N].
  - rewrite (argmin_keep _ _ _ _ (U (- maxreal c)) (DD _ RMm)); [lia|]. intros x I. apply in_map_iff in I. destruct I as (w & <- & I). apply zup_in in I.
    assert (W : real c w) by (unfold real; lia). exists (U w). split; [apply DD; exact W|]. apply (near_sqd q (- maxreal c) w (U (- maxreal c)) (U w)); try assumption; try (apply UU; assumption). lia.
  - rewrite (argmin_hit (dist rnd c d) U v k (- maxreal c + 1) 2 (dist rnd c d (- maxreal c)) 1 (U (- maxreal c))); [lia|lia| |exact (DD _ RMm)| | |].
    + intros w I. apply DD. unfold real. lia.
    + apply (near_sqd q v (- maxreal c) (U v) (U (- maxreal c))); try assumption; try (apply UU; assumption). lia.
    + intros w I. assert (W : real c w) by (unfold real; lia). apply (near_sqd q v w (U v) (U w)); try assumption; try (apply UU; assumption). lia.
    + intros w I. assert (W : real c w) by (unfold real; lia). apply (near_sqd q v w (U v) (U w)); try assumption; try (apply UU; assumption). lia.
Qed.
End s.
