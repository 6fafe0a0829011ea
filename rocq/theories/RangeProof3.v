(** The table of halves: it is made, and its summary. *)
From Coq Require Import ZArith QArith Qabs Bool List Sorted Permutation Lia Lqa.
From Verif Require Import Res CInt Traits Cfg Spec SpecFloat SpecHalf SpecAny SpecRange SpecDump FloatOps Asimd Soft MatHalf Dump HalfRange QPow FloatProof AnyProof2 PositFProof3
  SoftProof DumpProof DumpProof2 DumpProof4 RangeProof RangeProof2.
Import ListNotations.
Open Scope Z_scope.

Section t.
Context (rnd : Q -> Z) (RN : rounding 11 52 rnd).
Context (little : bool) (fs : mclass -> Z -> Z) (mi ma : Z) (lo hi : Q) (LO : is_double mi lo) (HI : is_double ma hi).
Context (u h : list Z) (UH : halfinrange little fs mi ma = Ok (Some (u, h))).
Lemma h_inv d : In d h -> exists p x, half_within mi ma p /\ is_half p x /\ is_double d x.
Proof using LO HI UH.
  intros DI. apply In_nth_error in DI. destruct DI as (j & J).
  assert (JL : (j < length u)%nat) by (rewrite <- (uh_len little fs mi ma u h UH); apply nth_error_Some; congruence).
  destruct (nth_error u j) as [p|] eqn:P; [|apply nth_error_None in P; lia].
  destruct (row_val little fs mi ma lo hi LO HI u h UH j p P) as (x & d' & X & _ & _ & J' & K). rewrite J in J'. injection J' as <-. exists p, x.
  split; [|auto]. apply (facts little fs mi ma u h UH). eapply nth_error_In, P.
Qed.
Lemma h_of p : half_within mi ma p -> exists d x, In d h /\ is_half p x /\ is_double d x.
Proof using LO HI UH.
  intros W. apply (facts little fs mi ma u h UH) in W. apply In_nth_error in W. destruct W as (i & I).
  destruct (row_val little fs mi ma lo hi LO HI u h UH i p I) as (x & d & X & _ & _ & J & K). exists d, x. split; [eapply nth_error_In, J|auto].
Qed.
Lemma double_num d x : is_double d x -> m_finite d = true.
Proof using. intros (_ & y & I & _). apply m_finite_num. exists y. exact I. Qed.

Lemma made : (3 <= length u)%nat -> exists t s, half_table rnd u h = Some (t, s).
Proof using RN LO HI UH.
  intros L. unfold half_table. cbv zeta. set (a := map _ (seq 0 _)). set (b := map _ u). clearbody a b.
  assert (U0 : exists p0 p1 p2, nth_error u 0 = Some p0 /\ nth_error u 1 = Some p1 /\ nth_error u 2 = Some p2) by (destruct u as [|p0 [|p1 [|p2 ?]]]; cbn [length] in L; try lia; repeat eexists).
  destruct U0 as (p0 & p1 & p2 & P0 & P1 & P2).
  destruct (row_val little fs mi ma lo hi LO HI u h UH _ _ P0) as (x0 & d0 & X0 & _ & _ & D0 & E0), (row_val little fs mi ma lo hi LO HI u h UH _ _ P1) as (x1 & d1 & X1 & _ & _ & D1 & E1),
    (row_val little fs mi ma lo hi LO HI u h UH _ _ P2) as (x2 & d2 & X2 & _ & _ & D2 & E2).
  destruct (res_row rnd RN little fs mi ma lo hi LO HI u h UH 0 p0 p2 x0 x2 P0 P2 X0 X2) as (r & R & RD).
  assert (NZ : exists d x, In d h /\ is_double d x /\ ~ (x == 0)%Q).
  { destruct (Qeq_dec x0 0) as [Z0|Z0]; [|exists d0, x0; split; [eapply nth_error_In, D0|auto]]. destruct (Qeq_dec x1 0) as [Z1|Z1]; [|exists d1, x1; split; [eapply nth_error_In, D1|auto]].
    destruct (Qeq_dec x2 0) as [Z2|Z2]; [|exists d2, x2; split; [eapply nth_error_In, D2|auto]]. exfalso.
    destruct (row_le little fs mi ma u h UH 0 1 _ _ _ _ ltac:(lia) P0 P1 X0 X1) as (_ & K1), (row_le little fs mi ma u h UH 1 2 _ _ _ _ ltac:(lia) P1 P2 X1 X2) as (_ & K2).
    specialize (K1 ltac:(lra)). specialize (K2 ltac:(lra)). destruct (half_zero _ _ X0 Z0), (half_zero _ _ X1 Z1), (half_zero _ _ X2 Z2); lia. }
  destruct NZ as (d & x & DI & DD & NX). unfold describetab. cbn [t_float t_res].
  assert (DF : In d (filter m_finite h)) by (apply filter_In; split; [exact DI|]; eapply double_num, DD).
  assert (RF : In r (filter m_finite (meandiff rnd h))) by (apply filter_In; split; [eapply nth_error_In, R|]; eapply double_num, RD).
  destruct (m_max_some _ d DF) as (? & ->), (m_min_some _ d DF) as (? & ->), (m_min_some _ r RF) as (? & ->), (m_max_some _ r RF) as (? & ->).
  destruct (m_min_some (map m_abs (filter (fun d => negb (f_eq 11 52 d 0)) (filter m_finite h))) (m_abs d)) as (? & ->); [|eauto].
  apply in_map. apply filter_In. split; [exact DF|]. destruct (f_eq 11 52 d 0) eqn:E; [|reflexivity]. apply (f_eq0 d x DD) in E. contradiction.
Qed.

Context (t : table) (s : summary) (TS : half_table rnd u h = Some (t, s)).
Lemma summary2 :
  (exists p x, half_within mi ma p /\ is_half p x /\ is_double (s_max s) x /\ forall q y, half_within mi ma q -> is_half q y -> (y <= x)%Q) /\
  (exists p x, half_within mi ma p /\ is_half p x /\ is_double (s_min s) x /\ forall q y, half_within mi ma q -> is_half q y -> (x <= y)%Q) /\
  (exists p x, half_within mi ma p /\ is_half p x /\ ~ (x == 0)%Q /\ is_double (s_smallest s) (Qabs x) /\ forall q y, half_within mi ma q -> is_half q y -> ~ (y == 0)%Q -> (Qabs x <= Qabs y)%Q) /\
  least_of (t_res t) (s_minres s) /\ greatest_of (t_res t) (s_maxres s).
Proof using RN LO HI UH TS.
  destruct (table_is rnd u h t s TS) as (E & DS). assert (F : t_float t = h) by (rewrite E; reflexivity).
  assert (FD : forall d, In d (t_float t) -> dbl d) by (intros d; rewrite F; intros D; destruct (h_inv d D) as (p & x & _ & _ & K); apply K).
  destruct (describe_ok t s FD DS) as ((GI & _ & GG) & (LI & _ & LL) & R1 & R2 & (d & x & DI & DD & NX & SX & SM)). rewrite F in *.
  split; [|split; [|split; [|split; assumption]]].
  - destruct (h_inv _ GI) as (p & y & W & Y & K). exists p, y. split; [exact W|]. split; [exact Y|]. split; [exact K|]. intros q z Q Z.
    destruct (h_of q Q) as (e & z' & EI & Z' & EK). pose proof (is_half_val _ _ _ Z' Z). destruct EK as (_ & v & V & VE). destruct K as (_ & w & W' & WE).
    specialize (GG e v EI V). rewrite W' in GG. cbn [ext_le] in GG. lra.
  - destruct (h_inv _ LI) as (p & y & W & Y & K). exists p, y. split; [exact W|]. split; [exact Y|]. split; [exact K|]. intros q z Q Z.
    destruct (h_of q Q) as (e & z' & EI & Z' & EK). pose proof (is_half_val _ _ _ Z' Z). destruct EK as (_ & v & V & VE). destruct K as (_ & w & W' & WE).
    specialize (LL e v EI V). rewrite W' in LL. cbn [ext_le] in LL. lra.
  - destruct (h_inv _ DI) as (p & y & W & Y & K). pose proof (is_double_inj _ _ _ DD K) as XY. exists p, x. split; [exact W|]. split; [apply (is_half_comp p y); [symmetry; exact XY|exact Y]|].
    split; [exact NX|]. split; [exact SX|]. intros q z Q Z NZ. destruct (h_of q Q) as (e & z' & EI & Z' & EK). pose proof (is_half_val _ _ _ Z' Z) as ZZ.
    rewrite <- ZZ. apply (SM e z' EI EK). rewrite ZZ. exact NZ.
Qed.
End t.

(** The limits that compareposits.m uses. *)
Definition ten : Z := 0x4024000000000000.
Definition minus_ten : Z := 0xC024000000000000.
Lemma ten_ok : is_double minus_ten (- inject_Z 10) /\ is_double ten (inject_Z 10).
Proof. repeat split; try (vm_compute; congruence); (eexists; split; vm_compute; reflexivity). Qed.
Lemma ten_made : forall rnd little fs, rounding 11 52 rnd -> exists u h t s, halfinrange little fs minus_ten ten = Ok (Some (u, h)) /\ half_table rnd u h = Some (t, s).
Proof.
  intros rnd little fs RN. destruct ten_ok as (LO & HI). destruct (range_ok little fs minus_ten ten) as (u & h & E & _ & _ & _ & W). exists u, h.
  assert (L : (3 <= length u)%nat).
  { assert (I : incl [0; 2 ^ 15; 1] u).
    { destruct tiny_half as (A & _ & B & C). pose proof (pow2_pos (-24)). assert (pow2 (-24) <= inject_Z 10)%Q by (vm_compute; congruence).
      intros p [<-|[<-|[<-|[]]]]; apply W; apply (within_val _ _ _ _ LO HI); eexists; (split; [eassumption|]); change (inject_Z 10) with (10 # 1)%Q in *; split; lra. }
    apply (NoDup_incl_length (l := [0; 2 ^ 15; 1])); [|exact I]. repeat constructor; cbn [In]; intuition discriminate. }
  destruct (made rnd RN little fs _ _ _ _ LO HI u h E L) as (t & s & T). exists t, s. auto.
Qed.
