(** The sum of two posits of the table. *)
From Coq Require Import ZArith QArith Qabs Qround Bool List String Lia Lqa.
From Verif Require Misc4.
From Verif Require Import Res CInt Traits Unpacked Cfg Spec SpecAcc SpecFloat SpecAny SpecNear Posit FloatOps AnyFloat Asimd Soft ListP Dump SpecDump TestSum QPow Core Arith SpecLemmas DecodeProof EncodeProof UOps UAdd Ops OpsUnary
  Final1 Final4 Conv1 Conv5 FloatProof PositFProof PositFProof2 AnyProof AnyProof2 AnyProof3 SoftProof ListProof DumpProof DumpProof2 DumpProof3 DumpProof4 DumpProof5 DumpProof6 Acc1 NearProof NearProof2 NearProof3.
Import ListNotations.
Open Scope Z_scope.

Lemma isf_int m j : Z.abs m <= 2 ^ 53 -> -1074 <= j <= 899 -> isf (dy m j).
Proof.
  intros M J. assert (P : forall k, 0 <= k <= 2 ^ 53 -> isf (dy k j)).
  { intros k K. destruct (Z.eq_dec k (2 ^ 53)) as [->|N]; [change (2 ^ 53) with (2 * 2 ^ 52); apply isf_even; lia|apply isf_dy; lia]. }
  destruct (Z_le_gt_dec 0 m) as [L|L]; [apply P; lia|]. apply (is_float_comp 11 52 (- dy (- m) j)); [rewrite dy_opp; replace (- - m) with m by lia; reflexivity|]. apply (is_float_opp 11 52 fmt_d), P. lia.
Qed.

Section s.
Context (rnd : Q -> Z) (pw : Z -> Z) (c : cfg).
Hypothesis RN : rounding 11 52 rnd.
Hypothesis V : valid_cfg c.
Hypothesis FF : frac_fits c.
Hypothesis FC : float_covers c 11 52.
Hypothesis SM : cN c + 2 ^ ces c <= 48.
Hypothesis RE : emax c + gran c <= 390.
Notation third := (DumpProof.third c).
Notation columns := (DumpProof.columns rnd c).

Lemma n54 : cN c <= 54. Proof using SM. pose proof (Z.pow_nonneg 2 (ces c) ltac:(lia)). lia. Qed.
Lemma add_ok a b x y : is_double a x -> is_double b y -> dbl (f_add 11 52 rnd a b) /\ same_ext (ieee_val 11 52 (f_add 11 52 rnd a b)) (ieee_val 11 52 (rnd (x + y))).
Proof using RN.
  clear V FF FC SM RE. intros A B. destruct (f_add_gives 11 52 rnd fmt_d RN a _ (is_double_dbl _ _ A) (is_double_dbl _ _ B)) as (G1 & G2 & _).
  split; [exact G1|]. rewrite G2. destruct A as (_ & p & I & P), B as (_ & q & J & Q). rewrite I, J. cbn [x_add x_round]. apply rnd_same; [exact RN|]. rewrite P, Q. ring.
Qed.
(** Every posit is a multiple of the smallest. *)
Lemma fine v : real c v -> exists m, (value c v == dy m (- emax c))%Q.
Proof using V.
  clear SM RE FC FF RN. intros R. vcb V. pose proof (real_pat c V v R) as RP.
  assert (POS : forall w, 1 <= w < 2 ^ (cN c - 1) -> exists m, (value c w == dy m (- emax c))%Q).
  { intros w W. destruct (on_grid c V w W) as (e & m & _ & EL & _ & E). exists (m * 2 ^ (e - Z.max 0 (fracbits c e) - - emax c)). rewrite E. apply dy_align.
    rewrite (fb_sft c V). pow_pos 2 (ces c). pose proof (Z.div_mod e (2 ^ ces c) ltac:(lia)) as DM. pose proof (Z.mod_pos_bound e (2 ^ ces c) ltac:(lia)) as MB.
    set (k := e / 2 ^ ces c) in *. set (P := 2 ^ ces c) in *. unfold emax. fold P. fold P in EL. unfold sft, gran. destruct (Z.leb_spec 0 k); [nia|].
    assert (K : - (cN c - 2) <= k) by nia. assert (0 <= (k + (cN c - 2)) * (P - 1)) by nia. nia. }
  destruct (Z.lt_trichotomy v 0) as [S|[S|S]].
  - destruct (POS (- v) ltac:(lia)) as (m & E). exists (- m). rewrite <- dy_opp, <- E, (value_opp c BN Bes). ring.
  - exists 0. rewrite S. rewrite dy_0. reflexivity.
  - apply POS. lia.
Qed.
Lemma top v : real c v -> (Qabs (value c v) <= value c (maxreal c))%Q.
Proof using V.
  clear SM RE FC FF RN. intros R. pose proof (mb c V) as MB. vcb V. assert (RM : real c (maxreal c)) by (unfold real; lia). assert (RM' : real c (- maxreal c)) by (unfold real; lia).
  pose proof (order_le c V v (maxreal c) R RM ltac:(unfold real in R; lia)) as A. pose proof (order_le c V (- maxreal c) v RM' R ltac:(unfold real in R; lia)) as B. rewrite (value_opp c BN Bes) in B.
  apply Qabs_Qle_condition. split; lra.
Qed.
Lemma top_pow : (value c (maxreal c) <= pow2 (emax c))%Q.
Proof using V.
  clear SM RE FC FF RN. pose proof (mb c V) as MB. vcb V. pose proof (gran_nonneg c BN Bes) as G. rewrite (value_pos_lval c BN Bes) by lia.
  assert (E : 2 ^ (cN c - 3) = 2 ^ ces c * 2 ^ gran c) by (rewrite <- Z.pow_add_r by lia; f_equal; unfold gran; lia).
  apply Qle_trans with (lval (gran c) (emax c * 2 ^ gran c)); [|rewrite (Misc4.lval_power _ _ G); apply Qle_refl]. apply lval_le; [exact G|].
  pose proof (pdec_le (cN c) BN (maxreal c) (2 ^ (cN c - 1) - 1) ltac:(lia) ltac:(lia) ltac:(lia)) as L. rewrite pdec_last in L by assumption. unfold emax. nia.
Qed.
Lemma twice_top : isf (2 * value c (maxreal c)).
Proof using V FC RE.
  pose proof (mb c V) as MB. assert (RM : real c (maxreal c)) by (unfold real; lia). destruct (dyadic c V FC _ RM ltac:(lia)) as (n & e & m & A & M & E & _). pose proof (emax_bound c V FC) as [EB GB].
  assert (P : isf (dy m (e - gran c + 1))) by (pow_pos 2 (gran c); pose proof (pow2_mono (gran c + 1) 53 ltac:(lia)); apply isf_dy; lia).
  assert (T : (2 * value c (maxreal c) == sgq n (dy m (e - gran c + 1)))%Q).
  { rewrite A. assert (H : (dy m (e - gran c + 1) == dy m (e - gran c) * 2)%Q) by (unfold dy; rewrite pow2_plus; change (pow2 1) with 2%Q; ring). destruct n; cbn [sgq]; rewrite H; ring. }
  apply (is_float_comp 11 52 (sgq n (dy m (e - gran c + 1)))); [symmetry; exact T|]. destruct n; cbn [sgq]; [apply (is_float_opp 11 52 fmt_d)|]; exact P.
Qed.

Section loaded.
Context (m : nat) (file : list Z) (t : table) (s : summary).
Hypothesis FI : d_file rnd pw c "Biov" m = Some (Ok file).
Hypothesis LO : loadpositdump rnd file = Some (t, s).

Lemma nearest d q : is_double d q -> (Qabs q <= 2 * value c (maxreal c))%Q -> exists v i, nearest_posit c q v /\ toindex rnd t MFloat d = Some i /\
  (exists x, fromindex t MSigned i = Some x /\ is_double x (inject_Z v)) /\ (exists x, fromindex t MFloat i = Some x /\ is_double x (value c v)).
Proof using RN V FF FC SM RE FI LO.
  intros D Q. destruct (t_is rnd pw c V FF FC m file t s FI LO) as [-> _]. destruct (near_row rnd c RN V FF FC SM RE d q D Q) as (v & N & T). exists v, (v + maxreal c + 1).
  assert (R : real c v) by apply N. split; [exact N|]. split; [exact T|].
  split; [eexists; split; [apply (m_at_row c V (fun v => rnd (inject_Z v))); exact R|apply (first_is rnd c RN V n54); exact R]|].
  eexists; split; [apply (m_at_row c V third); exact R|apply third_is; assumption].
Qed.
Lemma at_entry v : real c v -> exists e, t_entry t (v + maxreal c + 1) = Some e /\ entry_of c t v e /\ e_float e = third v /\ e_index e = v + maxreal c + 1.
Proof using RN V FF FC SM FI LO.
  intros R. destruct (t_is rnd pw c V FF FC m file t s FI LO) as [-> _].
  exists (Ent (v + maxreal c + 1) (rnd (inject_Z v)) (rnd (inject_Z (second c v))) (third v)). unfold t_entry. cbn [DumpProof.columns t_signed t_unsigned t_float].
  rewrite (m_at_row c V (fun v => rnd (inject_Z v))) by exact R. rewrite (m_at_row c V (fun v => rnd (inject_Z (second c v)))) by exact R. rewrite (m_at_row c V third) by exact R. split; [reflexivity|].
  split; [|split; reflexivity]. unfold entry_of. cbn [e_index e_signed e_unsigned e_float]. split; [apply (first_is rnd c RN V n54); exact R|]. split; [apply third_is; assumption|].
  cbn [fromindex DumpProof.columns t_signed t_unsigned t_float].
  split; [apply (m_at_row c V (fun v => rnd (inject_Z v))); exact R|]. split; [apply (m_at_row c V (fun v => rnd (inject_Z (second c v)))); exact R|apply (m_at_row c V third); exact R].
Qed.
Lemma index_of i x v : fromindex t MSigned i = Some x -> is_double x (inject_Z v) -> real c v -> i = v + maxreal c + 1.
Proof using RN V FF FC SM FI LO.
  intros A B R. cbn [fromindex] in A. unfold m_at in A. destruct (Z.leb_spec 1 i); [|discriminate]. pose proof (mb c V).
  pose proof (row_of rnd pw c RN V FF FC n54 m file t s FI LO _ _ _ A B R) as E. unfold real in R. lia.
Qed.
Lemma sums md da db ia ib xa xb va vb : toindex rnd t md da = Some ia -> fromindex t MSigned ia = Some xa -> is_double xa (inject_Z va) -> real c va ->
  toindex rnd t md db = Some ib -> fromindex t MSigned ib = Some xb -> is_double xb (inject_Z vb) -> real c vb ->
  exists ea eb sd sq vy ey diff, testfloat11 rnd t md da db = Some (Test (Some ea) (Some eb) (Some sd) (Some ey) (Some diff)) /\
    entry_of c t va ea /\ entry_of c t vb eb /\ entry_of c t vy ey /\
    is_double sd sq /\ same_ext (FinVal sq) (ieee_val 11 52 (rnd (value c va + value c vb)%Q)) /\ nearest_posit c sq vy /\
    same_ext (ieee_val 11 52 diff) (ieee_val 11 52 (rnd (sq - value c vy)%Q)) /\
    ((cN c - 2) * 2 ^ ces c <= 26 -> (sq == value c va + value c vb)%Q /\ is_double diff (value c va + value c vb - value c vy)).
Proof using RN V FF FC SM RE FI LO.
  intros TA FA DA RA TB FB DB RB. pose proof (index_of _ _ _ FA DA RA) as ->. pose proof (index_of _ _ _ FB DB RB) as ->.
  destruct (at_entry va RA) as (ea & EA & EA2 & EA3 & EA4). destruct (at_entry vb RB) as (eb & EB & EB2 & EB3 & EB4).
  assert (F1 : fromindex t MFloat (va + maxreal c + 1) = Some (third va)) by (rewrite <- EA3, <- EA4; apply EA2). assert (F2 : fromindex t MFloat (vb + maxreal c + 1) = Some (third vb)) by (rewrite <- EB3, <- EB4; apply EB2).
  unfold testfloat11. rewrite TA, EA, TB, EB, F1, F2. set (sd := f_add 11 52 rnd (third va) (third vb)).
  destruct (add_ok _ _ _ _ (third_is c V FF FC va RA) (third_is c V FF FC vb RB)) as [S1 S2]. fold sd in S1, S2. pose proof (top va RA) as TVA. pose proof (top vb RB) as TVB.
  assert (SB : (Qabs (value c va + value c vb) <= 2 * value c (maxreal c))%Q) by (pose proof (Qabs_triangle (value c va) (value c vb)); lra).
  destruct (rnd_fin rnd RN _ _ twice_top SB) as (sq & SQ & SQB). rewrite SQ in S2. pose proof (val_is_double _ _ S1 S2) as SD.
  destruct (nearest sd sq SD SQB) as (vy & iy & NY & TY & (x & X1 & X2) & _). assert (RY : real c vy) by apply NY. pose proof (index_of _ _ _ X1 X2 RY) as ->.
  rewrite TY. destruct (at_entry vy RY) as (ey & EY & EY2 & EY3 & _). rewrite EY.
  destruct (sub_ok rnd RN _ _ _ _ SD (third_is c V FF FC vy RY)) as [D1 D2].
  exists ea, eb, sd, sq, vy, ey, (m_sub rnd sd (e_float ey)). split; [reflexivity|]. split; [exact EA2|]. split; [exact EB2|]. split; [exact EY2|]. split; [exact SD|]. split; [rewrite SQ; reflexivity|]. split; [exact NY|].
  rewrite EY3. split; [exact D2|]. intros E26. assert (E26' : emax c <= 26) by exact E26. pose proof (emax_bound c V FC) as [[EB0 _] _].
  destruct (fine va RA) as (ka & KA). destruct (fine vb RB) as (kb & KB). destruct (fine vy RY) as (ky & KY).
  assert (SUM : (value c va + value c vb == dy (ka + kb) (- emax c))%Q) by (rewrite KA, KB; apply dy_add).
  pose proof top_pow as TP. assert (PW : (2 * pow2 (emax c) == dy (2 ^ (2 * emax c + 1)) (- emax c))%Q) by (rewrite dy_pow2' by lia; replace (- emax c + (2 * emax c + 1)) with (emax c + 1) by lia; rewrite pow2_dbl; ring).
  pose proof (pow2_mono (2 * emax c + 1) 53 ltac:(lia)) as P53.
  assert (BD : forall k, (Qabs (dy k (- emax c)) <= 2 * value c (maxreal c))%Q -> Z.abs k <= 2 ^ 53).
  { intros k K. apply Z.le_trans with (2 ^ (2 * emax c + 1)); [|lia]. apply (dy_le_inv _ _ (- emax c)). apply Qle_trans with (Qabs (dy k (- emax c))); [|lra].
    destruct (Z.abs_eq_or_opp k) as [-> | ->]; [apply Qle_Qabs|]. rewrite <- dy_opp. rewrite <- Qabs_opp. apply Qle_Qabs. }
  assert (FS : isf (value c va + value c vb)).
  { apply (is_float_comp 11 52 (dy (ka + kb) (- emax c))); [symmetry; exact SUM|]. apply isf_int; [apply BD; rewrite <- SUM; exact SB|lia]. }
  assert (SE : (sq == value c va + value c vb)%Q).
  { destruct (rn_exact _ _ _ RN _ FS) as (z & Z & ZE). rewrite SQ in Z. injection Z as <-. exact ZE. }
  split; [exact SE|].
  assert (DF : (sq - value c vy == dy (ka + kb + - ky) (- emax c))%Q) by (rewrite SE, SUM, KY, <- (dy_add (ka + kb)), <- dy_opp; ring).
  assert (FD : isf (sq - value c vy)).
  { apply (is_float_comp 11 52 (dy (ka + kb + - ky) (- emax c))); [symmetry; exact DF|]. apply isf_int; [apply BD|lia]. rewrite <- DF.
    assert (R0 : real c 0) by (pose proof (mb c V); unfold real; lia). destruct NY as [_ NY]. destruct (NY 0 R0) as [N0 _]. change (value c 0) with 0%Q in N0.
    assert (A1 : (Qabs (0 - sq) == Qabs sq)%Q) by (rewrite <- Qabs_opp; setoid_replace (- (0 - sq))%Q with sq by ring; reflexivity).
    assert (A2 : (Qabs (value c vy - sq) == Qabs (sq - value c vy))%Q) by (rewrite <- Qabs_opp; setoid_replace (- (value c vy - sq))%Q with (sq - value c vy)%Q by ring; reflexivity). lra. }
  apply (is_double_comp _ (sq - value c vy)); [rewrite SE; reflexivity|]. apply sub_exact; [exact RN|exact SD|apply third_is; assumption|exact FD].
Qed.
End loaded.
End s.
