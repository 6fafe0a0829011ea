(** exp2 of posit12 for the exponential rounded to nearest, and for the one rounded down. *)
From Coq Require Import ZArith QArith Qabs Qpower Qminmax Lia Lqa Bool List.
From Verif Require Import Res CInt Bits Traits Unpacked Cfg Posit Spec SpecTab SpecFloat SpecAny SpecGen SpecExp FloatOps QPow Core SpecLemmas Arith DecodeProof EncodeProof
  UOps UAdd Ops OpsAdd OpsUnary OpsUnary2 Specials Room Laws Configs Final1 Final2 Final3 Misc4 Conv1 Conv2 Conv3 Conv4 Conv5 TabProof5 FloatProof FloatProof2 PositF PositFProof PositFProof2 PositFProof3 PositFProof4
  AnyProof AnyProof2 AnyProof3 AnyProof4 AnyProof5 Tab TabProof TabProof2 TabProof3 TabProof4 Gen GenProof GenProof2 GenProof3 GenProof4 GenProof5 GenProof6 Exp12a Exp12b Exp12c.
From Verif Require Tbl12.
Open Scope Z_scope.

Lemma float_code w : is_float 8 23 w -> (0 <= w)%Q -> exists h, 0 <= h < 255 * 2 ^ 23 /\ (w == mval 8 23 h)%Q.
Proof.
  intros F P. destruct (float_mval 8 23 fmt23 w F) as (sg & h & H1 & H2). change ((2 ^ 8 - 1) * 2 ^ 23) with (255 * 2 ^ 23) in H1.
  destruct sg; cbn [sgq] in H2; [|exists h; split; assumption].
  destruct (Z.eq_dec h 0) as [->|N]; [exists 0; split; [lia|rewrite (mval_0 8 23 fmt23) in *; lra]|]. pose proof (mval_pos 8 23 fmt23 h ltac:(lia)). lra.
Qed.
Lemma mval_lt_inv g h : 0 <= g -> 0 <= h -> (mval 8 23 g < mval 8 23 h)%Q -> g < h.
Proof. intros A B L. destruct (Z_lt_le_dec g h) as [|G]; [assumption|]. pose proof (mval_le 8 23 fmt23 h g B G). lra. Qed.
Lemma mval_one : (mval 8 23 (127 * 2 ^ 23) == 1)%Q. Proof. vm_compute. reflexivity. Qed.
Lemma mval_sub_one : (mval 8 23 (127 * 2 ^ 23 - 1) == 16777215 # 2 ^ 24)%Q. Proof. vm_compute. reflexivity. Qed.
Lemma float_lt_one y : is_float 8 23 y -> (0 <= y)%Q -> (y < 1)%Q -> (y <= 16777215 # 2 ^ 24)%Q.
Proof.
  intros F P L. destruct (float_code y F P) as (h & H & E). rewrite E, <- mval_one in L. apply mval_lt_inv in L; [|lia|lia].
  rewrite E, <- mval_sub_one. apply (mval_le 8 23 fmt23); lia.
Qed.
Lemma sub_one_float : is_float 8 23 (16777215 # 2 ^ 24).
Proof. apply (is_float_comp 8 23 _ _ mval_sub_one). apply (is_float_mval 8 23 fmt23 false). lia. Qed.

Lemma tiny_pos : (0 < 33554431 # 2 ^ 25)%Q. Proof. reflexivity. Qed.
Section near.
Context (ex : Z -> Z) (EN : exp2_nearest 8 23 ex).
Let EX := en_faithful 8 23 ex EN.
Lemma gen12_high v : real p12 v -> (128 <= value p12 v)%Q -> g_exp2 p12 ex v = Ok (exceptional p12).
Proof using EN.
  intros R L. pose proof tab_p12 as T. unfold g_exp2. destruct (float_real p12 T v R) as (b & x & -> & B & I & E). cbn [bind].
  apply (of_nan p12 T); [exact (e2_range _ _ _ EX b B)|]. intros y. rewrite (proj2 (en_over _ _ _ EN b x B I)); [discriminate|].
  apply (le_exp2_mono _ (pow2 128)); [vm_compute; discriminate|vm_compute; discriminate|]. apply pow2_exp2. change (inject_Z 128) with 128%Q. lra.
Qed.
Lemma gen12_tiny v : real p12 v -> ((-1 # 2 ^ 22) < value p12 v)%Q -> (value p12 v < 0)%Q -> g_exp2 p12 ex v = t12_exp2 v.
Proof using EN.
  intros R L U. pose proof tab_p12 as T. assert (L143 : (-143 < value p12 v)%Q) by (assert (-143 < (-1 # 2 ^ 22))%Q by reflexivity; lra).
  destruct (exp2_mid v R L143 ltac:(lra)) as (s & S & SB & L' & U' & _ & TR).
  destruct (entry_exp2_down p12 T ltac:(cbn; lia) ex EX v R L' U') as (r & b & x & y & -> & B & I & E & IE & Y0 & D & BL & AB).
  rewrite S. f_equal.
  assert (YF : is_float 8 23 y) by (exists (ex b), y; split; [exact (e2_range _ _ _ EX b B)|split; [exact IE|reflexivity]]).
  assert (F1 : is_float 8 23 1) by (apply (is_float_comp 8 23 _ _ mval_one), (is_float_mval 8 23 fmt23 false); lia).
  assert (Y1 : (y <= 1)%Q).
  { apply AB; [exact F1|reflexivity|]. apply (ge_exp2_comp (pow2 0) 1 (value p12 v) (value p12 v)); [reflexivity|reflexivity|]. apply exp2_pow2. change (inject_Z 0) with 0%Q. lra. }
  destruct (Qle_bool (-1 # 2 ^ 25) (value p12 v)) eqn:Q1.
  - (* rounds up to 1 *)
    assert (Q2 : Qle_bool 0 (value p12 v) = false) by (apply not_true_iff_false; rewrite Qle_bool_iff; lra). rewrite Q2 in TR. cbn [andb negb] in TR. subst s. apply Qle_bool_iff in Q1.
    assert (YE : (y == 1)%Q).
    { destruct (Qlt_le_dec y 1) as [YL|YL]; [exfalso|lra]. pose proof (float_lt_one y YF ltac:(lra) YL) as YM.
      destruct (en_near _ _ _ EN b x y 1 B I IE F1 ltac:(lra)) as [_ N]. specialize (N YL).
      assert (N2 : ge_exp2 (33554431 # 2 ^ 25) x).
      { apply (ge_exp2_mono ((1 + y) / 2)); [unfold Qdiv; change (/ 2)%Q with (1 # 2); lra| |exact N]. unfold Qdiv. change (/ 2)%Q with (1 # 2).
        assert ((1 + (16777215 # 2 ^ 24)) * (1 # 2) == 33554431 # 2 ^ 25)%Q by (vm_compute; reflexivity). lra. }
      pose proof (exp2_args _ _ _ tiny_pos tiny25_up N2) as A.
      assert ((-5 # 2 ^ 27) < (-1 # 2 ^ 25))%Q by reflexivity. lra. }
    pose proof (tb_valid p12 T) as V. apply (uniq p12 V y); [right; left; split; assumption|]. right. left. split; [exact Y0|].
    assert (V1 : (value p12 1024 == 1)%Q) by (vm_compute; reflexivity). split; [unfold real; cbn; lia|]. split; [rewrite V1; reflexivity|]. split.
    + intros w W WP WL. rewrite V1. lra.
    + left. rewrite V1. lra.
  - assert (Q1' : (value p12 v < (-1 # 2 ^ 25))%Q) by (apply Qnot_le_lt; rewrite <- Qle_bool_iff; congruence). cbn [andb] in TR.
    refine (down_same y _ r s _ Y0 D TR SB eq_refl BL _). right.
    destruct (chk12_elim _ _ chk12_gap v R) as (s' & S' & G). rewrite S in S'. injection S' as <-. unfold gap12 in G.
    assert (K1 : - 2 ^ 18 < s12 v).
    { apply Z.nle_gt. intros Q. apply (proj2 (proj2 (s12_cmp (- 2 ^ 18) v R))) in Q. assert ((- 2 ^ 18 # S12) == (-1 # 2 ^ 22))%Q by (vm_compute; reflexivity). lra. }
    assert (K2 : s12 v < - 2 ^ 15).
    { apply Z.nle_gt. intros Q. apply (proj2 (proj1 (s12_cmp (- 2 ^ 15) v R))) in Q. assert ((- 2 ^ 15 # S12) == (-1 # 2 ^ 25))%Q by (vm_compute; reflexivity). lra. }
    replace ((s12 v <=? -143 * 2 ^ 40) || (127 * 2 ^ 40 <? s12 v) || ((- 2 ^ 18 <? s12 v) && (s12 v <? 0))) with true in G
      by (symmetry; apply orb_true_iff; right; apply andb_true_iff; split; apply Z.ltb_lt; lia).
    replace (- 2 ^ 18 <? s12 v) with true in G by (symmetry; apply Z.ltb_lt; lia). replace (s12 v <? - 2 ^ 15) with true in G by (symmetry; apply Z.ltb_lt; lia).
    cbn [andb negb orb] in G. apply andb_true_iff in G. destruct G as [G1 G2]. apply Z.eqb_eq in G1. apply Z.leb_le in G2. subst s.
    assert (V1 : (value p12 (1023 + 1) == 1)%Q) by (vm_compute; reflexivity). rewrite V1. apply Qnot_le_lt. intros YG.
    assert (VX : (value p12 v <= (-3 * 2 ^ 14 # S12))%Q) by (apply (proj2 (proj2 (s12_cmp (-3 * 2 ^ 14) v R))); lia).
    destruct (en_near _ _ _ EN b x y (16777215 # 2 ^ 24) B I IE sub_one_float ltac:(discriminate)) as [N _].
    assert (YL : ((16777215 # 2 ^ 24) < y)%Q) by (assert ((16777215 # 2 ^ 24) < 1)%Q by reflexivity; lra). specialize (N YL).
    assert (N2 : le_exp2 (33554431 # 2 ^ 25) x).
    { apply (le_exp2_mono _ (((16777215 # 2 ^ 24) + y) / 2)); [discriminate| |exact N]. unfold Qdiv. change (/ 2)%Q with (1 # 2).
      assert (((16777215 # 2 ^ 24) + 1) * (1 # 2) == 33554431 # 2 ^ 25)%Q by (vm_compute; reflexivity). lra. }
    pose proof (exp2_args _ _ _ tiny_pos N2 tiny25_lo) as A.
    assert ((-3 * 2 ^ 14 # S12) < (-47 # 2 ^ 30))%Q by reflexivity. lra.
Qed.
End near.

Lemma t12_idx v : pattern p12 v -> forall ex, g_opexp2 p12 ex (g_index p12 v) = g_exp2 p12 ex v.
Proof. intros P ex. unfold g_opexp2. rewrite (fill1 p12 tab_p12) by assumption. reflexivity. Qed.
Lemma t12_shipped v : s12_entry Tbl12.opexp2_rows (g_index p12 v) = t12_exp2 v.
Proof. rewrite s12_get. reflexivity. Qed.

(** Any faithful exponential: the entries of the numbers up to -2^-22, of those from 0 to 127, and of NaN. *)
Lemma gen12_settled ex (EX : exp2_float 8 23 ex) v : pattern p12 v -> v = exceptional p12 \/ settled (value p12 v) ->
  g_opexp2 p12 ex (v mod 4096) = s12_entry Tbl12.opexp2_rows (v mod 4096).
Proof.
  intros P H. pose proof tab_p12 as T. change 4096 with (2 ^ cN p12). rewrite <- (index_mod p12 T). rewrite (t12_idx v P), t12_shipped.
  destruct (split_pattern p12 T v P) as [R| ->]; [|rewrite (entry_exp2_nan p12 T ex EX); vm_compute; reflexivity].
  destruct H as [->|H]; [exfalso; revert R; unfold real; cbn; lia|].
  destruct (Qlt_le_dec (-143) (value p12 v)) as [L|L]; [exact (gen12_mid ex EX v R L H)|].
  rewrite (t12_exp2_low v R L). apply (entry_exp2_low p12 T); [cbn; lia|exact EX|exact R|exact L].
Qed.
Lemma gen12_nearest ex (EN : exp2_nearest 8 23 ex) i : 0 <= i < 4096 -> g_opexp2 p12 ex i = s12_entry Tbl12.opexp2_rows i.
Proof.
  intros I. pose proof tab_p12 as T. destruct (index_onto p12 T i I) as (v & P & IX). assert (IV : i = v mod 4096) by (rewrite <- IX; apply (index_mod p12 T)).
  destruct (split_pattern p12 T v P) as [R|EV]; [|rewrite IV; apply gen12_settled; [exact (en_faithful _ _ _ EN)|exact P|left; exact EV]].
  destruct (Qlt_le_dec (-1 # 2 ^ 22) (value p12 v)) as [L|L]; [|rewrite IV; apply gen12_settled; [exact (en_faithful _ _ _ EN)|exact P|right; left; exact L]].
  destruct (Qlt_le_dec (value p12 v) 0) as [U|U].
  - rewrite <- IX, (t12_idx v P), t12_shipped. apply gen12_tiny; assumption.
  - destruct (Qlt_le_dec (value p12 v) 128) as [U2|U2].
    + rewrite IV. apply gen12_settled; [exact (en_faithful _ _ _ EN)|exact P|right; right]. split; [exact U|].
      destruct (exp2_mid v R ltac:(lra) U2) as (s & _ & _ & _ & U127 & _). exact U127.
    + rewrite <- IX, (t12_idx v P), t12_shipped. rewrite (t12_exp2_high v R U2). apply gen12_high; assumption.
Qed.

(** ** The exponential rounded to nearest *)
Definition mid (g : Z) : Q := (mval 8 23 g + mval 8 23 (g + 1)) / 2.
Definition ex_near (b : Z) : Z :=
  match ieee_val 8 23 b with FinVal x => let g := ex_floor b in if le_exp2b (mid g) x then g + 1 else g | _ => ex_floor b end.
Lemma mid_max : (mid (255 * 2 ^ 23 - 1) == pow2 (2 ^ (8 - 1)) - pow2 (2 ^ (8 - 1) - 23 - 2))%Q.
Proof. vm_compute. reflexivity. Qed.
Lemma mval_nonneg g : 0 <= g -> (0 <= mval 8 23 g)%Q.
Proof. intros G. destruct (Z.eq_dec g 0) as [->|N]; [rewrite (mval_0 8 23 fmt23); lra|]. apply Qlt_le_weak, (mval_pos 8 23 fmt23). lia. Qed.
Lemma mid_between g : 0 <= g -> (mval 8 23 g < mid g)%Q /\ (mid g < mval 8 23 (g + 1))%Q.
Proof. intros G. pose proof (mval_lt 8 23 fmt23 g (g + 1) G ltac:(lia)). unfold mid, Qdiv. change (/ 2)%Q with (1 # 2). split; lra. Qed.
Lemma inf_val : ieee_val 8 23 (255 * 2 ^ 23) = InfVal false. Proof. vm_compute. reflexivity. Qed.

(** What is known of a finite argument. *)
Lemma near_fin b x : ieee_val 8 23 b = FinVal x -> exists g, 0 <= g < 255 * 2 ^ 23 /\ ex_floor b = g /\ le_exp2 (mval 8 23 g) x /\
  (forall w, is_float 8 23 w -> (0 < w)%Q -> le_exp2 w x -> (w <= mval 8 23 g)%Q) /\
  ((le_exp2 (mid g) x /\ ex_near b = g + 1) \/ (ge_exp2 (mid g) x /\ ~ le_exp2 (mid g) x /\ ex_near b = g)).
Proof.
  intros I. destruct (ex_floor_fin b x I) as (y & G & Y & L & M). set (g := ex_floor b) in *. exists g. split; [exact G|]. split; [reflexivity|].
  destruct (ieee_code 8 23 fmt23 false g G) as (y' & Y' & E). rewrite Z.add_0_r, Y in Y'. injection Y' as <-. cbn [sgq] in E.
  split; [apply (le_exp2_comp _ _ _ _ E (Qeq_refl x)); exact L|]. split; [intros w F P H; rewrite <- E; exact (M w F P H)|].
  assert (EN : ex_near b = if le_exp2b (mid g) x then g + 1 else g) by (unfold ex_near; rewrite I; reflexivity). clearbody g.
  destruct (le_exp2b (mid g) x) eqn:Q; [left; split; [apply le_exp2b_ok; exact Q|exact EN]|right].
  assert (N : ~ le_exp2 (mid g) x) by (intros H; apply le_exp2b_ok in H; congruence). split; [apply ge_of_not; exact N|]. split; [exact N|exact EN].
Qed.
Lemma code_val g : 0 <= g < 255 * 2 ^ 23 -> exists y, ieee_val 8 23 g = FinVal y /\ (y == mval 8 23 g)%Q.
Proof. intros G. destruct (ieee_code 8 23 fmt23 false g G) as (y & Y & E). rewrite Z.add_0_r in Y. cbn [sgq] in E. exists y. split; assumption. Qed.
Lemma max_over g x : 0 <= g < 255 * 2 ^ 23 -> (forall w, is_float 8 23 w -> (0 < w)%Q -> le_exp2 w x -> (w <= mval 8 23 g)%Q) ->
  le_exp2 (pow2 (2 ^ (8 - 1)) - pow2 (2 ^ (8 - 1) - 23 - 2)) x -> g = 255 * 2 ^ 23 - 1.
Proof.
  intros G M H. assert (LM : le_exp2 (mval 8 23 (255 * 2 ^ 23 - 1)) x).
  { eapply le_exp2_mono; [| |exact H]; [apply mval_nonneg; lia|]. rewrite <- mid_max. exact (Qlt_le_weak _ _ (proj1 (mid_between (255 * 2 ^ 23 - 1) ltac:(lia)))). }
  pose proof (M _ (is_float_mval 8 23 fmt23 false (255 * 2 ^ 23 - 1) ltac:(lia)) (mval_pos 8 23 fmt23 (255 * 2 ^ 23 - 1) ltac:(lia)) LM) as Q. cbn [sgq] in Q.
  destruct (Z.eq_dec g (255 * 2 ^ 23 - 1)) as [|N]; [assumption|]. pose proof (mval_lt 8 23 fmt23 g (255 * 2 ^ 23 - 1) ltac:(lia) ltac:(lia)). lra.
Qed.
Lemma ex_near_nearest : exp2_nearest 8 23 ex_near.
Proof.
  pose proof ex_floor_faithful as E.
  assert (SP : forall b, (forall x, ieee_val 8 23 b <> FinVal x) -> ex_near b = ex_floor b) by (intros b N; unfold ex_near; destruct (ieee_val 8 23 b) as [x| |]; [destruct (N x eq_refl)|reflexivity|reflexivity]).
  assert (R32 : 255 * 2 ^ 23 < 2 ^ (8 + 23 + 1)) by (vm_compute; reflexivity).
  constructor; [constructor|..].
  - intros b B. destruct (ieee_val 8 23 b) as [x|s|] eqn:I.
    + destruct (near_fin b x I) as (g & G & _ & _ & _ & [[_ ->]|[_ [_ ->]]]).
      * split; [lia|]. apply Z.le_lt_trans with (255 * 2 ^ 23); [lia|exact R32].
      * split; [lia|]. apply Z.lt_trans with (255 * 2 ^ 23); [lia|exact R32].
    + rewrite SP by (intros x; rewrite I; discriminate). exact (e2_range _ _ _ E b B).
    + rewrite SP by (intros x; rewrite I; discriminate). exact (e2_range _ _ _ E b B).
  - intros b B I. rewrite SP by (intros x; rewrite I; discriminate). exact (e2_nan _ _ _ E b B I).
  - intros b B I. rewrite SP by (intros x; rewrite I; discriminate). exact (e2_pinf _ _ _ E b B I).
  - intros b B I. rewrite SP by (intros x; rewrite I; discriminate). exact (e2_ninf _ _ _ E b B I).
  - intros b x B I. destruct (near_fin b x I) as (g & G & _ & _ & _ & [[_ ->]|[_ [_ ->]]]).
    + destruct (Z.eq_dec (g + 1) (255 * 2 ^ 23)) as [->|N]; [rewrite inf_val; exact Logic.I|]. destruct (code_val (g + 1) ltac:(lia)) as (y & -> & YE). cbn [ext_le]. rewrite YE. apply mval_nonneg. lia.
    + destruct (code_val g G) as (y & -> & YE). cbn [ext_le]. rewrite YE. apply mval_nonneg. lia.
  - intros b x w B I F P L. destruct (near_fin b x I) as (g & G & _ & _ & M & [[_ ->]|[_ [_ ->]]]); pose proof (M w F P L) as WL.
    + destruct (Z.eq_dec (g + 1) (255 * 2 ^ 23)) as [->|N]; [rewrite inf_val; exact Logic.I|]. destruct (code_val (g + 1) ltac:(lia)) as (y & -> & YE). cbn [ext_le]. rewrite YE.
      pose proof (mval_lt 8 23 fmt23 g (g + 1) ltac:(lia) ltac:(lia)). lra.
    + destruct (code_val g G) as (y & -> & YE). cbn [ext_le]. rewrite YE. exact WL.
  - intros b x w B I F P L. destruct (near_fin b x I) as (g & G & _ & LG & M & [[H ->]|[H [_ ->]]]).
    + pose proof (mid_between g ltac:(lia)) as [MB _]. pose proof (mval_nonneg g ltac:(lia)) as MN. pose proof (exp2_order (mid g) w x ltac:(lra) P H L) as MW.
      destruct (float_code w F ltac:(lra)) as (h & HB & HE). rewrite HE in MW. assert (GH : g < h) by (apply mval_lt_inv; [lia|lia|lra]).
      destruct (Z.eq_dec (g + 1) (255 * 2 ^ 23)) as [|N]; [lia|]. destruct (code_val (g + 1) ltac:(lia)) as (y & -> & YE). cbn [ext_le]. rewrite YE, HE. apply (mval_le 8 23 fmt23); lia.
    + destruct (code_val g G) as (y & -> & YE). cbn [ext_le]. rewrite YE. destruct (Z.eq_dec g 0) as [->|N]; [rewrite (mval_0 8 23 fmt23); lra|].
      apply (exp2_order _ w x (mval_pos 8 23 fmt23 g ltac:(lia)) P LG L).
  - intros b x y w B I IE F P. destruct (float_code w F P) as (h & HB & HE). destruct (near_fin b x I) as (g & G & _ & LG & M & [[H R]|[H [_ R]]]); rewrite R in IE.
    + destruct (Z.eq_dec (g + 1) (255 * 2 ^ 23)) as [Q|N]; [rewrite Q, inf_val in IE; discriminate|]. destruct (code_val (g + 1) ltac:(lia)) as (y' & Y' & YE). rewrite IE in Y'. injection Y' as <-.
      split; intros L.
      * rewrite HE, YE in L. apply mval_lt_inv in L; [|lia|lia]. apply (le_exp2_mono _ (mid g)); [unfold Qdiv; change (/ 2)%Q with (1 # 2); pose proof (mval_nonneg (g + 1) ltac:(lia)); lra| |exact H].
        pose proof (mval_le 8 23 fmt23 h g ltac:(lia) ltac:(lia)). unfold mid, Qdiv. change (/ 2)%Q with (1 # 2). lra.
      * assert (NL : ~ le_exp2 (mval 8 23 (g + 1)) x).
        { intros Q. pose proof (M _ (is_float_mval 8 23 fmt23 false (g + 1) ltac:(lia)) (mval_pos 8 23 fmt23 (g + 1) ltac:(lia)) Q) as Q2. cbn [sgq] in Q2. pose proof (mval_lt 8 23 fmt23 g (g + 1) ltac:(lia) ltac:(lia)). lra. }
        apply (ge_exp2_mono (mval 8 23 (g + 1))); [apply mval_nonneg; lia| |apply ge_of_not; exact NL]. unfold Qdiv. change (/ 2)%Q with (1 # 2). lra.
    + destruct (code_val g G) as (y' & Y' & YE). rewrite IE in Y'. injection Y' as <-. split; intros L.
      * apply (le_exp2_mono _ (mval 8 23 g)); [unfold Qdiv; change (/ 2)%Q with (1 # 2); lra|unfold Qdiv; change (/ 2)%Q with (1 # 2); lra|exact LG].
      * rewrite HE, YE in L. apply mval_lt_inv in L; [|lia|lia]. pose proof (mval_le 8 23 fmt23 (g + 1) h ltac:(lia) ltac:(lia)) as GH. pose proof (mid_between g ltac:(lia)) as [MB _]. pose proof (mval_nonneg g ltac:(lia)) as MN.
        apply (ge_exp2_mono (mid g)); [lra| |exact H]. unfold mid, Qdiv. change (/ 2)%Q with (1 # 2). lra.
  - intros b x B I. destruct (near_fin b x I) as (g & G & _ & LG & M & [[H ->]|[_ [H ->]]]).
    + destruct (Z.eq_dec (g + 1) (255 * 2 ^ 23)) as [Q|N].
      * rewrite Q, inf_val. split; [intros _|reflexivity]. apply (proj1 (le_exp2_comp _ _ _ _ mid_max (Qeq_refl x))). replace (255 * 2 ^ 23 - 1) with g by lia. exact H.
      * destruct (code_val (g + 1) ltac:(lia)) as (y & -> & _). split; [discriminate|]. intros Q. pose proof (max_over g x G M Q). lia.
    + destruct (code_val g G) as (y & -> & _). split; [discriminate|]. intros Q. exfalso. pose proof (max_over g x G M Q) as ->. apply H.
      apply (proj1 (le_exp2_comp _ _ _ _ (Qeq_sym _ _ mid_max) (Qeq_refl x))). exact Q.
Qed.

(** ** Rounded down, the entries just below 0 and above 127 differ *)
Lemma gen12_floor_tiny : g_opexp2 p12 ex_floor ((-1) mod 4096) = Ok 1023 /\ s12_entry Tbl12.opexp2_rows ((-1) mod 4096) = Ok 1024.
Proof.
  split; [|vm_compute; reflexivity]. pose proof tab_p12 as T. pose proof ex_floor_faithful as EX. assert (R : real p12 (-1)) by (unfold real; cbn; lia).
  assert (P : pattern p12 (-1)) by (unfold pattern; cbn; lia).
  change 4096 with (2 ^ cN p12). rewrite <- (index_mod p12 T), (t12_idx (-1) P).
  destruct (entry_exp2_down p12 T ltac:(cbn; lia) ex_floor EX (-1) R ltac:(vm_compute; discriminate) ltac:(vm_compute; discriminate)) as (r & b & x & y & -> & B & I & E & IE & Y0 & D & BL & AB). f_equal.
  assert (VX : (value p12 (-1) == (-1 # S12))%Q) by (vm_compute; reflexivity).
  destruct (ex_floor_fin b x I) as (y' & _ & Y' & LY & _). rewrite IE in Y'. injection Y' as <-.
  assert (YF : is_float 8 23 y) by (exists (ex_floor b), y; split; [exact (e2_range _ _ _ EX b B)|split; [exact IE|reflexivity]]).
  assert (YL : (y < 1)%Q).
  { apply Qnot_le_lt. intros Q. assert (H1 : le_exp2 1 x) by (apply (le_exp2_mono _ y); [discriminate|exact Q|exact LY]).
    assert (H0 : ge_exp2 1 0) by (vm_compute; discriminate). pose proof (exp2_args 1 x 0 ltac:(reflexivity) H1 H0). assert ((-1 # S12) < 0)%Q by reflexivity. lra. }
  pose proof (float_lt_one y YF ltac:(lra) YL) as YM.
  assert (YG : ((16777215 # 2 ^ 24) <= y)%Q).
  { apply BL; [exact sub_one_float|reflexivity|]. apply (le_exp2_comp _ _ _ _ (Qeq_refl _) VX). apply (le_exp2_mono _ (33554431 # 2 ^ 25)); [discriminate|discriminate|].
    apply (le_exp2_up _ _ _ tiny_pos tiny25_up). discriminate. }
  pose proof (tb_valid p12 T) as V. apply (uniq p12 V y); [right; left; split; assumption|]. right. left. split; [exact Y0|].
  assert (V1 : (value p12 1024 == 1)%Q) by (vm_compute; reflexivity). split; [unfold real; cbn; lia|]. split; [vm_compute; reflexivity|]. split.
  - intros w W WP WL. vcb V. pose proof W as WR. unfold real in WR. pose proof (value_pos_inv p12 BN Bes w (real_bounds p12 BN Bes w W) WP) as WP'. change (maxreal p12) with 2047 in WR.
    apply (value_le p12 BN Bes); [cbn; lia| |cbn; lia]. destruct (Z_le_gt_dec w 1023) as [|N]; [assumption|exfalso].
    assert (value p12 1024 <= value p12 w)%Q by (apply (value_le p12 BN Bes); cbn; lia). lra.
  - left. apply Qle_trans with (16777215 # 2 ^ 24); [vm_compute; discriminate|exact YG].
Qed.
Lemma gen12_floor_refuted : exists ex, exp2_float 8 23 ex /\ exists i, 0 <= i < 4096 /\
  g_opexp2 p12 ex i = Ok 1023 /\ s12_entry Tbl12.opexp2_rows i = Ok 1024.
Proof.
  exists ex_floor. split; [exact ex_floor_faithful|]. exists ((-1) mod 4096). split; [vm_compute; split; [discriminate|reflexivity]|]. exact gen12_floor_tiny.
Qed.

(** ** The shipped table by ranges *)
Lemma t12_exp2_trunc v : real p12 v -> ((0 <= value p12 v < 128) \/ (-143 < value p12 v < -1 # 2 ^ 25))%Q ->
  exists r, t12_exp2 v = Ok r /\ exp2_trunc p12 (value p12 v) r.
Proof.
  intros R H. assert (K : ((-1 # 2 ^ 25) < 0)%Q) by reflexivity. destruct (exp2_mid v R ltac:(lra) ltac:(lra)) as (r & E & _ & _ & _ & _ & T). exists r. split; [exact E|].
  destruct (Qle_bool (-1 # 2 ^ 25) (value p12 v)) eqn:Q1; [destruct (Qle_bool 0 (value p12 v)) eqn:Q2|]; try exact T. exfalso.
  apply Qle_bool_iff in Q1. apply not_true_iff_false in Q2. rewrite Qle_bool_iff in Q2. destruct H as [[H _]|[_ H]]; [exact (Q2 H)|lra].
Qed.
Lemma t12_exp2_tiny v : real p12 v -> ((-1 # 2 ^ 25) <= value p12 v < 0)%Q ->
  t12_exp2 v = Ok 1024 /\ (value p12 1024 == 1)%Q /\ exp2_near p12 (value p12 v) 1024 /\ ~ le_exp2 1 (value p12 v) /\ ~ exp2_trunc p12 (value p12 v) 1024.
Proof.
  intros R [L U]. assert (K : (-143 < (-1 # 2 ^ 25))%Q) by reflexivity. destruct (exp2_mid v R ltac:(lra) ltac:(lra)) as (r & E & _ & _ & _ & N & T).
  rewrite (proj2 (Qle_bool_iff _ _) L) in T. assert (Q2 : Qle_bool 0 (value p12 v) = false) by (apply not_true_iff_false; rewrite Qle_bool_iff; lra). rewrite Q2 in T. cbn [andb negb] in T. subst r.
  assert (V1 : (value p12 1024 == 1)%Q) by (vm_compute; reflexivity).
  assert (NL : ~ le_exp2 1 (value p12 v)).
  { intros H. assert (H0 : ge_exp2 1 0) by (vm_compute; discriminate). pose proof (exp2_args 1 (value p12 v) 0 ltac:(reflexivity) H H0). lra. }
  split; [exact E|]. split; [exact V1|]. split; [exact N|]. split; [exact NL|].
  intros (_ & _ & _ & [H|H]).
  - apply NL. exact (proj1 (le_exp2_comp _ _ _ _ V1 (Qeq_refl _)) H).
  - specialize (H 1 ltac:(unfold real; cbn; lia) ltac:(vm_compute; reflexivity)). revert H. vm_compute. intros H. apply H. reflexivity.
Qed.
