(** The shipped tables are what the programs write. *)
From Coq Require Import ZArith QArith Qabs Lia Lqa Bool List.
From Verif Require Import Res CInt Bits Traits Unpacked Cfg Posit Spec SpecTab SpecFloat SpecAny FloatOps QPow Core SpecLemmas Arith DecodeProof EncodeProof
  UOps UAdd Ops OpsAdd OpsUnary OpsUnary2 Specials Room Laws Configs Final1 Final2 Final3 Misc4 Conv1 Conv2 Conv3 Conv4 Conv5 TabProof5 FloatProof FloatProof2 PositF PositFProof PositFProof2 PositFProof3 PositFProof4
  AnyProof AnyProof2 AnyProof3 AnyProof4 AnyProof5 Tab TabProof TabProof2 TabProof3 TabProof4 Gen GenProof GenProof2.
Open Scope Z_scope.

Ltac tabbed_tac := constructor; [cfg_tac|unfold exp_ok; cbn; lia|unfold et_holds; cbn; lia|unfold pt_holds; cbn; lia|unfold frac_fits; cbn; lia|
  unfold mul_fits; cbn; lia|unfold roomy; cbn; lia|split; cbn; lia|cbn; lia|vm_compute; discriminate|vm_compute; discriminate|cbn; lia|reflexivity|
  split; vm_compute; reflexivity|vm_compute; reflexivity|intros []; vm_compute; reflexivity].
Lemma tab_p8 : tabbed p8. Proof. tabbed_tac. Qed.
Lemma tab_t10 : tabbed t10. Proof. tabbed_tac. Qed.
Lemma tab_p12 : tabbed p12. Proof. tabbed_tac. Qed.

Lemma t8_uu_index v : t8_uu v = g_index p8 v.
Proof. rewrite (index_mod p8 tab_p8). unfold t8_uu. apply cast_u. Qed.
Lemma t12_uu_index v : t12_uu v = g_index p12 v.
Proof. reflexivity. Qed.
Lemma t10_uu_index v : t10_uu v = g_index t10 v.
Proof. reflexivity. Qed.
Lemma s8_get1 rows v : s8_entry rows (g_index p8 v) = t8_get1 rows v.
Proof. rewrite <- t8_uu_index. reflexivity. Qed.
Lemma s8_get2 rows a b : s8_entry rows (g_index p8 a * 2 ^ cN p8 + g_index p8 b) = t8_get2 rows a b.
Proof. rewrite <- !t8_uu_index. reflexivity. Qed.
Lemma s12_get rows v : s12_entry rows (g_index p12 v) = t12_get rows v.
Proof. reflexivity. Qed.

Section g8.
Context (rnd : Q -> Z) (RN : rounding 8 23 rnd).
Lemma uniq c (V : valid_cfg c) x r s : rounds_tz c x r -> rounds_tz c x s -> r = s.
Proof using. vcb V. apply (rounds_tz_unique c BN Bes). Qed.
Lemma gen8_pairs i : 0 <= i < 65536 ->
  g_opadd p8 rnd i = s8_entry Tbl8.opadd_rows i /\ g_opmul p8 rnd i = s8_entry Tbl8.opmul_rows i /\ g_opdiv p8 rnd i = s8_entry Tbl8.opdiv_rows i.
Proof using RN.
  intros I. pose proof tab_p8 as T. destruct (pair_index p8 T i I) as (a & b & A & B & <-).
  unfold g_opadd, g_opmul, g_opdiv. rewrite !(pairs_at p8 T) by assumption. rewrite !s8_get2.
  change (t8_get2 Tbl8.opadd_rows a b) with (t8_add a b). change (t8_get2 Tbl8.opmul_rows a b) with (t8_mul a b). change (t8_get2 Tbl8.opdiv_rows a b) with (t8_div a b).
  destruct (split_pattern p8 T a A) as [RA|EA].
  2:{ destruct (pair_nan p8 T rnd a b A B (or_introl EA)) as (-> & -> & ->).
      destruct (t8_nan_any a b A B) as (-> & -> & -> & _); [left; rewrite EA; apply (exc_nan p8 T)|auto]. }
  destruct (split_pattern p8 T b B) as [RB|EB].
  2:{ destruct (pair_nan p8 T rnd a b A B (or_intror EB)) as (-> & -> & ->).
      destruct (t8_nan_any a b A B) as (-> & -> & -> & _); [right; rewrite EB; apply (exc_nan p8 T)|auto]. }
  pose proof (tb_valid p8 T) as V. split; [|split].
  - destruct (pair_add p8 T rnd RN a b RA RB) as (r & -> & _ & H). destruct (t8_add_rounds a b RA RB) as (s & -> & S). f_equal.
    apply (uniq p8 V (value p8 a + value p8 b)); [|exact S]. apply H. apply (add_exact p8 T); [vm_compute; discriminate|exact RA|exact RB].
  - destruct (pair_mul p8 T rnd RN a b RA RB) as (r & -> & H). destruct (t8_mul_rounds a b RA RB) as (s & -> & S). f_equal. exact (uniq p8 V _ r s H S).
  - destruct (Z.eq_dec b 0) as [->|NB]; [rewrite (pair_div_zero p8 T rnd a A), (t8_div_zero a A); reflexivity|].
    destruct (pair_div p8 T rnd RN a b RA RB NB) as (r & -> & H). destruct (t8_div_rounds a b RA RB NB) as (s & -> & S). f_equal. exact (uniq p8 V _ r s H S).
Qed.

Lemma float_same c (T : tabbed c) v b x : real c v -> v <> 0 -> 0 <= b < 2 ^ 32 -> ieee_val 8 23 b = FinVal x -> (x == value c v)%Q -> g_float c v = Ok b.
Proof using.
  intros R NZ B I E. destruct (float_real c T v R) as (b' & y & -> & B' & I' & E'). f_equal.
  refine (ieee_inj 8 23 b' b y x fmt23 B' B I' I _ _); rewrite E'; [symmetry; exact E|]. intros Z. apply NZ. apply (value_zero c T); assumption.
Qed.
Lemma gen8_unary i : 0 <= i < 256 ->
  g_opinv p8 i = s8_entry Tbl8.opinv_rows i /\ g_opsquare p8 rnd i = s8_entry Tbl8.opsquare_rows i /\ g_ophalf p8 rnd i = s8_entry Tbl8.ophalf_rows i /\
  g_op2float p8 i = s8_op2float i.
Proof using RN.
  intros I. pose proof tab_p8 as T. pose proof (tb_valid p8 T) as V. destruct (index_onto p8 T i I) as (v & P & <-).
  unfold g_opinv, g_opsquare, g_ophalf, g_op2float. rewrite !(fill1 p8 T) by assumption. rewrite !s8_get1.
  unfold s8_op2float. rewrite <- t8_uu_index. change (tab_get 32 256 Tbl8.op2float_rows (t8_uu v)) with (t8_to_float v).
  split; [exact (proj1 (agree8_unary v P))|].
  destruct (split_pattern p8 T v P) as [R| ->].
  2:{ destruct (entry_nan p8 T rnd) as (-> & ->). destruct t8_unary_nan as (_ & H & _ & S & _). split; [symmetry; exact S|]. split; [symmetry; exact H|]. vm_compute. reflexivity. }
  split; [|split].
  - destruct (entry_square p8 T rnd RN v R) as (r & -> & H). destruct (t8_square_rounds v R) as (s & S & S'). change (t8_get1 Tbl8.opsquare_rows v) with (t8_square v). rewrite S. f_equal. exact (uniq p8 V _ r s H S').
  - destruct (entry_half p8 T rnd RN v R) as (r & -> & H). destruct (t8_half_rounds v R) as (s & S & S'). change (t8_get1 Tbl8.ophalf_rows v) with (t8_half v). rewrite S. f_equal. exact (uniq p8 V _ r s H S').
  - destruct (Z.eq_dec v 0) as [->|NZ]; [vm_compute; reflexivity|]. destruct (t8_float v R) as (b & x & -> & B & Ib & E & _). exact (float_same p8 T v b x R NZ B Ib E).
Qed.

Lemma gen12_unary i : 0 <= i < 4096 ->
  g_opinv p12 i = s12_entry Tbl12.opinv_rows i /\ g_opsquare p12 rnd i = s12_entry Tbl12.opsquare_rows i /\ g_op2float p12 i = s12_op2float i.
Proof using RN.
  intros I. pose proof tab_p12 as T. pose proof (tb_valid p12 T) as V. destruct (index_onto p12 T i I) as (v & P & <-).
  unfold g_opinv, g_opsquare, g_op2float. rewrite !(fill1 p12 T) by assumption. rewrite !s12_get.
  unfold s12_op2float. rewrite <- t12_uu_index. change (tab_get 32 64 Tbl12.op2float_rows (t12_uu v)) with (t12_to_float v).
  change (t12_get Tbl12.opinv_rows v) with (t12_inv v). change (t12_get Tbl12.opsquare_rows v) with (t12_square v). unfold g_inv.
  destruct t12_specials as (S1 & S2 & S3 & _).
  destruct (split_pattern p12 T v P) as [R| ->].
  2:{ rewrite S2, S3. destruct (entry_nan p12 T rnd) as (-> & _). split; [vm_compute; reflexivity|]. split; [reflexivity|]. vm_compute. reflexivity. }
  split; [|split].
  - destruct (Z.eq_dec v 0) as [->|NZ]; [rewrite S1; vm_compute; reflexivity|].
    destruct (inv_total p12 v V (tb_exp p12 T) (tb_mf p12 T) (tb_roomy p12 T) R NZ) as (r & -> & H & _); [intros (E & _); discriminate|].
    destruct (t12_inv_rounds v R NZ) as (s & -> & S). f_equal. exact (uniq p12 V _ r s H S).
  - destruct (entry_square p12 T rnd RN v R) as (r & -> & H). destruct (t12_square_rounds v R) as (s & -> & S'). f_equal. exact (uniq p12 V _ r s H S').
  - destruct (Z.eq_dec v 0) as [->|NZ]; [vm_compute; reflexivity|]. destruct (t12_float v R) as (b & x & -> & B & Ib & E & _). exact (float_same p12 T v b x R NZ B Ib E).
Qed.
End g8.
