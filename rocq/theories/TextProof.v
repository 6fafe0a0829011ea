(** The columns of a text listing. *)
From Coq Require Import ZArith QArith Qabs Bool List String Ascii Sorted Lia Lqa.
From Verif Require Import Res CInt Bits Traits Unpacked Cfg Spec SpecFloat SpecPrint SpecDump Posit ListP Dump Print TextList SpecText QPow Core SpecLemmas Arith DecodeProof EncodeProof UOps UAdd Ops OpsUnary OpsUnary2
  Final1 Final4 Conv1 Conv5 FloatProof PrintProof PrintProof2 ListProof DumpProof Prog1 Prog2.
Import ListNotations.
Open Scope Z_scope.

Lemma has_asks ch f : asks ch f = d_has ch f.
Proof. unfold asks. induction f as [|a f IH]; [reflexivity|]. cbn [list_ascii_of_string existsb d_has]. rewrite IH, Ascii.eqb_sym. reflexivity. Qed.
Lemma w_tab_is : w_tab = tab. Proof. reflexivity. Qed.
Lemma w_endl_is : w_endl = nl. Proof. reflexivity. Qed.

Section s.
Context (show : Z -> string) (pw : Z -> Z) (c : cfg).
Hypothesis V : valid_cfg c.
Hypothesis FF : frac_fits c.
Hypothesis FC : float_covers c 11 52.
Notation col := (column show pw c).

Lemma range : 0 < emax c <= 1022 /\ (cN c - 2) * 2 ^ ces c <= 1022 /\ 1 <= 2 ^ ces c.
Proof using V FC. vcb V. unfold float_covers in FC. unfold emax. change (2 ^ (11 - 1) - 2) with 1022 in FC. pow_pos 2 (ces c). nia. Qed.
Lemma pt_width : 16 <= iw (tPT c) /\ isg (tPT c) = true /\ cH c <= iw (tPT c).
Proof using V. unfold tPT, tS. destruct (vc_H _ V) as [-> | [-> | [-> | ->]]]; cbn; lia. Qed.
Lemma pt_small z : - 2 ^ 15 <= z < 2 ^ 15 -> cast (tPT c) z = z.
Proof using V. clear FF FC. intros Z. unfold tPT, tS. change (2 ^ 15) with 32768 in Z. destruct (vc_H _ V) as [-> | [-> | [-> | ->]]]; cbn [Z.eqb Pos.eqb]; apply cast_s_small; cbn; lia. Qed.
Lemma put_pt z s : put_int (tPT c) z (Stream only_dec s) = Stream only_dec (s ++ decimal z).
Proof using. clear. unfold put_int, put. cbn [s_flags s_text]. reflexivity. Qed.

(** The unpacked forms of any pattern. *)
Inductive forms (v : Z) : Prop :=
| FNum e f k e' f' : real c v -> v <> 0 -> unpack c v = Ok (U Regular (v <? 0) e f) -> unpack_low c v = Ok (UL Regular (v <? 0) k e' f') ->
    regime_of c (value c v) k -> exponent_of (value c v) e -> Z.abs k <= cN c - 2 -> Z.abs e <= emax c -> forms v
| FOther u l : ~ (real c v /\ v <> 0) -> unpack c v = Ok u -> unpack_low c v = Ok l -> uexp u = 0 -> lreg l = 0 -> forms v.
Lemma lval_range g y : 0 <= g -> (pow2 (y / 2 ^ g) <= lval g y < pow2 (y / 2 ^ g + 1))%Q.
Proof using.
  clear. intros G. pow_pos 2 g. pose proof (Z.div_mod y (2 ^ g) ltac:(lia)) as D. pose proof (Z.mod_pos_bound y (2 ^ g) ltac:(lia)) as M. set (e := y / 2 ^ g) in *. split.
  - apply Qle_trans with (lval g (e * 2 ^ g)); [rewrite (lval_pow2 g e G); apply Qle_refl|apply lval_le; lia].
  - apply Qlt_le_trans with (lval g ((e + 1) * 2 ^ g)); [apply lval_lt; [exact G|lia]|rewrite (lval_pow2 g (e + 1) G); apply Qle_refl].
Qed.
Lemma num_forms v : real c v -> v <> 0 -> forms v.
Proof using V FF FC.
  intros R NZ. vcb V. destruct (unpack_low_val c v V R NZ) as (k & e' & f' & L & _ & IR & He & Hf & _ & _ & VV & _). destruct (decode_value c v V FF R NZ) as (neg & e & f & UE & B & VL).
  destruct (unpack_spec c v V R NZ) as (e0 & f0 & U' & _ & EB & _). rewrite UE in U'. injection U' as -> <- <-.
  apply (FNum v e f k e' f'); try assumption; try lia.
  - unfold regime_of. rewrite VV. assert (A : (Qabs (sgq (v <? 0) (lval (cH c) ((k * 2 ^ ces c + e') * 2 ^ cH c + f'))) == lval (cH c) ((k * 2 ^ ces c + e') * 2 ^ cH c + f'))%Q).
    { assert (H0 : 0 <= cH c) by (pose proof (is_width_pos _ (vc_H c V)); lia). pose proof (lval_pos (cH c) ((k * 2 ^ ces c + e') * 2 ^ cH c + f') H0). destruct (v <? 0); cbn [sgq]; [rewrite Qabs_opp|]; apply Qabs_pos; lra. }
    rewrite A. destruct (lval_range (cH c) ((k * 2 ^ ces c + e') * 2 ^ cH c + f') ltac:(pose proof (is_width_pos _ (vc_H c V)); lia)) as [L1 L2].
    pow_pos 2 (cH c). assert (DE : ((k * 2 ^ ces c + e') * 2 ^ cH c + f') / 2 ^ cH c = k * 2 ^ ces c + e') by (rewrite Z.div_add_l by lia; rewrite Z.div_small by lia; lia).
    rewrite DE in L1, L2. split; [eapply Qle_trans; [apply pow2_le|exact L1]; lia|eapply Qlt_le_trans; [exact L2|apply pow2_le; lia]].
  - unfold exponent_of. rewrite VL. unfold uvalue. pose proof (pow2_pos e) as P. assert (F0 : 0 <= cF c) by (pose proof (is_width_pos _ (vc_F c V)); lia). pose proof (pow2_pos (cF c)) as PF.
    assert (X : (0 <= inject_Z f / pow2 (cF c) < 1)%Q).
    { split; [apply Qle_shift_div_l; [exact PF|]|apply Qlt_shift_div_r; [exact PF|]].
      - ring_simplify. change 0%Q with (inject_Z 0). rewrite <- Zle_Qle. lia.
      - rewrite pow2_Z by lia. rewrite Qmult_1_l, <- Zlt_Qlt. lia. }
    set (x := (inject_Z f / pow2 (cF c))%Q) in *. clearbody x.
    assert (A : (Qabs ((if v <? 0 then -1 else 1) * pow2 e * (1 + x)) == pow2 e * (1 + x))%Q).
    { rewrite !Qabs_Qmult. rewrite (Qabs_pos (pow2 e)) by lra. rewrite (Qabs_pos (1 + x)) by lra. destruct (v <? 0); [change (Qabs (-1)) with 1%Q|change (Qabs 1) with 1%Q]; ring. }
    rewrite A. rewrite (pow2_plus e 1). change (pow2 1) with 2%Q. split; nra.
  - unfold inreg in IR. lia.

Qed.
Lemma all_forms v : pattern c v -> forms v.
Proof using V FF FC.
  clear show pw. intros P. destruct (classify c v V P) as [[E UE]|[[E UE]|[[E UE]|[R [NZ _]]]]].
  - subst v. apply (FOther 0 _ (ul_special Zero false)) with (2 := UE); [tauto| |reflexivity|reflexivity]. destruct (real_not_special c 0 V (zero_real c V)) as [E1 E2]. unfold unpack_low. rewrite E1, E2. reflexivity.
  - destruct (low_special c V v (or_introl E)) as (t & n & L & _). apply (FOther v _ _) with (2 := UE) (3 := L); [|reflexivity|reflexivity]. destruct (kinds_disjoint c v V) as (D1 & D2 & D3 & _). tauto.
  - destruct (low_special c V v (or_intror E)) as (t & n & L & _). apply (FOther v _ _) with (2 := UE) (3 := L); [|reflexivity|reflexivity]. destruct (kinds_disjoint c v V) as (D1 & D2 & D3 & _). tauto.
  - apply num_forms; assumption.
Qed.

(** One column. *)
Lemma put_at t s : put t (Stream only_dec s) = Stream only_dec (s ++ t). Proof using. clear. reflexivity. Qed.
Lemma set_at s : setf only_dec (Stream only_dec s) = Stream only_dec s. Proof using. clear. reflexivity. Qed.
Lemma scale_ok k : Z.abs k <= cN c - 2 -> cmul (common (tS c) (tPT c)) (REG_SCALE c) k = Ok (k * 2 ^ ces c).
Proof using V FC.
  clear FF show pw. intros K. pose proof range as (_ & R & P). assert (A : Z.abs (2 ^ ces c * k) <= 1022) by (rewrite Z.abs_mul; nia).
  assert (T : exists w, common (tS c) (tPT c) = sint w /\ 32 <= w) by (unfold tPT, tS; destruct (vc_H _ V) as [-> | [-> | [-> | ->]]]; eexists; (split; [reflexivity|lia])).
  destruct T as (w & -> & W). pose proof (pow2_mono 31 (w - 1) ltac:(lia)) as M. change (2 ^ 31) with 2147483648 in M.
  unfold cmul, arith, CInt.fits, min_of, max_of, REG_SCALE. cbn [isg iw sint].
  assert (L : (- 2 ^ (w - 1) <=? 2 ^ ces c * k) && (2 ^ ces c * k <=? 2 ^ (w - 1) - 1) = true) by (apply andb_true_intro; split; apply Z.leb_le; lia).
  rewrite L. f_equal. ring.
Qed.
Lemma signed_nat z t : 0 <= z -> signed_numeral t z -> numeral 10 t z.
Proof using. clear. intros Z [[_ N]|[N _]]; [exact N|lia]. Qed.
Lemma bits_mod n : forall z, bits_text n z = bits_text n (z mod 2 ^ Z.of_nat n).
Proof using.
  clear. assert (G : forall m n z, (m <= n)%nat -> bits_text m z = bits_text m (z mod 2 ^ Z.of_nat n)).
  { induction m as [|m IH]; intros k z L; [reflexivity|]. cbn [bits_text]. rewrite Z.mod_pow2_bits_low by lia. rewrite <- IH by lia. reflexivity. }
  intros z. apply G. lia.
Qed.
Lemma field_ok v up l ch s : pattern c v -> (ch = "o"%char -> cH c = 8 /\ cN c = 8) -> unpack c v = Ok up -> unpack_low c v = Ok l ->
  if is_column ch then exists t, t_field show pw c v up l ch (Stream only_dec s) = Ok (Stream only_dec (s ++ tab ++ t)) /\ col v ch t
  else t_field show pw c v up l ch (Stream only_dec s) = Ok (Stream only_dec s).
Proof using V FF FC.
  intros P O UE LE. vcb V. pose proof range as (RE1 & RE2 & RE3). destruct (second_ok c v V P) as [S2 S1].
  assert (FO : forms v) by (apply all_forms; assumption).
  assert (KK : exists k, lreg l = k /\ Z.abs k <= cN c - 2 /\ (real c v /\ v <> 0 -> regime_of c (value c v) k) /\ (~ (real c v /\ v <> 0) -> k = 0)).
  { destruct FO as [e f k e' f' R NZ U1 L1 RG EX AK AE|u l' NR U1 L1 UZ LZ].
    - rewrite LE in L1. injection L1 as ->. exists k. split; [reflexivity|]. split; [exact AK|]. split; [auto|tauto].
    - rewrite LE in L1. injection L1 as ->. exists 0. split; [exact LZ|]. split; [lia|]. split; [tauto|auto]. }
  assert (EE : exists e, uexp up = e /\ Z.abs e <= 1022 /\ (real c v /\ v <> 0 -> exponent_of (value c v) e) /\ (~ (real c v /\ v <> 0) -> e = 0)).
  { destruct FO as [e f k e' f' R NZ U1 L1 RG EX AK AE|u l' NR U1 L1 UZ LZ].
    - rewrite UE in U1. injection U1 as ->. exists e. split; [reflexivity|]. split; [lia|]. split; [auto|tauto].
    - rewrite UE in U1. injection U1 as ->. exists 0. split; [exact UZ|]. split; [lia|]. split; [tauto|auto]. }
  destruct KK as (k & K1 & K2 & K3 & K4). destruct EE as (e & E1 & E2 & E3 & E4).
  assert (CK : cast (tPT c) k = k) by (apply pt_small; change (2 ^ 15) with 32768; pose proof (is_width_pos _ (vc_H c V)); assert (cH c <= 64) by (destruct (vc_H _ V) as [-> | [-> | [-> | ->]]]; lia); lia).
  assert (CE : cast (tPT c) e = e) by (apply pt_small; change (2 ^ 15) with 32768; lia).
  destruct (is_column ch) eqn:IC.
  - unfold is_column in IC. apply existsb_exists in IC. destruct IC as (x & IN & EQ). apply Ascii.eqb_eq in EQ. subst x.
    cbn [In] in IN. destruct IN as [<- | [<- | [<- | [<- | [<- | [<- | [<- | [<- | []]]]]]]]]; cbn [t_field column]; rewrite ?put_at, ?set_at, ?w_tab_is.
    + exists (decimal v). rewrite S1, put_pt, app_assoc_s. split; [reflexivity|apply decimal_numeral].
    + destruct (O eq_refl) as [O1 O2]. exists (decimal (v mod 2 ^ cN c)). rewrite S2. unfold second. rewrite O1, Z.eqb_refl, O2, put_pt, app_assoc_s. change (2 ^ 8) with 256. split; [reflexivity|].
      apply signed_nat; [apply Z.mod_pos_bound; lia|apply decimal_numeral].
    + unfold put_bits. rewrite put_at, app_assoc_s. eexists. split; [reflexivity|]. rewrite bits_mod. rewrite Z2Nat.id by lia. pow_pos 2 (cN c). apply bits_numeral; [lia|apply Z.mod_pos_bound; lia].
    + exists (decimal k). rewrite K1, CK, put_pt, app_assoc_s. split; [reflexivity|]. exists k. split; [apply decimal_numeral|]. split; assumption.
    + rewrite K1, CK, (scale_ok k K2). cbn [bind]. rewrite put_at, app_assoc_s. eexists. split; [reflexivity|]. exists k. split; [reflexivity|]. split; assumption.
    + exists (decimal e). rewrite E1, CE, put_pt, app_assoc_s. split; [reflexivity|]. exists e. split; [apply decimal_numeral|]. split; assumption.
    + destruct (kinds_disjoint c v V) as (D1 & D2 & D3 & _). pose proof (zero_real c V) as Z0. unfold unpacked_text.
      destruct (classify c v V P) as [[E UV]|[[E UV]|[[E UV]|[E [NZ _]]]]]; rewrite UE in UV || idtac; try (injection UV as ->).
      * subst v. exists "up(0)"%string. split; [cbn [print_unpacked utyp]; rewrite put_at, app_assoc_s; reflexivity|]. split; [tauto|]. split; [reflexivity|]. split; intros; exfalso; tauto.
      * exists "up(nan)"%string. split; [cbn [print_unpacked utyp]; rewrite put_at, app_assoc_s; reflexivity|]. split; [tauto|]. split; [intros ->; exfalso; tauto|]. split; [reflexivity|]. intros; exfalso; tauto.
      * exists (if v <? 0 then "up(-infinity)"%string else "up(+infinity)"%string). split; [cbn [print_unpacked utyp uneg]; rewrite put_at, app_assoc_s; reflexivity|]. split; [tauto|]. split; [intros ->; exfalso; tauto|]. split; [intros; exfalso; tauto|]. reflexivity.
      * destruct (decode_value c v V FF E NZ) as (neg & e0 & f0 & U0 & B & VL). destruct (decode_trunc c v V E NZ) as (e1 & f1 & U' & _). rewrite U0 in U'. injection U' as -> <- <-. rewrite UE in U0. injection U0 as ->.
        destruct (unpacked_fields (cF c) (c_E c) (Unpacked.U Regular (v <? 0) e0 f0) only_dec (s ++ tab) eq_refl (width_pos c V) B) as (te & tf & tb & PU & Q).
        rewrite PU. eexists. split; [rewrite app_assoc_s; reflexivity|]. split; [|split; [intros; contradiction|split; intros; exfalso; tauto]]. intros _ _. exists e0, f0, te, tf, tb. split; [exact VL|]. split; [exact B|]. split; [reflexivity|exact Q].
    + rewrite double_any. destruct (kinds_disjoint c v V) as (D1 & D2 & D3 & _). destruct (pattern_kind c V v P) as [R|[N|I]].
      * destruct (third_ok c V FF FC v R) as [T D]. rewrite double_any in T. rewrite T. cbn [bind]. rewrite put_at, app_assoc_s. eexists. split; [reflexivity|]. eexists. split; [reflexivity|]. split; [intros _; exact D|]. split; intros; exfalso; tauto.
      * destruct (proj1 (to_float_special c 11 52 true v V fmt_d) N) as (b & T & _ & D). rewrite T. cbn [bind]. rewrite put_at, app_assoc_s. eexists. split; [reflexivity|]. exists b. split; [reflexivity|]. split; [intros; exfalso; tauto|]. split; [intros _; exact D|]. intros; exfalso; tauto.
      * destruct (proj2 (to_float_special c 11 52 true v V fmt_d) I) as (b & T & _ & D). rewrite T. cbn [bind]. rewrite put_at, app_assoc_s. eexists. split; [reflexivity|]. exists b. split; [reflexivity|]. split; [intros; exfalso; tauto|]. split; [intros; exfalso; tauto|]. intros _; exact D.
  - assert (NE : forall a, In a ["i"; "o"; "b"; "k"; "r"; "e"; "u"; "v"]%char -> ch <> a).
    { intros a IN ->. unfold is_column in IC. assert (X : existsb (Ascii.eqb a) ["i"; "o"; "b"; "k"; "r"; "e"; "u"; "v"]%char = true) by (apply existsb_exists; exists a; split; [exact IN|apply Ascii.eqb_refl]). congruence. }
    clear - NE. destruct ch as [b0 b1 b2 b3 b4 b5 b6 b7].
    destruct b0, b1, b2, b3, b4, b5, b6, b7; try reflexivity; exfalso; (eapply NE; [|reflexivity]); cbn [In]; tauto.
Qed.
End s.
