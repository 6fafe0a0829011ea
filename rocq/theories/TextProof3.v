(** The whole text listing. *)
From Coq Require Import ZArith QArith Qabs Bool List String Ascii Sorted Lia Lqa.
From Verif Require Import Res CInt Bits Traits Unpacked Cfg Spec SpecFloat SpecPrint SpecDump Posit ListP Dump Print TextList SpecText QPow Core SpecLemmas Arith DecodeProof EncodeProof UOps UAdd Ops
  Final1 Final2 Final4 Conv1 Conv3 Conv5 FloatProof PrintProof ListProof DumpProof Prog1 Prog2 Prog3 Acc3 TextProof TextProof2.
Import ListNotations.
Open Scope Z_scope.

(** More fuel. *)
Lemma lp_unsigned_more c : forall n m j r, (n <= m)%nat -> lp_unsigned_from c n j = Some r -> lp_unsigned_from c m j = Some r.
Proof.
  induction n as [|n IH]; intros m j r L H; [discriminate H|]. destruct m as [|m]; [lia|]. cbn [lp_unsigned_from] in *.
  destruct (cshl c_int 1 (cN c)) as [top|]; [|exact H]. destruct (j <? top); [|exact H].
  destruct (SIGNEX (tNT c) j (cN c - 1)) as [i|]; [|exact H]. destruct (let! s := cadd (prom (tNT c)) j 1 in Ok (cast (tNT c) s)) as [j'|]; [|exact H].
  destruct (lp_unsigned_from c n j') as [x|] eqn:E; [|discriminate H]. rewrite (IH m j' x ltac:(lia) E). exact H.
Qed.
Lemma listed_patterns c format l : valid_cfg c -> listed c format l -> forall v, In v l -> pattern c v.
Proof. intros V H v I. unfold listed in H. rewrite has_asks in H. destruct (d_has "U" format); [apply H; exact I|]. apply (real_pattern c V). apply H. exact I. Qed.
Lemma list_ok c format m l : valid_cfg c -> (d_has "U" format = true -> cH c < 64 /\ cN c <= 30) ->
  (if d_has "U" format then lp_unsigned c m else lp_signed c m) = Some (Ok l) -> listed c format l.
Proof.
  intros V U H. unfold listed. rewrite has_asks. destruct (d_has "U" format).
  - destruct (U eq_refl) as [U1 U2]. destruct (lp_unsigned_ok c V U1 U2) as (n & l' & A & B & C).
    assert (E : lp_unsigned c (Nat.max n m) = Some (Ok l)) by (apply (lp_unsigned_more c m); [lia|exact H]). rewrite A in E by lia. injection E as <-. auto.
  - rewrite (signed_only c m l V H). split; [intros v; apply posits_real; exact V|apply posits_sorted; exact V].
Qed.
Lemma list_def c format : valid_cfg c -> (if d_has "U" format then cH c < 64 /\ cN c <= 30 else cH c < 32 \/ cN c < cH c \/ csp c = WithNanInf) ->
  exists n, forall m, (n <= m)%nat -> exists l, (if d_has "U" format then lp_unsigned c m else lp_signed c m) = Some (Ok l) /\ forall v, In v l -> pattern c v.
Proof.
  intros V U. destruct (d_has "U" format).
  - destruct U as [U1 U2]. destruct (lp_unsigned_ok c V U1 U2) as (n & l & A & B & _). exists n. intros m M. exists l. split; [apply A; exact M|]. intros v I. apply B. exact I.
  - destruct (lp_signed_ok c V U) as (n & l & A & B & _). exists n. intros m M. exists l. split; [apply A; exact M|]. intros v I. apply (real_pattern c V). apply B. exact I.
Qed.
(** The heading. *)
Lemma names_ok format : d_has "p" format = false -> t_names format = tabbed (map column_name (filter named (columns_of format))).
Proof.
  induction format as [|ch f IH]; intros P; [reflexivity|]. rewrite has_cons in P. apply orb_false_iff in P. destruct P as [P1 P2]. cbn [t_names columns_of]. rewrite IH by exact P2. clear IH P2.
  destruct ch as [b0 b1 b2 b3 b4 b5 b6 b7].
  destruct b0, b1, b2, b3, b4, b5, b6, b7; first [discriminate P1 | cbn [t_name is_column existsb Ascii.eqb Bool.eqb orb]; cbn [filter named Ascii.eqb Bool.eqb negb map tabbed column_name]; rewrite ?app_assoc_s; reflexivity].
Qed.
Lemma all_named format : d_has "o" format = false -> filter named (columns_of format) = columns_of format.
Proof.
  induction format as [|ch f IH]; intros O; [reflexivity|]. rewrite has_cons in O. apply orb_false_iff in O. destruct O as [O1 O2]. cbn [columns_of]. destruct (is_column ch); [|exact (IH O2)].
  cbn [filter]. unfold named at 1. rewrite O1. cbn [negb]. rewrite (IH O2). reflexivity.
Qed.
Lemma put_dec t z s : put_int t z (Stream only_dec s) = Stream only_dec (s ++ decimal z). Proof. reflexivity. Qed.

Section s.
Context (show showf : Z -> string) (tname : ity -> string) (pw : Z -> Z) (c : cfg) (format : string).
Hypothesis V : valid_cfg c.
Lemma looping_ok s : (d_has "U" format = true -> cH c < 64 /\ cN c <= 30) ->
  exists ta tb, t_looping c format (Stream only_dec s) = Ok (Stream only_dec (s ++ "looping " ++ (if d_has "U" format then "unsigned " else "signed ") ++ ta ++ " to " ++ tb ++ nl)) /\ bounds_text c format ta tb.
Proof using V.
  intros U. unfold t_looping, bounds_text. rewrite has_asks. destruct (d_has "U" format).
  - destruct (U eq_refl) as [U1 U2]. vcb V. rewrite shl_one by lia. cbn [bind]. unfold csub, arith, c_int, sint. cbn [isg iw].
    pow_pos 2 (cN c). pose proof (pow2_mono (cN c) 30 ltac:(lia)) as P30. change (2 ^ 30) with 1073741824 in P30.
    assert (FI : CInt.fits (Ity 32 true) (2 ^ cN c - 1) = true) by (unfold CInt.fits, min_of, max_of; cbn [isg iw]; change (2 ^ (32 - 1)) with 2147483648; apply andb_true_intro; split; apply Z.leb_le; lia).
    rewrite FI. cbn [bind]. rewrite put_at, set_at, put_dec, put_at, put_dec, put_at.
    assert (C : cast (tNT c) (2 ^ cN c - 1) = 2 ^ cN c - 1).
    { unfold tNT. pose proof (pow2_mono (cN c) (2 * cH c - 1) ltac:(lia)). apply cast_s_small; lia. }
    rewrite C, !app_assoc_s. exists (decimal 0), (decimal (2 ^ cN c - 1)). split; [reflexivity|]. split; apply signed_nat; try lia; apply decimal_numeral.
  - assert (RP : pattern c (- maxreal c) /\ pattern c (maxreal c)) by (vcb V; pose proof (maxreal_bounds c BN Bes); split; apply (real_pattern c V); unfold real; lia).
    rewrite (P_MINNEG_val c V), (P_MAXPOS_val c V). rewrite (proj2 (second_ok c _ V (proj1 RP))), (proj2 (second_ok c _ V (proj2 RP))).
    rewrite put_at, set_at, put_dec, put_at, put_dec, put_at, !app_assoc_s. eexists _, _. split; [reflexivity|]. split; apply decimal_numeral.
Qed.

(** The overview. *)
Lemma pattern_text n s : pattern c n -> exists t, t_pattern c n (Stream only_dec s) = Stream only_dec (s ++ t ++ nl) /\ special_text c t n.
Proof using V.
  intros P. unfold t_pattern. rewrite (proj2 (second_ok c n V P)), put_dec, put_at. unfold put_bits. rewrite !put_at, !app_assoc_s.
  exists (decimal n ++ " " ++ bits_text (Z.to_nat (cH c)) n)%string. split; [rewrite !app_assoc_s; reflexivity|]. eexists _, _. split; [reflexivity|]. split; [apply decimal_numeral|].
  pose proof (is_width_pos _ (vc_H c V)). rewrite bits_mod. rewrite Z2Nat.id by lia. pow_pos 2 (cH c). apply bits_numeral; [lia|apply Z.mod_pos_bound; lia].
Qed.
Definition patterns_text (t : string) : Prop :=
  match csp c with
  | WithInf => exists ti, t = ("without signed infinity and NaN" ++ nl ++ "infinity " ++ ti ++ nl)%string /\ special_text c ti (P_PINF c)
  | _ => exists tp tm tn, t = ("with signed infinity and NaN" ++ nl ++ "+infinity: " ++ tp ++ nl ++ "-infinity: " ++ tm ++ nl ++ "nan: " ++ tn ++ nl)%string /\
      special_text c tp (P_PINF c) /\ special_text c tm (P_NINF c) /\ special_text c tn (P_NAN c)
  end.
Definition numbers_texts (t : string) : Prop := exists h w m x b,
  t = (" half=" ++ show h ++ " twice=" ++ show w ++ nl ++ " min=" ++ show m ++ " " ++ b ++ " max=" ++ showf x ++ nl)%string /\
  t_of c (P_HALF c) = Ok h /\ t_of c (P_TWO c) = Ok w /\ t_of c (P_MINNEG c) = Ok m /\ b = bits_text (Z.to_nat (cN c)) (P_MINNEG c) /\
  (let! p := p_of_int c (P_MAXPOS c) in p_to_float c single_trait p) = Ok x.
Lemma special_patterns : pattern c (P_PINF c) /\ pattern c (P_NINF c) /\ pattern c (P_NAN c).
Proof using V.
  vcb V. rewrite (P_PINF_val c V), (P_NINF_val c V), (P_NAN_val c V). unfold pattern. pose proof (pow2_mono 2 (cN c - 1) ltac:(lia)) as P. change (2 ^ 2) with 4 in P. destruct (csp c); lia.
Qed.
Lemma overview_ok o : t_overview show showf tname c (Stream only_dec "") = Ok o ->
  exists ts tp tn, o = Stream only_dec (ts ++ tp ++ tn) /\ sizes_text tname c ts /\ patterns_text tp /\ numbers_texts tn.
Proof using V.
  intros H. vcb V. unfold t_overview, t_line, t_num in H. rewrite 7 put_at, put_dec, 2 put_at, put_dec, 5 put_at, put_dec, 2 put_at, put_dec, 4 put_at in H.
  match type of H with context [put "with signed infinity and NaN" ?z] => set (S0 := z) in H end.
  assert (Z0 : exists ts, S0 = Stream only_dec ts /\ sizes_text tname c ts).
  { subst S0. eexists. split; [reflexivity|]. exists (decimal (cH c)), (decimal (cN c)), (decimal (cF c)), (decimal (ces c)). split; [rewrite !app_assoc_s; reflexivity|].
    pose proof (is_width_pos _ (vc_H c V)). pose proof (is_width_pos _ (vc_F c V)). split; [|split; [|split]]; apply signed_nat; try lia; apply decimal_numeral. }
  destruct Z0 as (ts & E0 & ST). rewrite E0 in H. clear S0 E0. destruct special_patterns as (P1 & P2 & P3).
  set (S1 := match csp c with WithInf => _ | _ => _ end) in H.
  assert (Z1 : exists tp, S1 = Stream only_dec (ts ++ tp) /\ patterns_text tp).
  { subst S1. unfold patterns_text. destruct (csp c); rewrite !put_at.
    all: match goal with
    | |- context [t_pattern c (P_NAN c)] =>
      match goal with |- context [t_pattern c (P_PINF c) (Stream only_dec ?s)] => destruct (pattern_text (P_PINF c) s P1) as (t1 & -> & T1) end; rewrite put_at;
      match goal with |- context [t_pattern c (P_NINF c) (Stream only_dec ?s)] => destruct (pattern_text (P_NINF c) s P2) as (t2 & -> & T2) end; rewrite put_at;
      match goal with |- context [t_pattern c (P_NAN c) (Stream only_dec ?s)] => destruct (pattern_text (P_NAN c) s P3) as (t3 & -> & T3) end;
      eexists; (split; [rewrite !app_assoc_s; reflexivity|]); exists t1, t2, t3; auto
    | |- _ =>
      match goal with |- context [t_pattern c (P_PINF c) (Stream only_dec ?s)] => destruct (pattern_text (P_PINF c) s P1) as (t1 & -> & T1) end;
      eexists; (split; [rewrite !app_assoc_s; reflexivity|]); exists t1; auto
    end. }
  destruct Z1 as (tp & E1 & SP). rewrite E1 in H. clear S1 E1.
  destruct (t_of c (P_HALF c)) as [h|] eqn:EH; [cbn [bind] in H|discriminate H]. destruct (t_of c (P_TWO c)) as [w|] eqn:EW; [cbn [bind] in H|discriminate H].
  destruct (t_of c (P_MINNEG c)) as [m|] eqn:EM; [cbn [bind] in H|discriminate H]. destruct (p_of_int c (P_MAXPOS c)) as [p|] eqn:EP; [cbn [bind] in H|discriminate H].
  unfold put_bits in H. rewrite !put_at in H. unfold print_posit in H. cbn [s_flags] in H. rewrite set_at in H. change (flags_eqb only_dec only_hex) with false in H. change (flags_eqb only_dec only_dec) with true in H. cbv iota in H.
  destruct (p_to_float c single_trait p) as [x|] eqn:EX; [cbn [bind] in H|discriminate H]. rewrite put_at, set_at, put_at in H. injection H as <-.
  exists ts, tp. eexists. split; [rewrite !app_assoc_s; reflexivity|]. split; [exact ST|]. split; [exact SP|]. exists h, w, m, x. eexists. split; [reflexivity|]. rewrite EP. cbn [bind]. auto.
Qed.

(** All of it. *)
Hypothesis FF : frac_fits c.
Hypothesis FC : float_covers c 11 52.
Hypothesis NP : d_has "p" format = false.
Hypothesis O8 : d_has "o" format = true -> cH c = 8 /\ cN c = 8.
Hypothesis U30 : d_has "U" format = true -> cH c < 64 /\ cN c <= 30.
Lemma output_ok m o : d_has "N" format = true \/ d_has "H" format = false -> t_output show showf tname pw c format m = Some (Ok o) ->
  exists over ta tb l rows, s_text o = (over ++ "looping " ++ (if d_has "U" format then "unsigned " else "signed ") ++ ta ++ " to " ++ tb ++ nl ++
      tabbed (map column_name (filter named (columns_of format))) ++ nl ++ lines rows)%string /\
    (if d_has "N" format then over = ""%string else t_overview show showf tname c (Stream only_dec "") = Ok (Stream only_dec over)) /\
    bounds_text c format ta tb /\ listed c format l /\ Forall2 (line_of show pw c format) l rows.
Proof using V FF FC NP O8 U30.
  intros NH H. unfold t_output in H.
  replace (negb (d_has "N" format) && d_has "H" format) with false in H by (destruct NH as [-> | ->]; [reflexivity|symmetry; apply andb_false_r]).
  destruct (if d_has "U" format then lp_unsigned c m else lp_signed c m) as [[l|]|] eqn:EL; try discriminate H. injection H as H.
  pose proof (list_ok c format m l V U30 EL) as LL.
  assert (OV : exists over, (if d_has "N" format then Ok (Stream only_dec "") else t_overview show showf tname c (Stream only_dec "")) = Ok (Stream only_dec over) /\
    (if d_has "N" format then over = ""%string else t_overview show showf tname c (Stream only_dec "") = Ok (Stream only_dec over))).
  { destruct (d_has "N" format); [exists ""%string; auto|]. destruct (t_overview show showf tname c (Stream only_dec "")) as [o1|] eqn:EO; [|discriminate H].
    destruct (overview_ok o1 EO) as (ts & tp & tn & -> & Q). eexists. split; reflexivity. }
  destruct OV as (over & EO & QO). rewrite EO in H. cbn [bind] in H. destruct (looping_ok over U30) as (ta & tb & LO & BT). rewrite LO in H. cbn [bind] in H. rewrite !put_at in H.
  destruct (posits_ok show pw c format V FF FC O8 l _ o (listed_patterns c format l V LL) H) as (rows & -> & Q). exists over, ta, tb, l, rows.
  split; [cbn [s_text]; rewrite (names_ok format NP), !app_assoc_s; reflexivity|]. auto.
Qed.
Lemma output_def : (d_has "I" format = true \/ d_has "2" format = true \/ d_has "A" format = true -> mul_fits c /\ roomy c) -> d_has "N" format = true ->
  (d_has "U" format = false -> cH c < 32 \/ cN c < cH c \/ csp c = WithNanInf) ->
  exists n, forall m, (n <= m)%nat -> exists o, t_output show showf tname pw c format m = Some (Ok o).
Proof using V FF FC O8 U30.
  intros MF NN EU. destruct (list_def c format V) as (n & A); [destruct (d_has "U" format); auto|]. exists n. intros m M. destruct (A m M) as (l & E & P). unfold t_output. rewrite NN. cbn [negb andb]. rewrite E. cbn [bind].
  destruct (looping_ok "" U30) as (ta & tb & -> & _). cbn [bind]. rewrite !put_at, w_endl_is. destruct (posits_def show pw c format V FF FC O8 MF l ((("" ++ "looping " ++ (if d_has "U" format then "unsigned " else "signed ") ++ ta ++ " to " ++ tb ++ nl) ++ t_names format) ++ nl) P) as (t & ->).
  eexists. reflexivity.
Qed.

End s.

(** The special patterns are right for formats with an infinity. *)
Lemma specials_right c t : valid_cfg c -> patterns_text c t -> csp c <> WithNan -> specials_text c t.
Proof.
  intros V. unfold patterns_text, specials_text. rewrite (P_PINF_val c V), (P_NINF_val c V), (P_NAN_val c V). destruct (csp c) eqn:E; intros H N.
  - contradiction || (destruct H as (ti & -> & S); exists ti, (- 2 ^ (cN c - 1)); split; [reflexivity|split; [exact S|right; right; split; [exact E|reflexivity]]]).
  - contradiction || (destruct H as (ti & -> & S); exists ti, (- 2 ^ (cN c - 1)); split; [reflexivity|split; [exact S|right; right; split; [exact E|reflexivity]]]).
  - destruct H as (tp & tm & tn & -> & S1 & S2 & S3). do 6 eexists. split; [reflexivity|]. split; [exact S1|]. split; [exact S2|]. split; [exact S3|]. split; [split; [exact E|reflexivity]|]. split; [split; [exact E|reflexivity]|]. split; [congruence|reflexivity].
Qed.
Lemma specials_wrong c t : valid_cfg c -> patterns_text c t -> csp c = WithNan ->
  exists tp tm tn, t = ("with signed infinity and NaN" ++ nl ++ "+infinity: " ++ tp ++ nl ++ "-infinity: " ++ tm ++ nl ++ "nan: " ++ tn ++ nl)%string /\
    forall s, s = tp \/ s = tm -> exists v, special_text c s v /\ is_nan c v.
Proof.
  intros V. unfold patterns_text. rewrite (P_PINF_val c V), (P_NINF_val c V), (P_NAN_val c V). intros H E. rewrite E in H. destruct H as (tp & tm & tn & -> & S1 & S2 & S3). exists tp, tm, tn. split; [reflexivity|].
  intros s [-> | ->]; eexists; (split; [eassumption|]); split; [congruence|reflexivity|congruence|reflexivity].
Qed.
(** A number made from an int, as a double. *)
Lemma t_of_value c n b : valid_cfg c -> frac_fits c -> float_covers c 11 52 -> - 2 ^ 31 < n < 2 ^ 31 -> t_of c n = Ok b ->
  exists r, p_of_int c n = Ok r /\ real c r /\ rounds_tz c (inject_Z n) r /\ is_double b (value c r).
Proof.
  intros V FF FC B H. unfold t_of in H. destruct (p_of_int c n) as [r|] eqn:E; [cbn [bind] in H|discriminate H]. pose proof (exp_okay c V FC) as X. exists r. split; [reflexivity|].
  pose proof (of_int_real c V X n r E) as R. split; [exact R|]. split; [exact (by_room V (of_int c n V X (or_introl FF) B) E)|]. destruct (third_ok c V FF FC r R) as [T D]. rewrite T in H. injection H as <-. exact D.
Qed.
Lemma half_pos c : valid_cfg c -> cH c < 64 -> 1 <= P_HALF c < 2 ^ 31.
Proof.
  intros V H64. vcb V. pose proof (onehalf_pat c V) as O. unfold p_onehalf, deep in O.
  assert (E : cast (tS c) (P_HALF c) = P_HALF c).
  { unfold P_HALF. generalize (cast (tS c) (cast (tU c) (-1) / 2 ^ (cN c - ces c - 1)) * 2 ^ (cN c - 3 - ces c)). intros z. apply (wraps_mod_eq (cH c)); [lia|]. apply (wraps_mod (cH c)). lia. }
  rewrite E in O. rewrite O. pow_pos 2 (cN c - 3 - ces c). pose proof (pow2_mono (cN c - 3 - ces c + 1) (cH c - 2) ltac:(lia)) as M. rewrite Z.pow_add_r in M by lia. change (2 ^ 1) with 2 in M.
  assert (cH c <= 32) by (destruct (vc_H _ V) as [E1|[E1|[E1|E1]]]; lia). pose proof (pow2_mono (cH c - 2) 30 ltac:(lia)) as M2. change (2 ^ 30) with 1073741824 in M2. change (2 ^ 31) with 2147483648. lia.
Qed.
Lemma half_wrong c b : valid_cfg c -> frac_fits c -> float_covers c 11 52 -> cH c < 64 -> t_of c (P_HALF c) = Ok b -> exists q, is_double b q /\ (1 <= q)%Q.
Proof.
  intros V FF FC H64 H. pose proof (half_pos c V H64) as B. destruct (t_of_value c (P_HALF c) b V FF FC ltac:(lia) H) as (r & _ & R & RT & D). exists (value c r). split; [exact D|].
  assert (P : (1 <= inject_Z (P_HALF c))%Q) by (change 1%Q with (inject_Z 1); rewrite <- Zle_Qle; lia).
  destruct RT as [[Z0 _]|[[_ (_ & _ & M & _)]|[N _]]]; [lra| |lra].
  rewrite <- (Laws.one_value c V). apply M; [exact (Laws.one_real c V)|rewrite (Laws.one_value c V); reflexivity|rewrite (Laws.one_value c V); exact P].
Qed.
