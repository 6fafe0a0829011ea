(** The lines of a text listing. *)
From Coq Require Import ZArith QArith Qabs Bool List String Ascii Sorted Lia.
From Verif Require Import Res CInt Bits Traits Unpacked Cfg Spec SpecFloat SpecPrint SpecDump Posit ListP Dump Print TextList SpecText QPow Core SpecLemmas Arith DecodeProof EncodeProof UOps UAdd Ops
  Final1 Final4 Conv1 Conv5 FloatProof PrintProof ListProof DumpProof Prog1 Prog2 Prog3 TextProof.
Import ListNotations.
Open Scope Z_scope.

Lemma tabbed_app a b : tabbed (a ++ b) = (tabbed a ++ tabbed b)%string.
Proof. induction a as [|x a IH]; [reflexivity|]. cbn [List.app tabbed]. rewrite IH, !app_assoc_s. reflexivity. Qed.
Lemma has_cons a ch r : d_has a (String ch r) = (Ascii.eqb ch a || d_has a r). Proof. reflexivity. Qed.

Section s.
Context (show showf : Z -> string) (tname : ity -> string) (pw : Z -> Z) (c : cfg) (format : string).
Hypothesis V : valid_cfg c.
Hypothesis FF : frac_fits c.
Hypothesis FC : float_covers c 11 52.
Hypothesis O8 : d_has "o" format = true -> cH c = 8 /\ cN c = 8.
Notation col := (column show pw c).

Lemma exp_okay : exp_ok c.
Proof using V FC. clear FF O8. intros _. destruct FC as [_ F2]. change (2 ^ (11 - 1) - 2) with 1022 in F2. change (2 ^ 31) with 2147483648. vcb V. pow_pos 2 (ces c). unfold maxk. set (p := 2 ^ ces c) in *. clearbody p. destruct (spec_eqb _ _); lia || nia. Qed.

Lemma fields_ok v up l : pattern c v -> unpack c v = Ok up -> unpack_low c v = Ok l -> forall f s, (d_has "o" f = true -> cH c = 8 /\ cN c = 8) ->
  exists ts, t_fields show pw c v up l f (Stream only_dec s) = Ok (Stream only_dec (s ++ tabbed ts)) /\ Forall2 (col v) (columns_of f) ts.
Proof using V FF FC.
  intros P U L. induction f as [|ch f IH]; intros s O; cbn [t_fields columns_of].
  - exists []. cbn [tabbed]. rewrite app_nil_s. split; [reflexivity|constructor].
  - assert (OC : ch = "o"%char -> cH c = 8 /\ cN c = 8) by (intros ->; apply O; reflexivity).
    assert (OF : d_has "o" f = true -> cH c = 8 /\ cN c = 8) by (intros H; apply O; rewrite has_cons, H; apply orb_true_r).
    pose proof (field_ok show pw c V FF FC v up l ch s P OC U L) as FO. destruct (is_column ch).
    + destruct FO as (t & -> & C). cbn [bind]. destruct (IH (s ++ tab ++ t)%string OF) as (ts & -> & Q). exists (t :: ts). cbn [tabbed]. rewrite !app_assoc_s. split; [reflexivity|]. constructor; assumption.
    + rewrite FO. cbn [bind]. apply IH. exact OF.
Qed.
Lemma print_ok v s : pattern c v -> exists ts, t_print1 show pw c format v (Stream only_dec s) = Ok (Stream only_dec (s ++ tabbed ts)) /\ Forall2 (col v) (columns_of format) ts.
Proof using V FF FC O8.
  intros P. unfold t_print1. destruct (all_forms c V FF FC v P) as [e f k e' f' _ _ U L _ _ _ _|u l _ U L _ _]; rewrite U, L; cbn [bind]; apply fields_ok; assumption.
Qed.

(** The texts of some posits. *)
Definition texts (xs : list Z) (ts : list string) : Prop := Forall2 (fun p t => col (fst p) (snd p) t) (list_prod xs (columns_of format)) ts.
Lemma texts_one v ts : Forall2 (col v) (columns_of format) ts -> texts [v] ts.
Proof using.
  clear. unfold texts. cbn [list_prod]. rewrite app_nil_r. generalize (columns_of format). intros l. revert ts. induction l as [|ch l IH]; intros ts H; inversion H; subst; cbn [map]; constructor; auto.
Qed.
Lemma prod_app (A B : Type) (a b : list A) (l : list B) : list_prod (a ++ b) l = list_prod a l ++ list_prod b l.
Proof using. clear. induction a as [|x a IH]; [reflexivity|]. cbn [List.app list_prod]. rewrite IH, app_assoc. reflexivity. Qed.
Lemma texts_app a b ta tb : texts a ta -> texts b tb -> texts (a ++ b) (ta ++ tb).
Proof using. clear. unfold texts. intros A B. rewrite prod_app. apply Forall2_app; assumption. Qed.
Lemma texts_none : texts [] []. Proof using. clear. constructor. Qed.

Lemma opt_ok (b : bool) (x : res Z) s o : (forall r, x = Ok r -> pattern c r) ->
  (if b then let! r := x in t_print1 show pw c format r (Stream only_dec s) else Ok (Stream only_dec s)) = Ok o ->
  exists xs ts, o = Stream only_dec (s ++ tabbed ts) /\ texts xs ts /\ (if b then exists r, x = Ok r /\ xs = [r] else xs = []).
Proof using V FF FC O8.
  intros P. destruct b.
  - destruct x as [r|]; [cbn [bind]|discriminate]. destruct (print_ok r s (P r eq_refl)) as (ts & -> & Q). intros E. injection E as <-. exists [r], ts. split; [reflexivity|]. split; [apply texts_one; exact Q|]. exists r. auto.
  - intros E. injection E as <-. exists [], []. cbn [tabbed]. rewrite app_nil_s. split; [reflexivity|]. split; [apply texts_none|reflexivity].
Qed.
Lemma posit_ok v s o : pattern c v -> t_posit show pw c format v (Stream only_dec s) = Ok o ->
  exists xs ts, shown c format v xs /\ texts xs ts /\ o = Stream only_dec (s ++ tabbed ts ++ nl).
Proof using V FF FC O8.
  intros P. unfold t_posit. destruct (print_ok v s P) as (t0 & -> & Q0). cbn [bind]. set (s0 := (s ++ tabbed t0)%string).
  assert (P2 : forall t, p_of_int c 2 = Ok t -> pattern c t) by (intros t T; apply (real_pattern c V); exact (of_int_real c V exp_okay 2 t T)).
  intros O. destruct (if d_has "I" format then _ else Ok (Stream only_dec s0)) as [o1|] eqn:E1; [cbn [bind] in O|discriminate O].
  destruct (opt_ok (d_has "I" format) (p_inv c v) s0 o1) as (x1 & t1 & -> & T1 & S1); [intros r R; exact (inv_pattern c V exp_okay v r P R)|exact E1|].
  set (s1 := (s0 ++ tabbed t1)%string) in *.
  destruct (if d_has "2" format then _ else Ok (Stream only_dec s1)) as [o2|] eqn:E2; [cbn [bind] in O|discriminate O].
  destruct (opt_ok (d_has "2" format) (let! t := p_of_int c 2 in p_mul c v t) s1 o2) as (x2 & t2 & -> & T2 & S2).
  { intros r. destruct (p_of_int c 2) as [t|] eqn:T; [cbn [bind]|discriminate]. intros R. exact (proj1 (mul_closed c V exp_okay v t r P (P2 t eq_refl) R)). }
  { rewrite <- E2. destruct (d_has "2" format); [|reflexivity]. destruct (p_of_int c 2); reflexivity. }
  set (s2 := (s1 ++ tabbed t2)%string) in *.
  destruct (if d_has "A" format then _ else Ok (Stream only_dec s2)) as [o3|] eqn:E3; [cbn [bind] in O|discriminate O].
  destruct (opt_ok (d_has "A" format) (let! t := p_of_int c 2 in p_div c v t) s2 o3) as (x3 & t3 & -> & T3 & S3).
  { intros r. destruct (p_of_int c 2) as [t|] eqn:T; [cbn [bind]|discriminate]. intros R. exact (proj1 (div_closed c V exp_okay v t r P (P2 t eq_refl) R)). }
  { rewrite <- E3. destruct (d_has "A" format); [|reflexivity]. destruct (p_of_int c 2); reflexivity. }
  injection O as <-. exists ([v] ++ x1 ++ x2 ++ x3), (t0 ++ t1 ++ t2 ++ t3). split; [|split].
  - exists x1, x2, x3. rewrite !has_asks. split; [reflexivity|]. split; [exact S1|]. split.
    + destruct (d_has "2" format); [|exact S2]. destruct S2 as (r & R & ->). destruct (p_of_int c 2) as [t|]; [cbn [bind] in R|discriminate R]. exists t, r. auto.
    + destruct (d_has "A" format); [|exact S3]. destruct S3 as (r & R & ->). destruct (p_of_int c 2) as [t|]; [cbn [bind] in R|discriminate R]. exists t, r. auto.
  - repeat apply texts_app; try assumption. apply texts_one. exact Q0.
  - rewrite put_at. unfold s2, s1, s0. rewrite !tabbed_app, !app_assoc_s. reflexivity.
Qed.
Lemma posits_ok l : forall s o, (forall v, In v l -> pattern c v) -> t_posits show pw c format l (Stream only_dec s) = Ok o ->
  exists rows, o = Stream only_dec (s ++ lines rows) /\ Forall2 (line_of show pw c format) l rows.
Proof using V FF FC O8.
  induction l as [|v l IH]; intros s o P H; cbn [t_posits] in H.
  - injection H as <-. exists []. cbn [lines]. rewrite app_nil_s. split; [reflexivity|constructor].
  - destruct (t_posit show pw c format v (Stream only_dec s)) as [o1|] eqn:E; [cbn [bind] in H|discriminate H].
    destruct (posit_ok v s o1 (P v (or_introl eq_refl)) E) as (xs & ts & S1 & T1 & ->).
    destruct (IH _ o (fun w W => P w (or_intror W)) H) as (rows & -> & Q). exists (ts :: rows). cbn [lines]. rewrite !app_assoc_s. split; [reflexivity|].
    constructor; [|exact Q]. exists xs. auto.
Qed.
(** There is such an output. *)
Lemma opt_def (b : bool) (x : res Z) s : (b = true -> exists r, x = Ok r /\ pattern c r) ->
  exists t, (if b then let! r := x in t_print1 show pw c format r (Stream only_dec s) else Ok (Stream only_dec s)) = Ok (Stream only_dec t).
Proof using V FF FC O8.
  intros P. destruct b; [|eexists; reflexivity]. destruct (P eq_refl) as (r & -> & R). cbn [bind]. destruct (print_ok r s R) as (ts & -> & _). eexists. reflexivity.
Qed.
Hypothesis MF : d_has "I" format = true \/ d_has "2" format = true \/ d_has "A" format = true -> mul_fits c /\ roomy c.
Lemma posit_def v s : pattern c v -> exists t, t_posit show pw c format v (Stream only_dec s) = Ok (Stream only_dec t).
Proof using V FF FC O8 MF.
  intros P. unfold t_posit. destruct (print_ok v s P) as (t0 & -> & _). cbn [bind]. set (s0 := (s ++ tabbed t0)%string).
  destruct (opt_def (d_has "I" format) (p_inv c v) s0) as (s1 & ->).
  { intros H. destruct (MF (or_introl H)) as [M R0]. destruct (inv_def c V exp_okay R0 v M P) as (r & R). exists r. split; [exact R|]. exact (inv_pattern c V exp_okay v r P R). }
  assert (OI : roomy c -> exists two, p_of_int c 2 = Ok two /\ pattern c two).
  { intros R0. destruct (of_int_def c V exp_okay R0 2 FF ltac:(cbn; lia)) as (two & T). exists two. split; [exact T|]. apply (real_pattern c V). exact (of_int_real c V exp_okay 2 two T). }
  cbn [bind]. destruct (opt_def (d_has "2" format) (let! t := p_of_int c 2 in p_mul c v t) s1) as (s2 & E2).
  { intros H. destruct (MF (or_intror (or_introl H))) as [M R0]. destruct (OI R0) as (two & -> & PT). cbn [bind]. destruct (mul_def c V exp_okay R0 v two M P PT) as (r & R). exists r. split; [exact R|].
    exact (proj1 (mul_closed c V exp_okay v two r P PT R)). }
  replace (if d_has "2" format then _ else Ok (Stream only_dec s1)) with (Ok (Stream only_dec s2)) by (rewrite <- E2; destruct (d_has "2" format); [|reflexivity]; destruct (p_of_int c 2); reflexivity).
  cbn [bind]. destruct (opt_def (d_has "A" format) (let! t := p_of_int c 2 in p_div c v t) s2) as (s3 & E3).
  { intros H. destruct (MF (or_intror (or_intror H))) as [M R0]. destruct (OI R0) as (two & -> & PT). cbn [bind]. destruct (div_def c V exp_okay R0 v two M P PT) as (r & R). exists r. split; [exact R|].
    exact (proj1 (div_closed c V exp_okay v two r P PT R)). }
  replace (if d_has "A" format then _ else Ok (Stream only_dec s2)) with (Ok (Stream only_dec s3)) by (rewrite <- E3; destruct (d_has "A" format); [|reflexivity]; destruct (p_of_int c 2); reflexivity).
  cbn [bind]. eexists. reflexivity.
Qed.
Lemma posits_def l : forall s, (forall v, In v l -> pattern c v) -> exists t, t_posits show pw c format l (Stream only_dec s) = Ok (Stream only_dec t).
Proof using V FF FC O8 MF.
  induction l as [|v l IH]; intros s P; cbn [t_posits]; [eexists; reflexivity|]. destruct (posit_def v s (P v (or_introl eq_refl))) as (t & ->). cbn [bind]. apply IH. intros w W. apply P. now right.
Qed.
End s.
