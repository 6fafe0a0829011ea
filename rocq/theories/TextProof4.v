(** Where the text listing is wrong. *)
From Coq Require Import ZArith QArith Qabs Bool List String Ascii Sorted Lia Lqa.
From Verif Require Import Res CInt Bits Traits Unpacked Cfg Spec SpecFloat SpecPrint SpecDump Posit ListP Dump Print TextList SpecText QPow Core SpecLemmas Arith DecodeProof EncodeProof UOps UAdd Ops
  Final1 Final2 Final4 Conv1 Conv3 Conv5 FloatProof PrintProof ListProof DumpProof Prog1 Prog2 Prog3 Acc2 Acc3 TextProof TextProof2 TextProof3.
Import ListNotations.
Open Scope Z_scope.

(** The greatest number made from its pattern, when esbits is 0. *)
Lemma max_right c r : valid_cfg c -> ces c = 0 -> rounds_tz c (inject_Z (maxreal c)) r -> (value c r == value c (maxreal c))%Q.
Proof.
  intros V E RT. vcb V. pose proof (maxreal_bounds c BN Bes) as MB. pose proof (Acc2.maxreal_value c V) as MV.
  assert (P : (value c (maxreal c) <= inject_Z (maxreal c))%Q).
  { rewrite MV, E. change (2 ^ 0) with 1. rewrite Z.mul_1_r. assert (K : 0 <= maxk c) by (unfold maxk; destruct (spec_eqb _ _); lia). rewrite pow2_Z by exact K. rewrite <- Zle_Qle.
    assert (P2 : 2 ^ (cN c - 1) = 2 * 2 ^ (cN c - 2)) by (rewrite <- Z.pow_succ_r by lia; f_equal; lia). pow_pos 2 (cN c - 2).
    assert (P3 : 2 ^ (cN c - 2) = 2 * 2 ^ (cN c - 3)) by (rewrite <- Z.pow_succ_r by lia; f_equal; lia). pow_pos 2 (cN c - 3).
    unfold maxk, maxreal. destruct (csp c); cbn [spec_eqb]; lia. }
  assert (P0 : (0 < value c (maxreal c))%Q) by (rewrite MV; apply pow2_pos). assert (RM : real c (maxreal c)) by (unfold real; lia).
  destruct RT as [[Z0 _]|[[_ (R & _ & M & _)]|[N _]]]; [lra| |lra]. apply Qle_antisym; [|apply M; assumption].
  unfold real in R. apply (value_le c BN Bes); lia.
Qed.
Lemma min_right c r : valid_cfg c -> ces c = 0 -> rounds_tz c (inject_Z (- maxreal c)) r -> (value c r == value c (- maxreal c))%Q.
Proof.
  intros V E RT. vcb V. assert (S : rounds_tz c (inject_Z (maxreal c)) (- r)).
  { rewrite inject_Z_opp in RT. destruct RT as [[Z0 ->]|[[P D]|[N D]]].
    - left. split; [lra|reflexivity].
    - right; right. split; [lra|]. rewrite Z.opp_involutive. revert D. unfold down_pos. intros (D1 & D2 & D3 & D4). split; [exact D1|]. split; [exact D2|]. split; [exact D3|exact D4].
    - right; left. split; [lra|]. revert D. unfold down_pos. intros (D1 & D2 & D3 & D4). split; [exact D1|]. split; [exact D2|]. split; [intros w W1 W2 W3; apply D3; [exact W1|exact W2|lra]|]. destruct D4 as [D4|D4]; [left; lra|right; exact D4]. }
  apply (max_right c (- r) V E) in S. rewrite value_opp in S by assumption. rewrite value_opp by assumption. lra.
Qed.

(** The unsigned pattern. *)
Section u.
Context (show : Z -> string) (pw : Z -> Z) (c : cfg).
Hypothesis V : valid_cfg c.
Hypothesis FF : frac_fits c.
Hypothesis FC : float_covers c 11 52.
Lemma o_lines l : forall s o, (forall v, In v l -> pattern c v) -> t_posits show pw c "No" l (Stream only_dec s) = Ok o ->
  o = Stream only_dec (s ++ lines (map (fun v => [decimal (second c v)]) l)).
Proof using V FF FC.
  induction l as [|v l IH]; intros s o P H; cbn [t_posits] in H.
  - injection H as <-. cbn [map lines]. rewrite app_nil_s. reflexivity.
  - unfold t_posit in H. change (d_has "I" "No") with false in H. change (d_has "2" "No") with false in H. change (d_has "A" "No") with false in H. cbv iota in H.
    unfold t_print1 in H. pose proof (P v (or_introl eq_refl)) as PV.
    assert (F : forall up l0 t, t_fields show pw c v up l0 "No" (Stream only_dec t) = Ok (Stream only_dec (t ++ tab ++ decimal (second c v)))).
    { intros up l0 t. cbn [t_fields t_field bind]. rewrite put_at, put_pt, (proj1 (second_ok c v V PV)), app_assoc_s. reflexivity. }
    destruct (all_forms c V FF FC v PV) as [e f k e' f' _ _ U L _ _ _ _|u0 l0 _ U L _ _]; rewrite U, L in H; cbn [bind] in H; rewrite F in H; cbn [bind] in H; rewrite put_at in H.
    all: rewrite (IH _ o (fun w W => P w (or_intror W)) H); cbn [map lines tabbed]; rewrite ?app_nil_s, !app_assoc_s; reflexivity.
Qed.
End u.
Lemma o_wrong show showf tname pw c m o : valid_cfg c -> frac_fits c -> float_covers c 11 52 -> ~ (cH c = 8 /\ cN c = 8) ->
  t_output show showf tname pw c "No" m = Some (Ok o) ->
  exists head l rows, s_text o = (head ++ lines rows)%string /\ (forall v, In v l <-> real c v) /\
    Forall2 (fun v row => exists t, row = [t] /\ (v < 0 -> signed_numeral t (if cH c =? 8 then v mod 2 ^ 8 else v) /\ ~ numeral 10 t (v mod 2 ^ cN c))) l rows.
Proof.
  intros V FF FC N8 H. unfold t_output in H. change (d_has "N" "No") with true in H. change (d_has "U" "No") with false in H. cbn [negb andb] in H.
  destruct (lp_signed c m) as [[l|]|] eqn:EL; try discriminate H. injection H as H. cbn [bind] in H.
  pose proof (signed_only c m l V EL) as LE. assert (LP : forall v, In v l -> pattern c v) by (intros v I; apply (real_pattern c V); apply (posits_real c v V); rewrite <- LE; exact I).
  rewrite put_at, set_at, put_dec, put_at, put_dec, !put_at in H.
  rewrite (o_lines show pw c V FF FC l _ o LP H). cbn [s_text]. eexists _, l, _. split; [reflexivity|]. split; [intros v; rewrite LE; apply posits_real; exact V|].
  assert (G : forall ll, (forall v, In v ll -> pattern c v) -> Forall2 (fun v row => exists t, row = [t] /\ (v < 0 -> signed_numeral t (if cH c =? 8 then v mod 2 ^ 8 else v) /\ ~ numeral 10 t (v mod 2 ^ cN c))) ll (map (fun v => [decimal (second c v)]) ll)).
  { induction ll as [|v ll IH]; intros P; cbn [map]; constructor; [|apply IH; intros w W; apply P; now right].
    exists (decimal (second c v)). split; [reflexivity|]. intros NEG. split.
    - unfold second. change (2 ^ 8) with 256. apply decimal_numeral.
    - intros NU. vcb V. pow_pos 2 (cN c). pose proof (Z.mod_pos_bound v (2 ^ cN c) ltac:(lia)) as MB.
      pose proof (signed_fun _ _ _ (decimal_numeral (second c v)) (or_introl (conj (proj1 MB) NU))) as EQ. pose proof (P v (or_introl eq_refl)) as PV. unfold pattern in PV.
      assert (PW : 2 ^ cN c = 2 * 2 ^ (cN c - 1)) by (rewrite <- Z.pow_succ_r by lia; f_equal; lia).
      assert (VM : v mod 2 ^ cN c = v + 2 ^ cN c) by (symmetry; apply (Z.mod_unique _ _ (-1)); lia).
      unfold second in EQ. destruct (Z.eqb_spec (cH c) 8) as [E8|E8]; [|lia].
      assert (N7 : cN c <= 7) by lia. pose proof (pow2_mono (cN c) 7 ltac:(lia)) as M7. change (2 ^ 7) with 128 in M7.
      assert (V8 : v mod 256 = v + 256) by (symmetry; apply (Z.mod_unique _ _ (-1)); lia). lia. }
  apply G. exact LP.
Qed.
(** The heading. *)
Lemma fewer format : d_has "o" format = true -> (List.length (filter named (columns_of format)) < List.length (columns_of format))%nat.
Proof.
  assert (LE : forall l : list ascii, (List.length (filter named l) <= List.length l)%nat) by (induction l as [|a l IH]; cbn [filter List.length]; [lia|destruct (named a); cbn [List.length]; lia]).
  induction format as [|ch f IH]; intros O; [discriminate O|]. rewrite has_cons in O. cbn [columns_of]. destruct (Ascii.eqb_spec ch "o") as [->|NE].
  - change (is_column "o") with true. cbv iota. cbn [filter]. change (named "o") with false. cbv iota. cbn [List.length]. pose proof (LE (columns_of f)). lia.
  - specialize (IH O). destruct (is_column ch); [|exact IH]. cbn [filter]. destruct (named ch); cbn [List.length]; lia.
Qed.
