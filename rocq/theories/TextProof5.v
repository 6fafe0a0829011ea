(** The theorems about the text listing. *)
From Coq Require Import ZArith QArith Qabs Bool List String Ascii Sorted Lia Lqa.
From Verif Require Import Res CInt Bits Traits Unpacked Cfg Spec SpecFloat SpecPrint SpecDump Posit ListP Dump Print TextList SpecText QPow Core SpecLemmas Arith DecodeProof EncodeProof UOps UAdd Ops
  Final1 Final2 Final4 Conv1 Conv3 Conv5 FloatProof FConstProof PrintProof ListProof DumpProof Prog1 Prog2 Prog3 Acc2 Acc3 TextProof TextProof2 TextProof3 TextProof4.
Import ListNotations.
Open Scope Z_scope.

Lemma lines_right : forall show showf tname pw c format m o, valid_cfg c -> frac_fits c -> float_covers c 11 52 ->
  asks "p" format = false -> (asks "o" format = true -> cH c = 8 /\ cN c = 8) -> (asks "U" format = true -> cH c < 64 /\ cN c <= 30) ->
  asks "N" format = true \/ asks "H" format = false ->
  t_output show showf tname pw c format m = Some (Ok o) ->
  exists over ta tb heading l rows,
    s_text o = (over ++ "looping " ++ (if asks "U" format then "unsigned " else "signed ") ++ ta ++ " to " ++ tb ++ nl ++ heading ++ nl ++ lines rows)%string /\
    (if asks "N" format then over = ""%string else exists o', t_output show showf tname pw c "H" 0 = Some (Ok o') /\ over = s_text o') /\ bounds_text c format ta tb /\
    (asks "o" format = false -> heading = tabbed (map column_name (columns_of format))) /\
    listed c format l /\ Forall2 (line_of show pw c format) l rows.
Proof.
  intros show showf tname pw c format m o V FF FC NP O8 U30 NH H. rewrite ?has_asks in *.
  destruct (output_ok show showf tname pw c format V FF FC NP O8 U30 m o NH H) as (over & ta & tb & l & rows & E & OV & BT & L & R).
  exists over, ta, tb, (tabbed (map column_name (filter named (columns_of format)))), l, rows. split; [exact E|]. split; [destruct (d_has "N" format); [exact OV|]; eexists; split; [unfold t_output; change (negb (d_has "N" "H") && d_has "H" "H") with true; cbv iota; change (d_has "N" "H") with false; cbv iota; rewrite OV; reflexivity|reflexivity]|]. split; [exact BT|].
  split; [intros O; rewrite (all_named format O); reflexivity|]. auto.
Qed.
Lemma output_there : forall show showf tname pw c format, valid_cfg c -> frac_fits c -> float_covers c 11 52 ->
  (asks "o" format = true -> cH c = 8 /\ cN c = 8) -> (asks "U" format = true -> cH c < 64 /\ cN c <= 30) ->
  (asks "I" format = true \/ asks "2" format = true \/ asks "A" format = true -> mul_fits c /\ roomy c) -> asks "N" format = true ->
  (asks "U" format = false -> cH c < 32 \/ cN c < cH c \/ csp c = WithNanInf) ->
  exists n, forall m, (n <= m)%nat -> exists o, t_output show showf tname pw c format m = Some (Ok o).
Proof. intros show showf tname pw c format V FF FC O8 U30 MF NN EU. rewrite ?has_asks in *. exact (output_def show showf tname pw c format V FF FC O8 U30 MF NN EU). Qed.

Lemma over_only show showf tname pw c format m o : valid_cfg c -> d_has "N" format = false -> d_has "H" format = true -> t_output show showf tname pw c format m = Some (Ok o) ->
  exists ts tp tn, o = Stream only_dec (ts ++ tp ++ tn) /\ sizes_text tname c ts /\ patterns_text c tp /\ numbers_texts show showf c tn.
Proof.
  intros V NN HH H. unfold t_output in H. rewrite NN, HH in H. cbn [negb andb] in H. apply (overview_ok show showf tname c V). congruence.
Qed.
Lemma max_small c : valid_cfg c -> cH c < 64 -> 0 <= maxreal c < 2 ^ 31.
Proof.
  intros V H. vcb V. pose proof (maxreal_bounds c BN Bes) as MB. assert (cH c <= 32) by (destruct (vc_H _ V) as [E1|[E1|[E1|E1]]]; lia).
  pose proof (pow2_mono (cN c - 1) 31 ltac:(lia)). unfold maxreal in *. destruct (csp c); lia.
Qed.
Lemma overview_right : forall show showf tname pw c format m o, valid_cfg c -> frac_fits c -> float_covers c 11 52 -> cH c < 64 ->
  asks "N" format = false -> asks "H" format = true -> t_output show showf tname pw c format m = Some (Ok o) ->
  exists ts tp h w l b x,
    s_text o = (ts ++ tp ++ " half=" ++ show h ++ " twice=" ++ show w ++ nl ++ " min=" ++ show l ++ " " ++ b ++ " max=" ++ showf x ++ nl)%string /\
    sizes_text tname c ts /\ (csp c <> WithNan -> specials_text c tp) /\
    numeral 2 b (- maxreal c mod 2 ^ cN c) /\ Z.of_nat (String.length b) = cN c /\
    (ces c = 0 -> is_double l (value c (- maxreal c))) /\
    (ces c = 0 -> float_covers c 8 23 -> pt_holds c 8 -> exists r, ieee_val 8 23 x = FinVal r /\ (r == value c (maxreal c))%Q).
Proof.
  intros show showf tname pw c format m o V FF FC H64 NN HH H. rewrite ?has_asks in *. destruct (over_only show showf tname pw c format m o V NN HH H) as (ts & tp & tn & -> & S1 & S2 & (h & w & l & x & b & -> & EH & EW & EL & EB & EX)).
  pose proof (max_small c V H64) as MS. rewrite (P_MINNEG_val c V) in *. rewrite (P_MAXPOS_val c V) in *. vcb V.
  exists ts, tp, h, w, l, b, x. split; [reflexivity|]. split; [exact S1|]. split; [exact (specials_right c tp V S2)|].
  split; [|split; [|split]].
  1,2: rewrite EB, bits_mod, Z2Nat.id by lia; pow_pos 2 (cN c); destruct (bits_numeral (cN c) (- maxreal c mod 2 ^ cN c) ltac:(lia) ltac:(apply Z.mod_pos_bound; lia)); assumption.
  - intros E0. destruct (t_of_value c (- maxreal c) l V FF FC ltac:(lia) EL) as (r & _ & R & RT & D). pose proof (min_right c r V E0 RT) as Q. destruct D as (D1 & y & D2 & D3). split; [exact D1|]. exists y. split; [exact D2|]. rewrite D3. exact Q.
  - intros E0 F8 PT. destruct (p_of_int c (maxreal c)) as [p|] eqn:EP; [cbn [bind] in EX|discriminate EX]. pose proof (exp_okay c V FC) as X.
    pose proof (of_int_real c V X _ p EP) as R. pose proof (by_room V (of_int c (maxreal c) V X (or_introl FF) ltac:(lia)) EP) as RT.
    rewrite single_any in EX. destruct (to_float_covered c 8 23 true p V FConstProof.fmt_single PT FF F8 R) as (b0 & r & E & B & I & Q). rewrite E in EX. injection EX as <-. exists r. split; [exact I|]. rewrite Q. exact (max_right c p V E0 RT).
Qed.
Lemma o_wrong' : forall show showf tname pw c m o, valid_cfg c -> frac_fits c -> float_covers c 11 52 -> ~ (cH c = 8 /\ cN c = 8) ->
  t_output show showf tname pw c "No" m = Some (Ok o) ->
  exists head l rows, s_text o = (head ++ lines rows)%string /\ (forall v, In v l <-> real c v) /\
    Forall2 (fun v row => exists t, row = [t] /\ (v < 0 -> signed_numeral t (if cH c =? 8 then v mod 2 ^ 8 else v) /\ ~ numeral 10 t (v mod 2 ^ cN c))) l rows.
Proof. exact o_wrong. Qed.
Lemma heading_wrong : forall show showf tname pw c format m o, valid_cfg c -> frac_fits c -> float_covers c 11 52 ->
  asks "p" format = false -> cH c = 8 /\ cN c = 8 -> asks "N" format = true -> asks "o" format = true ->
  t_output show showf tname pw c format m = Some (Ok o) ->
  exists before names l rows, s_text o = (before ++ nl ++ tabbed (map column_name names) ++ nl ++ lines rows)%string /\
    (List.length names < List.length (columns_of format))%nat /\ Forall2 (line_of show pw c format) l rows.
Proof.
  intros show showf tname pw c format m o V FF FC NP O8 NN HO H. rewrite ?has_asks in *.
  destruct (output_ok show showf tname pw c format V FF FC NP (fun _ => O8) ltac:(intros; lia) m o (or_introl NN) H) as (over & ta & tb & l & rows & E & OV & BT & L & R).
  eexists (over ++ "looping " ++ (if d_has "U" format then "unsigned " else "signed ") ++ ta ++ " to " ++ tb)%string, (filter named (columns_of format)), l, rows. split; [rewrite E, !app_assoc_s; reflexivity|]. split; [exact (fewer format HO)|exact R].
Qed.
Lemma infinity_wrong : forall show showf tname pw c format m o, valid_cfg c -> csp c = WithNan ->
  asks "N" format = false -> asks "H" format = true -> t_output show showf tname pw c format m = Some (Ok o) ->
  exists before tp tm rest, s_text o = (before ++ "with signed infinity and NaN" ++ nl ++ "+infinity: " ++ tp ++ nl ++ "-infinity: " ++ tm ++ nl ++ rest)%string /\
    (forall s, s = tp \/ s = tm -> exists v, special_text c s v /\ is_nan c v) /\ ~ exists v, is_inf c v.
Proof.
  intros show showf tname pw c format m o V SP NN HH H. rewrite ?has_asks in *. destruct (over_only show showf tname pw c format m o V NN HH H) as (ts & tp & tn & -> & S1 & S2 & _).
  destruct (specials_wrong c tp V S2 SP) as (t1 & t2 & t3 & -> & Q). exists ts, t1, t2. eexists. split; [cbn [s_text]; rewrite !app_assoc_s; reflexivity|]. split; [exact Q|].
  intros [v [[A _]|[[A _]|[A _]]]]; congruence.
Qed.
Lemma half_not : forall show showf tname pw c format m o, valid_cfg c -> frac_fits c -> float_covers c 11 52 -> cH c < 64 ->
  asks "N" format = false -> asks "H" format = true -> t_output show showf tname pw c format m = Some (Ok o) ->
  exists before h rest, s_text o = (before ++ " half=" ++ show h ++ rest)%string /\ ~ is_double h (1 # 2) /\ exists q, is_double h q /\ (1 <= q)%Q.
Proof.
  intros show showf tname pw c format m o V FF FC H64 NN HH H. rewrite ?has_asks in *. destruct (over_only show showf tname pw c format m o V NN HH H) as (ts & tp & tn & -> & S1 & S2 & (h & w & l & x & b & -> & EH & _)).
  destruct (half_wrong c h V FF FC H64 EH) as (q & D & L). exists (ts ++ tp)%string, h. eexists. split; [cbn [s_text]; rewrite !app_assoc_s; reflexivity|]. split; [|exists q; auto].
  intros (_ & y & Y1 & Y2). destruct D as (_ & z & Z1 & Z2). rewrite Y1 in Z1. injection Z1 as <-. rewrite Y2 in Z2. rewrite <- Z2 in L. lra.
Qed.
Definition ex_c : cfg := Cfg 8 4 1 8 WithNan.
Lemma ex_meets : valid_cfg ex_c /\ frac_fits ex_c /\ float_covers ex_c 11 52 /\ mul_fits ex_c /\ roomy ex_c.
Proof.
  split; [|split; [|split; [|split]]].
  - constructor; cbn; try lia; unfold is_width; lia.
  - unfold frac_fits. cbn. lia.
  - unfold float_covers. cbn. lia.
  - unfold mul_fits. cbn. lia.
  - unfold roomy. cbn. lia.
Qed.
Lemma ex_text : exists o, t_output (fun _ => "d"%string) (fun _ => "f"%string) (fun _ => "t"%string) (fun n => n) ex_c "Nibk" 20 = Some (Ok o) /\
  s_text o = ("looping signed -7 to 7" ++ nl ++ tabbed ["signed_int"; "bits"; "k"]%string ++ nl ++
    lines [["-7"; "1001"; "2"]; ["-6"; "1010"; "1"]; ["-5"; "1011"; "0"]; ["-4"; "1100"; "0"]; ["-3"; "1101"; "-1"]; ["-2"; "1110"; "-1"]; ["-1"; "1111"; "-2"];
      ["0"; "0000"; "0"]; ["1"; "0001"; "-2"]; ["2"; "0010"; "-1"]; ["3"; "0011"; "-1"]; ["4"; "0100"; "0"]; ["5"; "0101"; "0"]; ["6"; "0110"; "1"]; ["7"; "0111"; "2"]]%string)%string.
Proof. eexists. split; vm_compute; reflexivity. Qed.
Lemma ex_over : exists o, t_output (fun _ => "d"%string) (fun _ => "f"%string) (fun _ => "t"%string) (fun n => n) ex_c "H" 20 = Some (Ok o) /\ (100 < String.length (s_text o))%nat.
Proof. eexists. split; [vm_compute; reflexivity|]. vm_compute. lia. Qed.
