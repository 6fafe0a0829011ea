(** Printing posits, tabulated posits and vectors. *)
From Coq Require Import ZArith QArith List Bool String Ascii Lia.
From Verif Require Import Res CInt Traits Unpacked Cfg Spec SpecFloat Posit Configs Print SpecPrint PrintProof SpecLemmas DecodeProof Specials FConstProof Conv1 Conv5 Final1 PositFProof3.
Import ListNotations.
Open Scope Z_scope.

Lemma posit_base show c v o o' : print_posit show c v o = Ok o' -> s_flags o' = s_flags o.
Proof.
  unfold print_posit. intros H.
  destruct (if flags_eqb (s_flags o) only_hex then _ else _) as [x|e] in H; [|discriminate]. cbn [bind] in H. injection H as <-. reflexivity.
Qed.

Lemma print_hex show c v s : print_posit show c v (Stream only_hex s) = Ok (Stream only_hex (s ++ (if cH c =? 8 then String (ascii_of_N (Z.to_N (wrapu 8 v))) EmptyString else decimal v))).
Proof.
  unfold print_posit. cbn [s_flags]. change (flags_eqb only_hex only_hex) with true. cbv iota. cbn [bind]. unfold put_val. change (iw (tS c)) with (cH c).
  destruct (cH c =? 8); reflexivity.
Qed.
Lemma posit_hex show c v s : cH c <> 8 ->
  exists t, print_posit show c v (Stream only_hex s) = Ok (Stream only_hex (s ++ t)) /\ signed_numeral t v.
Proof.
  intros H. eexists. split; [apply print_hex|]. destruct (Z.eqb_spec (cH c) 8); [contradiction|]. apply decimal_numeral.
Qed.
Lemma char_code z : 0 <= z < 256 -> Z.of_N (N_of_ascii (ascii_of_N (Z.to_N z))) = z.
Proof. intros H. rewrite N_ascii_embedding by lia. lia. Qed.
Lemma posit_hex_char show c v s : cH c = 8 -> -128 <= v < 128 ->
  exists t, print_posit show c v (Stream only_hex s) = Ok (Stream only_hex (s ++ t)) /\ ~ signed_numeral t v.
Proof.
  intros H B. eexists. split; [apply print_hex|]. destruct (Z.eqb_spec (cH c) 8); [|contradiction].
  intros [[P [_ R]]|[P (t & E & [N R])]].
  - cbn [read_from] in R. unfold digit_of in R. rewrite char_code in R by (apply Z.mod_pos_bound; lia). unfold wrapu in R.
    rewrite Z.mod_small in R by lia.
    destruct (Z.leb_spec 48 v), (Z.leb_spec v 57); cbn [andb] in R; destruct (Z.leb_spec 97 v), (Z.leb_spec v 102); cbn [andb] in R; try discriminate.
    all: match type of R with context [?d <? 10] => destruct (d <? 10); [|discriminate]; injection R as R; lia end.
  - injection E as _ E. subst t. contradiction.
Qed.
Lemma posit_hex_distinct show c v w s : - 2 ^ (cH c - 1) <= v < 2 ^ (cH c - 1) -> - 2 ^ (cH c - 1) <= w < 2 ^ (cH c - 1) ->
  print_posit show c v (Stream only_hex s) = print_posit show c w (Stream only_hex s) -> v = w.
Proof.
  intros Bv Bw. rewrite !print_hex. intros H. injection H as H. apply app_cancel in H. destruct (Z.eqb_spec (cH c) 8) as [E|E].
  - injection H as H. rewrite E in *. change (2 ^ (8 - 1)) with 128 in *.
    assert (A : wrapu 8 v = wrapu 8 w).
    { assert (P : forall z, 0 <= wrapu 8 z < 256) by (intros; apply Z.mod_pos_bound; lia).
      rewrite <- (char_code _ (P v)), <- (char_code _ (P w)). unfold ascii_of_N in *. rewrite H. reflexivity. }
    unfold wrapu in A. change (2 ^ 8) with 256 in A. pose proof (Z.div_mod v 256 ltac:(lia)). pose proof (Z.div_mod w 256 ltac:(lia)). lia.
  - pose proof (decimal_numeral v) as D. rewrite H in D. eapply signed_fun; [exact D|apply decimal_numeral].
Qed.

Lemma print_oct show c v s u : unpack c v = Ok u ->
  print_posit show c v (Stream only_oct s) = Ok (Stream only_oct (s_text (print_unpacked (cF c) (c_E c) u (Stream only_dec s)))).
Proof.
  intros H. unfold print_posit. cbn [s_flags]. change (flags_eqb only_oct only_hex) with false. change (flags_eqb only_oct only_dec) with false.
  change (flags_eqb only_oct only_oct) with true. cbv iota. rewrite H. cbn [bind]. reflexivity.
Qed.
Lemma width_pos c : valid_cfg c -> 0 < cF c.
Proof. intros V. destruct (vc_F c V) as [H|[H|[H|H]]]; lia. Qed.
Lemma posit_oct show c v s : valid_cfg c -> frac_fits c -> real c v -> v <> 0 ->
  exists e f te tf tb, (value c v == uvalue (cF c) (v <? 0) e f)%Q /\ 0 <= f < 2 ^ cF c /\
    print_posit show c v (Stream only_oct s) = Ok (Stream only_oct
      (s ++ "up(" ++ (if v <? 0 then "-" else "+") ++ " exp (dec) = " ++ te ++ " fraction (hex) = " ++ tf ++ " (bin) = " ++ tb ++ ")")) /\
    signed_numeral te e /\ numeral 16 tf f /\ numeral 2 tb f /\ Z.of_nat (String.length tb) = cF c.
Proof.
  intros V FF R N. destruct (decode_value c v V FF R N) as (neg & e & f & U & B & VL).
  destruct (decode_trunc c v V R N) as (e' & f' & U' & _). rewrite U in U'. injection U' as -> <- <-.
  destruct (unpacked_fields (cF c) (c_E c) (Unpacked.U Regular (v <? 0) e f) only_dec s eq_refl (width_pos c V) B) as (te & tf & tb & P & Q).
  exists e, f, te, tf, tb. split; [exact VL|]. split; [exact B|]. split; [|exact Q]. rewrite (print_oct _ _ _ _ _ U), P. reflexivity.
Qed.
Lemma posit_oct_special show c v s : valid_cfg c -> pattern c v ->
  (v = 0 -> print_posit show c v (Stream only_oct s) = Ok (Stream only_oct (s ++ "up(0)"))) /\
  (is_nan c v -> print_posit show c v (Stream only_oct s) = Ok (Stream only_oct (s ++ "up(nan)"))) /\
  (is_inf c v -> print_posit show c v (Stream only_oct s) = Ok (Stream only_oct (s ++ if v <? 0 then "up(-infinity)" else "up(+infinity)"))).
Proof.
  intros V P. destruct (kinds_disjoint c v V) as (D1 & D2 & D3 & _).
  pose proof (zero_real c V) as Z0.
  destruct (classify c v V P) as [[E U]|[[E U]|[[E U]|[E [NZ _]]]]].
  - subst v. split; [intros _; rewrite (print_oct _ _ _ _ _ U); reflexivity|]. split; intros H; exfalso; tauto.
  - split; [intros ->; exfalso; tauto|]. split; [intros _; rewrite (print_oct _ _ _ _ _ U); reflexivity|]. intros H; exfalso; tauto.
  - split; [intros ->; exfalso; tauto|]. split; [intros H; exfalso; tauto|]. intros _. rewrite (print_oct _ _ _ _ _ U). cbn [print_unpacked utyp uneg]. destruct (v <? 0); reflexivity.
  - split; [intros ->; contradiction|]. split; intros H; exfalso; tauto.
Qed.

Lemma inf_sign c v w : valid_cfg c -> is_inf c v -> is_inf c w -> (v <? 0) = (w <? 0) -> v = w.
Proof.
  intros V. vcb V. assert (2 ^ 2 <= 2 ^ (cN c - 1)) by (apply Z.pow_le_mono_r; lia).
  intros [[A ->]|[[A ->]|[A ->]]] [[B ->]|[[B ->]|[B ->]]] E; try congruence; exfalso; revert E; repeat match goal with |- context [?a <? 0] => destruct (Z.ltb_spec a 0) end; lia || discriminate.
Qed.
Lemma posit_oct_distinct show c v w s : valid_cfg c -> frac_fits c -> pattern c v -> pattern c w ->
  print_posit show c v (Stream only_oct s) = print_posit show c w (Stream only_oct s) -> v = w.
Proof.
  intros V FF Pv Pw EQ.
  assert (U : forall x, pattern c x -> exists u, unpack c x = Ok u /\ 0 <= ufrac u < 2 ^ cF c).
  { intros x P. pose proof (width_pos c V) as WP. assert (P0 : 0 < 2 ^ cF c) by (apply Z.pow_pos_nonneg; lia).
    destruct (classify c x V P) as [[_ H]|[[_ H]|[[_ H]|[R [NZ _]]]]]; try (eexists; split; [exact H|cbn [ufrac]; lia]).
    destruct (decode_value c x V FF R NZ) as (n & e & f & H & B & _). eexists. split; [exact H|exact B]. }
  destruct (U v Pv) as (u & Hu & Bu). destruct (U w Pw) as (u' & Hu' & Bu'). rewrite (print_oct _ _ _ _ _ Hu), (print_oct _ _ _ _ _ Hu') in EQ.
  injection EQ as EQ. destruct (unpacked_distinct _ _ _ _ _ _ _ (width_pos c V) Bu Bu' EQ) as (ET & EI & ER).
  destruct (classify c v V Pv) as [[A H]|[[A H]|[[A H]|[A [NZ (e & f & H)]]]]]; destruct (classify c w V Pw) as [[A' H']|[[A' H']|[[A' H']|[A' [NZ' (e' & f' & H')]]]]];
    rewrite Hu in H; rewrite Hu' in H'; injection H as ->; injection H' as ->; cbn [utyp uneg uexp ufrac] in *; try discriminate ET.
  - lia.
  - destruct A, A'; congruence.
  - exact (inf_sign c v w V A A' (EI eq_refl)).
  - destruct (ER eq_refl) as (E1 & E2 & E3). destruct (decode_value c v V FF A NZ) as (n1 & e1 & f1 & H1 & _ & V1).
    destruct (decode_value c w V FF A' NZ') as (n2 & e2 & f2 & H2 & _ & V2). rewrite Hu in H1. rewrite Hu' in H2. injection H1 as <- <- <-. injection H2 as <- <- <-.
    apply (value_injective c v w V A A'). rewrite V1, V2, E1, E2, E3. reflexivity.
Qed.
Lemma posit_dec show c v s : valid_cfg c -> frac_fits c -> pt_holds c 8 -> float_covers c 8 23 -> real c v ->
  exists b r, print_posit show c v (Stream only_dec s) = Ok (Stream only_dec (s ++ show b)) /\ 0 <= b < 2 ^ 32 /\ ieee_val 8 23 b = FinVal r /\ (r == value c v)%Q.
Proof.
  intros V FF PT FC R. destruct (to_float_covered c 8 23 true v V fmt_single PT FF FC R) as (b & r & T & B & I & E).
  exists b, r. split; [|auto]. unfold print_posit. cbn [s_flags]. change (flags_eqb only_dec only_hex) with false. change (flags_eqb only_dec only_dec) with true.
  cbv iota. rewrite single_any, T. reflexivity.
Qed.
Lemma posit_dec_same : exists v w, v <> w /\ real p32 v /\ real p32 w /\
  forall show s, print_posit show p32 v (Stream only_dec s) = print_posit show p32 w (Stream only_dec s).
Proof.
  exists 0x40000000, 0x40000001. split; [lia|]. split; [unfold real, maxreal; cbn; lia|]. split; [unfold real, maxreal; cbn; lia|].
  intros show s. unfold print_posit. cbn [s_flags]. change (flags_eqb only_dec only_hex) with false. change (flags_eqb only_dec only_dec) with true. cbv iota.
  replace (p_to_float p32 single_trait 0x40000000) with (Ok 0x3f800000 : res Z) by (vm_compute; reflexivity).
  replace (p_to_float p32 single_trait 0x40000001) with (Ok 0x3f800000 : res Z) by (vm_compute; reflexivity). reflexivity.
Qed.
Lemma posit_no_base show c v s : print_posit show c v (Stream (Flags false false false) s) = Ok (Stream (Flags false false false) s).
Proof. reflexivity. Qed.

(** positf.h *)
Lemma positf_oct c v s fl : valid_cfg c -> frac_fits c -> real c v -> v <> 0 ->
  exists e f te tf tb, (value c v == uvalue (cF c) (v <? 0) e f)%Q /\ 0 <= f < 2 ^ cF c /\
    print_positf c v (Stream fl s) = Ok (Stream only_dec
      (s ++ "up(" ++ (if v <? 0 then "-" else "+") ++ " exp (dec) = " ++ te ++ " fraction (hex) = " ++ tf ++ " (bin) = " ++ tb ++ ")")) /\
    signed_numeral te e /\ numeral 16 tf f /\ numeral 2 tb f /\ Z.of_nat (String.length tb) = cF c.
Proof.
  intros V FF R N. destruct (decode_value c v V FF R N) as (neg & e & f & U & B & VL).
  destruct (decode_trunc c v V R N) as (e' & f' & U' & _). rewrite U in U'. injection U' as -> <- <-.
  destruct (unpacked_fields (cF c) (c_E c) (Unpacked.U Regular (v <? 0) e f) fl s eq_refl (width_pos c V) B) as (te & tf & tb & P & Q).
  exists e, f, te, tf, tb. split; [exact VL|]. split; [exact B|]. split; [|exact Q]. unfold print_positf. rewrite U. cbn [bind]. rewrite P. reflexivity.
Qed.

(** Integers in the base of the stream. *)
Lemma put_nat t z fl s : (iw t =? 8) = false -> 0 <= z < 2 ^ iw t -> exists d, put_val t z (Stream fl s) = Stream fl (s ++ d) /\ numeral (base_of (f_dec fl) (f_oct fl) (f_hex fl)) d z.
Proof.
  intros W B. unfold put_val. rewrite W. unfold put_int, put. cbn [s_flags s_text]. eexists. split; [reflexivity|].
  assert (W1 : wrapu (iw t) z = z) by (apply Z.mod_small; exact B). rewrite W1.
  assert (D : decimal z = digits 10 z) by (unfold decimal; destruct (Z.ltb_spec z 0); [lia|reflexivity]). rewrite D.
  destruct fl as [[] [] []]; apply digits_numeral; cbn; lia.
Qed.
Lemma put_dec t z s : (iw t =? 8) = false -> exists d, put_val t z (Stream only_dec s) = Stream only_dec (s ++ d) /\ signed_numeral d z.
Proof. intros W. unfold put_val. rewrite W. eexists. split; [reflexivity|]. apply decimal_numeral. Qed.
Lemma tab_text N v fl s : 0 <= N <= 32 -> exists d, print_tab N v (Stream fl s) = Stream fl (s ++ "posit(" ++ d ++ ")") /\
  numeral (base_of (f_dec fl) (f_oct fl) (f_hex fl)) d (v mod 2 ^ N).
Proof.
  intros HN. assert (B : 0 <= v mod 2 ^ N < 2 ^ 32).
  { pose proof (Z.mod_pos_bound v (2 ^ N) ltac:(apply Z.pow_pos_nonneg; lia)). assert (2 ^ N <= 2 ^ 32) by (apply Z.pow_le_mono_r; lia). lia. }
  destruct (put_nat (uint 32) (v mod 2 ^ N) fl (s ++ "posit(") eq_refl B) as (d & E & D). exists d. split; [|exact D].
  unfold print_tab. unfold put at 2. cbn [s_flags s_text]. unfold wrapu. rewrite E. unfold put. cbn [s_flags s_text]. rewrite !app_assoc_s. reflexivity.
Qed.
Lemma binary8_char v fl s : -128 <= v < 128 -> exists a, print_binary8 v (Stream fl s) = Stream fl (s ++ "binary8tab(" ++ String a ")") /\ Z.of_N (N_of_ascii a) = v mod 256.
Proof.
  intros B. exists (ascii_of_N (Z.to_N (wrapu 8 v))). split; [|apply char_code; apply Z.mod_pos_bound; lia].
  unfold print_binary8, put_val, put_char, put. cbn [s_flags s_text iw sint]. change (8 =? 8) with true. cbv iota. cbn [s_flags s_text]. rewrite !app_assoc_s. reflexivity.
Qed.
Lemma fold_texts (step : stream -> Z -> stream) (P : string -> Z -> Prop) fl l :
  (forall x s, In x l -> exists d, step (Stream fl s) x = Stream fl (s ++ String " " d) /\ P d x) ->
  forall s, exists ts, fold_left step l (Stream fl s) = Stream fl (s ++ spaced ts) /\ Forall2 P ts l.
Proof.
  induction l as [|x l IH]; intros H s.
  - exists []. cbn [fold_left spaced]. rewrite app_nil_s. split; [reflexivity|constructor].
  - destruct (H x s (or_introl eq_refl)) as (d & E & D). destruct (IH (fun y s I => H y s (or_intror I)) (s ++ String " " d)%string) as (ts & E' & D').
    exists (d :: ts). cbn [fold_left spaced]. rewrite E, E', app_assoc_s. split; [reflexivity|]. constructor; assumption.
Qed.
Lemma m256i_text bytes fl s : Forall (fun b => 0 <= b < 256) bytes -> exists ts,
  print_m256i bytes (Stream fl s) = Stream only_dec (s ++ "256i(" ++ spaced ts ++ ")") /\ Forall2 (numeral 16) ts bytes.
Proof.
  intros FB. rewrite Forall_forall in FB.
  destruct (fold_texts (fun o b => put_val (sint 32) b (put " " o)) (numeral 16) only_hex bytes) with (s := (s ++ "256i(")%string) as (ts & E & D).
  { intros x t I. destruct (put_nat (sint 32) x only_hex (t ++ " ") eq_refl) as (d & E & D); [specialize (FB x I); cbn; lia|]. exists d. split; [|exact D].
    unfold put at 1. cbn [s_flags s_text]. rewrite E, app_assoc_s. reflexivity. }
  exists ts. split; [|exact D]. unfold print_m256i. unfold put at 3. unfold setf at 2. cbn [s_flags s_text]. rewrite E. unfold put, setf. cbn [s_flags s_text]. rewrite !app_assoc_s. reflexivity.
Qed.
Lemma simd_text name t l s : (iw t =? 8) = false -> Forall (fun x => cast t x = x) l -> exists ts,
  print_simd name t l (Stream only_dec s) = Stream only_dec (s ++ name ++ "[" ++ spaced ts ++ "]") /\ Forall2 signed_numeral ts l.
Proof.
  intros W FB. rewrite Forall_forall in FB.
  destruct (fold_texts (fun o x => put_val t (cast t x) (put " " o)) signed_numeral only_dec l) with (s := ((s ++ name) ++ "[")%string) as (ts & E & D).
  { intros x r I. destruct (put_dec t (cast t x) (r ++ " ") W) as (d & E & D). exists d. rewrite (FB x I) in D. split; [|exact D].
    unfold put at 1. cbn [s_flags s_text]. rewrite E, app_assoc_s. reflexivity. }
  exists ts. split; [|exact D]. unfold print_simd. unfold put at 3 4. cbn [s_flags s_text]. rewrite E. unfold put. cbn [s_flags s_text]. rewrite !app_assoc_s. reflexivity.
Qed.
Lemma fold_flags (step : stream -> Z -> stream) : (forall o x, s_flags (step o x) = s_flags o) -> forall l o, s_flags (fold_left step l o) = s_flags o.
Proof. intros H. induction l as [|x l IH]; intros o; [reflexivity|]. cbn [fold_left]. rewrite IH. apply H. Qed.
Lemma simd_flags name t l o : s_flags (print_simd name t l o) = s_flags o.
Proof.
  unfold print_simd, put. cbn [s_flags]. rewrite fold_flags; [reflexivity|]. intros q x. unfold put_val. destruct (iw t =? 8); reflexivity.
Qed.
Lemma binary8_not v fl s : -128 <= v < 128 -> exists t, print_binary8 v (Stream fl s) = Stream fl (s ++ "binary8tab(" ++ t ++ ")") /\
  ~ numeral (base_of (f_dec fl) (f_oct fl) (f_hex fl)) t (v mod 256) /\ ~ signed_numeral t v.
Proof.
  intros B. destruct (binary8_char v fl s B) as (a & E & A). exists (String a EmptyString). split; [exact E|].
  assert (R : forall b z, read_from b 0 (String a EmptyString) = Some z -> Z.of_N (N_of_ascii a) <> z).
  { intros b z H. cbn [read_from] in H. unfold digit_of in H. set (n := Z.of_N (N_of_ascii a)) in *.
    destruct (Z.leb_spec 48 n), (Z.leb_spec n 57); cbn [andb] in H; destruct (Z.leb_spec 97 n), (Z.leb_spec n 102); cbn [andb] in H; try discriminate.
    all: match type of H with context [?d <? ?y] => destruct (d <? y); [|discriminate]; injection H as H; lia end. }
  split.
  - intros [_ H]. exact (R _ _ H A).
  - intros [[P [_ H]]|[P (t & H & [N _])]].
    + apply (R _ _ H). rewrite A. apply Z.mod_small. lia.
    + injection H as _ H. subst t. contradiction.
Qed.
Lemma cast_s w x : 0 < w -> - 2 ^ (w - 1) <= x < 2 ^ (w - 1) -> cast (sint w) x = x.
Proof.
  intros W B. unfold cast, sint, wraps. cbn [isg iw]. assert (2 ^ w = 2 * 2 ^ (w - 1)) by (rewrite <- Z.pow_succ_r by lia; f_equal; lia).
  rewrite Z.mod_small by lia. lia.
Qed.
Lemma simd_signed name w l s : w = 16 \/ w = 32 -> Forall (fun x => - 2 ^ (w - 1) <= x < 2 ^ (w - 1)) l -> exists ts,
  print_simd name (sint w) l (Stream only_dec s) = Stream only_dec (s ++ name ++ "[" ++ spaced ts ++ "]") /\ Forall2 signed_numeral ts l.
Proof.
  intros W FB. apply simd_text; [destruct W; subst; reflexivity|]. eapply Forall_impl; [|exact FB]. intros x B. apply cast_s; [lia|exact B].
Qed.
Lemma simd_unsigned name l s : Forall (fun x => 0 <= x < 2 ^ 32) l -> exists ts,
  print_simd name (uint 32) l (Stream only_dec s) = Stream only_dec (s ++ name ++ "[" ++ spaced ts ++ "]") /\ Forall2 signed_numeral ts l.
Proof.
  intros FB. apply simd_text; [reflexivity|]. eapply Forall_impl; [|exact FB]. intros x B. unfold cast, uint, wrapu. cbn [isg iw]. apply Z.mod_small. exact B.
Qed.
Lemma unpacked_base F E u o : utyp u <> Regular \/ s_flags o = only_dec -> s_flags (print_unpacked F E u o) = s_flags o.
Proof. intros H. destruct o as [fl s]. unfold print_unpacked, put_val. destruct (utyp u) eqn:T; try reflexivity. destruct H as [H|H]; [congruence|]. cbn in H. rewrite H. reflexivity. Qed.
Lemma unpacked_base_lost F E u o : utyp u = Regular -> s_flags (print_unpacked F E u o) = only_dec.
Proof. intros T. unfold print_unpacked. rewrite T. reflexivity. Qed.
