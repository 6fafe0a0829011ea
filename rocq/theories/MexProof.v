(** The MATLAB functions on arrays of 8 bit posits. *)
From Coq Require Import ZArith QArith Qabs Qpower Qminmax Lia Lqa Bool List Ascii String.
From Verif Require Import Res CInt Bits Traits Unpacked Cfg Posit Spec SpecTab SpecFloat SpecAny SpecGen SpecProg FloatOps QPow Core SpecLemmas Arith DecodeProof EncodeProof
  UOps UAdd Ops OpsAdd OpsUnary OpsUnary2 Specials Room Laws Configs Final1 Final2 Final3 Final4 Misc4 Conv1 Conv2 Conv3 Conv4 Conv5 Conv6 TabProof5 FloatProof FloatProof2 PositF PositFProof PositFProof2 PositFProof3 PositFProof4
  AnyProof AnyProof2 AnyProof3 AnyProof4 AnyProof5 AnyProof6 Tab TabProof TabProof2 TabProof3 TabProof4 Gen GenProof GenProof2 GenProof3 GenProof4 GenProof5 Prog3 SpecRange RangeProof2 MortonProof Mex SpecMex.
Import ListNotations.
Open Scope Z_scope.
Open Scope res_scope.

(** ** Subnormal floats *)
Lemma of_below c eb fb b q : valid_cfg c -> exp_ok c -> roomy c -> (forall w, real c w -> (0 < value c w)%Q -> (pow2 (-126) <= value c w)%Q) -> fmt_ok eb fb -> et_holds c eb -> 8 <= eb -> cF c < 32 -> 0 <= b < 2 ^ (eb + fb + 1) -> ieee_val eb fb b = FinVal q ->
  ~ (q == 0)%Q -> (Qabs q < least_normal eb)%Q -> ((Qabs q < pow2 (2 - 2 ^ (eb - 1) - cF c))%Q -> p_of_float c (any_floattrait eb fb true) b = Ok 0) /\
  ((pow2 (2 - 2 ^ (eb - 1) - cF c) <= Qabs q)%Q -> exists r, p_of_float c (any_floattrait eb fb true) b = Ok r /\ rounds_tz c q r).
Proof.
  intros V X RM LOW FO ET E8 F32 B IV NQ SM. pose proof (et_ok c eb fb V FO ET) as EE. vcb V.
  destruct (ieee_cases eb fb FO b B) as (Bf & Be & C). rewrite IV in C. pose proof FO as FO'. destruct FO' as [W [E1 E2] Hf].
  destruct (unpack_float eb fb (cF c) (c_E c) true FO (vc_F c V) (c_E_width c V) EE b B) as [Bd R].
  pow_pos 2 fb. pow_pos 2 (cF c).
  destruct C as [C1 [[C2 C3]|[C2 C3]]].
  2:{ exfalso. set (e := fexp_of eb fb b) in *. set (f := ffrac_of fb b) in *.
      assert (A : (Qabs q == dy (2 ^ fb + f) (e - (2 ^ (eb - 1) - 1) - fb))%Q).
      { rewrite C3. pose proof (dy_pos (2 ^ fb + f) (e - (2 ^ (eb - 1) - 1) - fb) ltac:(lia)). unfold sgn1. destruct (fsign_of eb fb b); [rewrite Qabs_neg by lra|rewrite Qabs_pos by lra]; ring. }
      rewrite A in SM. unfold least_normal in SM. apply (Qlt_not_le _ _ SM).
      apply Qle_trans with (dy (1 * 2 ^ fb) (e - (2 ^ (eb - 1) - 1) - fb)); [|apply dy_le; lia]. rewrite dy_pow by lia. unfold dy. change (inject_Z 1) with 1%Q. rewrite Qmult_1_l. apply pow2_le. lia. }
  unfold p_of_float. rewrite R. clear R. destruct (Z.eqb_spec (fexp_of eb fb b) (2 ^ eb - 1)); [contradiction|]. rewrite C2. cbn [Z.eqb negb orb].
  set (F := cF c) in *. set (d := dec_frac fb F b) in *. set (f := ffrac_of fb b) in *. set (s := fsign_of eb fb b) in *.
  assert (DZ : d = 0 <-> (Qabs q < pow2 (2 - 2 ^ (eb - 1) - F))%Q).
  { replace (1 - (2 ^ (eb - 1) - 1)) with (2 - 2 ^ (eb - 1)) in C3 by lia. set (o := 2 - 2 ^ (eb - 1)) in *.
    assert (P : (0 <= dy f (o - fb))%Q) by (rewrite <- (dy_0 (o - fb)); apply dy_le; lia). rewrite (sgn1_abs _ _ _ P C3).
    pose proof (is_width_pos _ (vc_F c V)) as WFp. destruct (dec_cut f fb F o ltac:(lia) ltac:(fold F in WFp; lia)) as [L1 L2].
    unfold d, dec_frac in *. fold f in Bd |- *. set (dd := f * 2 ^ F / 2 ^ fb) in *.
    assert (D1 : (dy 1 (o - F) == pow2 (o - F))%Q) by (unfold dy; change (inject_Z 1) with 1%Q; ring). split.
    - intros ->. rewrite <- D1. exact L2.
    - intros L. destruct (Z.eq_dec dd 0) as [E|N]; [exact E|exfalso]. assert (dy 1 (o - F) <= dy dd (o - F))%Q by (apply dy_le; lia). lra. }
  destruct (Z.eqb_spec d 0) as [D0|D0].
  { cbn [bind]. split; [intros _; apply (pack_specials c _ _ _ V)|intros L; exfalso; apply DZ in D0; lra]. }
  split; [intros L; exfalso; tauto|intros _].
  pose proof (Z.log2_spec d ltac:(lia)) as LS. set (l := Z.log2 d) in *. assert (L0 : 0 <= l) by apply Z.log2_nonneg.
  assert (LF : l < F) by (apply Z.log2_lt_pow2; lia).
  replace (F - l <? pw F) with true by (symmetry; apply Z.ltb_lt; unfold pw; lia). cbv zeta. cbn [bind].
  pow_pos 2 (F - l). set (g := (d * 2 ^ (F - l)) mod 2 ^ F). set (e := l + 1 - (2 ^ (eb - 1) - 1) - F).
  assert (Bg : 0 <= g < 2 ^ F) by (apply Z.mod_pos_bound; lia).
  assert (MV : 2 ^ F + g = d * 2 ^ (F - l)).
  { assert (PF : 2 ^ F = 2 ^ l * 2 ^ (F - l)) by (rewrite <- Z.pow_add_r by lia; f_equal; lia). rewrite Z.pow_succ_r in LS by lia. unfold g.
    replace ((d * 2 ^ (F - l)) mod 2 ^ F) with (d * 2 ^ (F - l) - 2 ^ F); [lia|]. apply Z.mod_unique with 1; [left; nia|lia]. }
  assert (UV : (uabs F e g == dy d (1 - (2 ^ (eb - 1) - 1) - F))%Q).
  { unfold uabs. rewrite MV, dy_pow by lia. replace (e - F + (F - l)) with (1 - (2 ^ (eb - 1) - 1) - F) by (unfold e; lia). reflexivity. }
  assert (AQ : (Qabs q == dy f (1 - (2 ^ (eb - 1) - 1) - fb))%Q /\ (q == sgn1 s * Qabs q)%Q).
  { assert (P : (0 <= dy f (1 - (2 ^ (eb - 1) - 1) - fb))%Q) by (rewrite <- (dy_0 (1 - (2 ^ (eb - 1) - 1) - fb)); apply dy_le; lia).
    assert (A : (Qabs q == dy f (1 - (2 ^ (eb - 1) - 1) - fb))%Q) by (rewrite C3; unfold sgn1; destruct s; [rewrite Qabs_neg by lra|rewrite Qabs_pos by lra]; ring).
    split; [exact A|rewrite A; exact C3]. }
  destruct AQ as [AQ SQ].
  assert (UL : (uabs F e g <= Qabs q)%Q).
  { rewrite UV, AQ. set (o := 1 - (2 ^ (eb - 1) - 1)). assert (DF : d * 2 ^ fb <= f * 2 ^ F).
    { unfold d, dec_frac. fold f. pose proof (Z.div_mod (f * 2 ^ F) (2 ^ fb) ltac:(lia)). pose proof (Z.mod_pos_bound (f * 2 ^ F) (2 ^ fb) ltac:(lia)). nia. }
    rewrite (dy_align d (o - F) (o - F - fb)), (dy_align f (o - fb) (o - F - fb)) by lia.
    replace (o - F - (o - F - fb)) with fb by lia. replace (o - fb - (o - F - fb)) with F by lia. apply dy_le. exact DF. }
  assert (UP : (0 < uabs F e g)%Q) by (unfold uabs; apply dy_pos; lia).
  assert (TINY : forall w, real c w -> (0 < value c w)%Q -> (uabs F e g < value c w)%Q /\ (Qabs q < value c w)%Q).
  { intros w Wr WP. pose proof (LOW w Wr WP) as Z1.
    assert (LN : (least_normal eb <= pow2 (-126))%Q) by (unfold least_normal; apply pow2_le; assert (2 ^ 7 <= 2 ^ (eb - 1)) by (apply pow2_mono; lia); change (2 ^ 7) with 128 in *; lia). lra. }
  set (y := sgq s (uabs F e g)).
  assert (NY : ~ (y == 0)%Q) by (unfold y, sgq; destruct s; lra).
  assert (CL : cell F e g 0 (uabs F e g)).
  { split; [exact Bg|]. split; [lia|]. split; [apply Z.mod_1_r|]. split; [apply Qle_refl|]. unfold uabs. apply dy_lt. change (2 ^ 0) with 1. lia. }
  destruct (cell_outcome c _ s e g 0 _ y V X ltac:(lia) ltac:(lia) eq_refl CL (Qeq_refl _)) as [A _].
  destruct (A (roomy_room c y V RM NY)) as (r & Er). exists r. split; [exact Er|].
  pose proof (pack_value c s e g r V X Bg Er) as HR.
  assert (HY : (uvalue F s e g == y)%Q) by (rewrite uvalue_uval by lia; unfold uval, y, sgq; destruct s; reflexivity).
  apply (rounds_tz_comp c BN Bes _ _ _ HY) in HR. unfold y, sgq in HR. apply (rounds_tz_comp c BN Bes _ _ _ (Qeq_sym _ _ SQ)).
  assert (QP : (0 < Qabs q)%Q) by lra. unfold sgn1.
  destruct s; destruct HR as [[HZ _]|[[HP HD]|[HP HD]]]; try lra.
  - right. right. split; [lra|]. apply (tiny_down c (- - uabs F e g) (- (-1 * Qabs q))); [|exact HD].
    intros w Wr WP. destruct (TINY w Wr WP). split; lra.
  - right. left. split; [lra|]. apply (tiny_down c (uabs F e g) (1 * Qabs q)); [|exact HD].
    intros w Wr WP. destruct (TINY w Wr WP). split; lra.
Qed.

(** ** The loops *)
Lemma set_next (l : list (option Z)) i v : (i < List.length l)%nat -> x_set l i v = Ok (firstn i l ++ Some v :: skipn (S i) l).
Proof. intros L. unfold x_set. rewrite (proj2 (Nat.ltb_lt _ _) L). reflexivity. Qed.
Lemma loop_all body zs : forall i dst, List.length dst = (i + List.length zs)%nat ->
  (forall k z, nth_error zs k = Some z -> body (i + k)%nat = Ok z) ->
  x_loop body (List.length zs) i dst = Ok (firstn i dst ++ map Some zs).
Proof.
  induction zs as [|z zs IH]; intros i dst L B.
  - cbn [List.length x_loop map] in *. rewrite app_nil_r, firstn_all2 by lia. reflexivity.
  - cbn [List.length x_loop map] in *. specialize (B O z eq_refl) as B0. rewrite Nat.add_0_r in B0. rewrite B0. cbn [bind].
    rewrite set_next by lia. cbn [bind].
    assert (LF : List.length (firstn i dst) = i) by (rewrite firstn_length; lia).
    rewrite IH.
    + f_equal. replace (S i) with (List.length (firstn i dst ++ [Some z])) at 1 by (rewrite app_length, LF; cbn [List.length]; lia).
      replace (firstn i dst ++ Some z :: skipn (S i) dst) with ((firstn i dst ++ [Some z]) ++ skipn (S i) dst) by (rewrite <- app_assoc; reflexivity).
      rewrite firstn_app, firstn_all, Nat.sub_diag, firstn_O, app_nil_r, <- app_assoc. reflexivity.
    + rewrite app_length, LF. cbn [List.length]. rewrite skipn_length. lia.
    + intros k w K. replace (S i + k)%nat with (i + S k)%nat by lia. apply B. exact K.
Qed.
(** A loop that goes beyond the end of the memory. *)
Lemma loop_beyond body n : forall i dst, (i <= List.length dst)%nat -> (List.length dst < i + n)%nat ->
  (forall k, (i <= k < i + n)%nat -> exists z, body k = Ok z) -> x_loop body n i dst = UB OutOfBounds.
Proof.
  induction n as [|n IH]; intros i dst L1 L2 B; [lia|]. cbn [x_loop]. destruct (B i ltac:(lia)) as (z & ->). cbn [bind].
  destruct (Nat.eq_dec i (List.length dst)) as [E|N].
  - unfold x_set. rewrite (proj2 (Nat.ltb_ge _ _)) by lia. reflexivity.
  - rewrite set_next by lia. cbn [bind].
    assert (LF : List.length (firstn i dst ++ Some z :: skipn (S i) dst) = List.length dst).
    { rewrite app_length. cbn [List.length]. rewrite skipn_length, firstn_length. lia. }
    apply IH; rewrite ?LF; try lia. intros k K. apply B. lia.
Qed.
Lemma get_of a xs i x : holds a xs -> nth_error xs i = Some x -> x_get (x_data a) i = Ok x.
Proof. intros (D & _) N. unfold x_get. rewrite D, (map_nth_error Some _ _ N). reflexivity. Qed.
Lemma count_of a xs : holds a xs -> x_count (x_dims a) (x_cplx a) = Z.of_nat (List.length xs).
Proof. intros (_ & L & _). unfold x_count, x_numel. rewrite L. reflexivity. Qed.
Lemma items_of a xs : holds a xs -> x_items a = Z.of_nat (List.length xs).
Proof.
  intros H. unfold x_items. rewrite (count_of a xs H). destruct H as (_ & _ & L). change (2 ^ 31) with 2147483648 in L.
  apply (cast_s_small 32); cbn; lia.
Qed.
Lemma fill_all a xs zs cls body : holds a xs -> List.length zs = List.length xs ->
  (forall k z, nth_error zs k = Some z -> body k = Ok z) ->
  x_fill body (x_items a) (x_uninit (x_dims a) cls (x_cplx a)) = Ok (like a cls zs).
Proof.
  intros H L B. rewrite (items_of a xs H). unfold x_fill, x_uninit. cbn [x_cls x_dims x_cplx x_data].
  rewrite (count_of a xs H), Nat2Z.id, <- L.
  rewrite (loop_all body zs O); [reflexivity|rewrite repeat_length; reflexivity|exact B].
Qed.
(** A list of outcomes, element by element. *)
Lemma outcomes (f : Z -> res Z) (P : Z -> Prop) xs : Forall P xs -> (forall x, P x -> exists z, f x = Ok z) ->
  exists zs, Forall2 (fun x z => f x = Ok z) xs zs.
Proof.
  intros F D. induction F as [|x xs Px F (zs & IH)]; [exists []; constructor|]. destruct (D x Px) as (z & E). exists (z :: zs). constructor; assumption.
Qed.
Lemma outcomes2 (f : Z -> Z -> res Z) (P Q : Z -> Prop) xs : forall ys, List.length ys = List.length xs -> Forall P xs -> Forall Q ys ->
  (forall x y, P x -> Q y -> exists z, f x y = Ok z) ->
  exists zs, Forall2 (fun p z => f (fst p) (snd p) = Ok z) (combine xs ys) zs.
Proof.
  induction xs as [|x xs IH]; intros [|y ys] L FP FQ D; cbn [List.length] in L; try discriminate; [exists []; constructor|].
  inversion FP; subst. inversion FQ; subst. destruct (IH ys ltac:(lia) ltac:(assumption) ltac:(assumption) D) as (zs & Z).
  destruct (D x y ltac:(assumption) ltac:(assumption)) as (z & E). exists (z :: zs). constructor; assumption.
Qed.
Lemma forall2_nth {A} (R : A -> Z -> Prop) xs zs : Forall2 R xs zs -> forall k z, nth_error zs k = Some z -> exists x, nth_error xs k = Some x /\ R x z.
Proof.
  induction 1 as [|x z xs zs Rx F IH]; intros k w N; destruct k; cbn in N; try discriminate.
  - injection N as <-. exists x. split; [reflexivity|exact Rx].
  - apply IH. exact N.
Qed.
Lemma combine_nth (xs : list Z) : forall (ys : list Z) k p, nth_error (combine xs ys) k = Some p -> nth_error xs k = Some (fst p) /\ nth_error ys k = Some (snd p).
Proof.
  induction xs as [|x xs IH]; intros [|y ys] k p N; destruct k; cbn in N; try discriminate.
  - injection N as <-. split; reflexivity.
  - cbn [nth_error]. apply IH. exact N.
Qed.
Lemma forall2_map {A} (R S : A -> Z -> Prop) xs zs (P : A -> Prop) : Forall P xs -> (forall x z, P x -> R x z -> S x z) -> Forall2 R xs zs -> Forall2 S xs zs.
Proof. intros FP I F. induction F as [|x z xs zs Rx F IH]; [constructor|]. inversion FP; subst. constructor; auto. Qed.
Lemma forall_combine (P Q : Z -> Prop) xs : forall ys, Forall P xs -> Forall Q ys -> Forall (fun p => P (fst p) /\ Q (snd p)) (combine xs ys).
Proof.
  induction xs as [|x xs IH]; intros [|y ys] FP FQ; try constructor; inversion FP; inversion FQ; subst; [split; assumption|apply IH; assumption].
Qed.

(** ** The posits *)
Section posits.
Variable sp : spec.
Notation c := (zposit sp).
Lemma zv : valid_cfg c. Proof. destruct sp; cfg_tac. Qed.
Lemma zx : exp_ok c. Proof. unfold exp_ok. cbn. lia. Qed.
Lemma zr : roomy c. Proof. unfold roomy. cbn. lia. Qed.
Lemma zaf : add_fits c. Proof. unfold add_fits. cbn. lia. Qed.
Lemma zmf : mul_fits c. Proof. unfold mul_fits. cbn. lia. Qed.
Lemma zff : frac_fits c. Proof. unfold frac_fits. cbn. lia. Qed.
Lemma zpat x : int8 x <-> pattern c x. Proof. unfold int8, pattern. cbn. lia. Qed.
Lemma zeval e : literals_ok c e -> exists r, eval c e = Ok r /\ int8 r.
Proof.
  intros L. destruct (eval_pattern c e zv eq_refl) as (r & E & P); [cbn; lia|exact zaf|destruct sp; cbn; lia|exact L|].
  exists r. split; [exact E|apply zpat; exact P].
Qed.
Lemma z_add x y : int8 x -> int8 y -> exists z, p_add c x y = Ok z /\ int8 z.
Proof. intros A B. apply (zeval (Add (Lit x) (Lit y))). split; apply zpat; assumption. Qed.
Lemma z_sub x y : int8 x -> int8 y -> exists z, p_sub c x y = Ok z /\ int8 z.
Proof. intros A B. apply (zeval (Sub (Lit x) (Lit y))). split; apply zpat; assumption. Qed.
Lemma z_mul x y : int8 x -> int8 y -> exists z, p_mul c x y = Ok z /\ int8 z.
Proof. intros A B. apply (zeval (Mul (Lit x) (Lit y))). split; apply zpat; assumption. Qed.
Lemma z_div x y : int8 x -> int8 y -> exists z, p_div c x y = Ok z /\ int8 z.
Proof. intros A B. apply (zeval (Div (Lit x) (Lit y))). split; apply zpat; assumption. Qed.
Lemma z_inv x : int8 x -> exists z, p_inv c x = Ok z /\ int8 z.
Proof. intros A. apply (zeval (Inv (Lit x))). apply zpat; assumption. Qed.
Lemma zroom q : room c q.
Proof. destruct (Qeq_dec q 0) as [E|N]; [left; exact E|apply roomy_room; [exact zv|exact zr|exact N]]. Qed.

Lemma add_summed x y z : p_add c x y = Ok z -> summed c x y z.
Proof.
  intros E A B. destruct (small_range_add c x y zv zx zaf zr ltac:(cbn; lia) A B) as (r & E2 & F). rewrite E in E2. injection E2 as ->. exact F.
Qed.
Lemma sub_subtracted x y z : p_sub c x y = Ok z -> subtracted c x y z.
Proof. intros E A B. exact (sub_any c x y z zv zx zaf A B E). Qed.
Lemma mul_multiplied x y z : p_mul c x y = Ok z -> multiplied c x y z.
Proof.
  intros E A B. destruct (proj1 (mul_total c x y zv zx zmf A B) (zroom _)) as (r & E2 & F). rewrite E in E2. injection E2 as ->. exact F.
Qed.
Lemma div_divided x y z : p_div c x y = Ok z -> divided c x y z.
Proof.
  intros E A B. split; [|split].
  - intros N. destruct (proj1 (div_total c x y zv zx zmf A B N) (zroom _)) as (r & E2 & F). rewrite E in E2. injection E2 as ->. exact F.
  - intros -> ->. destruct (div_zero_all c 0 zv A) as (Z0 & _). rewrite E in Z0. injection Z0 as ->. reflexivity.
  - intros -> NX. destruct (div_zero_all c x zv A) as (_ & D1 & D2 & D3). unfold inf_of. cbn [csp zposit]. destruct sp eqn:SP.
    + destruct (D1 NX eq_refl) as (r & E2 & _ & R). rewrite E in E2. injection E2 as ->. exact R.
    + destruct (D2 NX eq_refl) as (r & E2 & _ & R). rewrite E in E2. injection E2 as ->. exact R.
    + destruct (D3 NX eq_refl) as (r & E2 & R). rewrite E in E2. injection E2 as ->. destruct (x <? 0); destruct R as [_ R]; exact R.
Qed.
Lemma inv_inverted x z : p_inv c x = Ok z -> inverted c x z.
Proof.
  intros E. split; [|split].
  - intros H. destruct (inv_special c zv) as [I0 II]. destruct H as [->|H]; [rewrite I0 in E|rewrite (II x H) in E]; injection E as ->; reflexivity.
  - intros H. rewrite (inv_nan c x zv H) in E. injection E as ->. reflexivity.
  - intros A N D. destruct (inv_partial c x zv zx zmf A N D) as (I & _). apply I. exact E.
Qed.
Lemma zlow w : real c w -> (0 < value c w)%Q -> (pow2 (-126) <= value c w)%Q.
Proof.
  intros W P. assert (W8 : real p8 w) by (clear P; unfold real, maxreal in *; destruct sp; cbn in *; lia).
  destruct (v_nr p8 tab_p8 w W8) as [E|[L _]]; change (value p8 w) with (value c w) in *; [lra|]. rewrite Qabs_pos in L by lra. exact L.
Qed.

(** ** The formats *)
Lemma formats cls eb fb : format cls = Some (eb, fb) -> x_trait cls = Some (any_floattrait eb fb true) /\ fmt_ok eb fb /\ et_holds c eb /\ pt_holds c eb /\
  float_covers c eb fb /\ (eb = 5 /\ fb = 10 \/ eb = 8 /\ fb = 23 \/ eb = 11 /\ fb = 52).
Proof.
  destruct named_traits as (T1 & T2 & T3 & O1 & O2 & O3 & _). unfold x_trait.
  destruct cls; cbn [format]; intros E; try discriminate; injection E as <- <-; rewrite ?T1, ?T2, ?T3; (split; [reflexivity|]); (split; [assumption|]);
    unfold et_holds, pt_holds, float_covers; cbn; lia.
Qed.
Lemma z_to cls eb fb x : format cls = Some (eb, fb) -> int8 x -> exists b, p_to_float c (any_floattrait eb fb true) x = Ok b /\ same_as c eb fb x b.
Proof.
  intros F P. destruct (formats cls eb fb F) as (_ & FO & ET & PT & CV & _). apply zpat in P.
  destruct (ext_of_cases c zv x P) as [[R E]|[[N E]|[I E]]].
  - destruct (to_float_covered c eb fb true x zv FO PT zff CV R) as (b & r & O & B & IV & Q). exists b. split; [exact O|]. split; [exact B|].
    rewrite IV, E. exact Q.
  - destruct (to_float_special c eb fb true x zv FO) as (S & _). destruct (S N) as (b & O & B & IV). exists b. split; [exact O|]. split; [exact B|].
    rewrite IV, E. reflexivity.
  - destruct (to_float_special c eb fb true x zv FO) as (_ & S). destruct (S I) as (b & O & B & IV). exists b. split; [exact O|]. split; [exact B|].
    rewrite IV, E. reflexivity.
Qed.
Lemma z_back cls eb fb x b : format cls = Some (eb, fb) -> int8 x -> p_to_float c (any_floattrait eb fb true) x = Ok b -> p_of_float c (any_floattrait eb fb true) b = Ok x.
Proof.
  intros F P T. destruct (formats cls eb fb F) as (_ & FO & ET & PT & CV & _). apply zpat in P.
  assert (H : exists b, p_to_float c (any_floattrait eb fb true) x = Ok b /\ p_of_float c (any_floattrait eb fb true) b = Ok x).
  { destruct (ext_of_cases c zv x P) as [[R E]|[[N E]|[I E]]].
    - apply float_round_trip; try assumption; [exact zv|exact zx|exact zff|apply zroom].
    - apply special_round_trip; try assumption; [exact zv|left; exact N].
    - apply special_round_trip; try assumption; [exact zv|right; exact I]. }
  destruct H as (b' & T' & H). rewrite T in T'. injection T' as ->. exact H.
Qed.
Lemma quiet_high b fb k : 0 <= k < fb -> Z.testbit b (fb - 1) = true -> (b mod 2 ^ fb / 2 ^ k =? 0) = false.
Proof.
  intros K T. apply Z.eqb_neq. intros E. assert (H : Z.testbit (b mod 2 ^ fb / 2 ^ k) (fb - 1 - k) = true).
  { rewrite Z.div_pow2_bits by lia. replace (fb - 1 - k + k) with (fb - 1) by lia. rewrite Z.mod_pow2_bits_low by lia. exact T. }
  rewrite E, Z.bits_0 in H. discriminate.
Qed.
Lemma z_of cls eb fb b : format cls = Some (eb, fb) -> 0 <= b < 2 ^ (eb + fb + 1) ->
  exists z, p_of_float c (any_floattrait eb fb true) b = Ok z /\ cut_from c eb fb b z.
Proof.
  intros F B. destruct (formats cls eb fb F) as (_ & FO & ET & PT & CV & EF). unfold cut_from. change (cF c) with 16.
  destruct EF as [[-> ->]|EF].
  - pose proof (of_float_wide c 5 10 true b zv zx FO ET ltac:(cbn; lia) B) as W. destruct (ieee_val 5 10 b) as [q|s|] eqn:IV.
    + destruct W as [W0 W1]. destruct (Qeq_dec q 0) as [Z|N].
      * exists 0. split; [apply W0; left; exact Z|]. split; [reflexivity|intros _; left; split; [exact Z|reflexivity]].
      * destruct (proj1 (W1 N (or_introl eq_refl)) (zroom _)) as (z & O & R). exists z. split; [exact O|]. split; [|intros _; exact R].
        intros L. exfalso. assert (HL : (pow2 (-24) <= Qabs q)%Q) by (apply (half_min b); [split; [exact B|exists q; split; [exact IV|reflexivity]]|exact N]). change (2 - 2 ^ (5 - 1) - 16) with (-30) in L.
        assert (pow2 (-30) <= pow2 (-24))%Q by (apply pow2_le; lia). lra.
    + eexists. split; [exact W|reflexivity].
    + eexists. split; [exact W|reflexivity].
  - assert (E8 : 8 <= eb) by lia. pose proof (of_float_narrow c eb fb true b zv zx FO ET ltac:(cbn; lia) B) as W.
    destruct (ieee_val eb fb b) as [q|s|] eqn:IV.
    + destruct W as [W0 _]. destruct (Qeq_dec q 0) as [Z|N].
      * exists 0. split; [apply W0; exact Z|]. split; [reflexivity|intros _; left; split; [exact Z|reflexivity]].
      * destruct (Qlt_le_dec (Qabs q) (least_normal eb)) as [L|L].
        -- destruct (of_below c eb fb b q zv zx zr zlow FO ET E8 ltac:(cbn; lia) B IV N L) as [A1 A2]. change (cF c) with 16 in *.
           destruct (Qlt_le_dec (Qabs q) (pow2 (2 - 2 ^ (eb - 1) - 16))) as [M|M].
           ++ exists 0. split; [apply A1; exact M|]. split; [reflexivity|intros M2; lra].
           ++ destruct (A2 M) as (z & O & R). exists z. split; [exact O|]. split; [intros M2; lra|intros _; exact R].
        -- destruct (of_float_normal c eb fb true b q zv zx FO ET zff B IV L) as [A _]. destruct (A (zroom _)) as (z & O & R).
           exists z. split; [exact O|]. split; [|intros _; exact R]. intros M. exfalso. unfold least_normal in L.
           assert (pow2 (2 - 2 ^ (eb - 1) - 16) <= pow2 (2 - 2 ^ (eb - 1)))%Q by (apply pow2_le; lia). lra.
    + eexists. split; [exact W|reflexivity].
    + eexists. split; [exact W|]. intros T. change (cF c) with 16. rewrite quiet_high by (assumption || lia). reflexivity.
Qed.
End posits.

(** ** The functions *)
Lemma like_self a xs : x_cls a = XInt8 -> holds a xs -> like a XInt8 xs = a.
Proof. intros C (D & _). unfold like. rewrite <- D, <- C. destruct a; reflexivity. Qed.
Lemma like_holds a cls xs zs : holds a xs -> List.length zs = List.length xs -> holds (like a cls zs) zs.
Proof. intros (D & L & M) E. unfold holds, like. cbn [x_data x_dims x_cplx]. rewrite E. repeat split; assumption. Qed.
Lemma f2_len {A} (R : A -> Z -> Prop) xs zs : Forall2 R xs zs -> List.length zs = List.length xs.
Proof. induction 1; cbn [List.length]; lia. Qed.
Lemma f2_right {A} (R : A -> Z -> Prop) (P : A -> Prop) (Q : Z -> Prop) xs zs : Forall P xs -> (forall x z, P x -> R x z -> Q z) -> Forall2 R xs zs -> Forall Q zs.
Proof. intros FP I F. induction F; [constructor|]. inversion FP; subst. constructor; eauto. Qed.
Lemma combine_len (xs ys : list Z) : List.length ys = List.length xs -> List.length (combine xs ys) = List.length xs.
Proof. intros L. rewrite combine_length. lia. Qed.

Definition ops : list (string * (cfg -> Z -> Z -> res Z) * (cfg -> Z -> Z -> Z -> Prop)) :=
  [("+"%string, p_add, summed); ("-"%string, p_sub, subtracted); ("*"%string, p_mul, multiplied); ("/"%string, p_div, divided)].
Lemma ops_facts sp op f R : In (op, f, R) ops ->
  (exists ch, list_ascii_of_string op = [ch] /\ p8_op sp (code ch) = Some (f (zposit sp))) /\
  (forall x y, int8 x -> int8 y -> exists z, f (zposit sp) x y = Ok z /\ int8 z) /\
  (forall x y z, f (zposit sp) x y = Ok z -> R (zposit sp) x y z).
Proof.
  intros [E|[E|[E|[E|[]]]]]; injection E as <- <- <-; (split; [eexists; split; reflexivity|]); split.
  - apply z_add. - apply add_summed. - apply z_sub. - apply sub_subtracted.
  - apply z_mul. - apply mul_multiplied. - apply z_div. - apply div_divided.
Qed.
Lemma binop_run sp nlhs a b s xs ys ch : x_cls a = XInt8 -> x_cls b = XInt8 -> x_cls s = XChar -> x_data s = [Some (code ch)] -> holds a xs -> holds b ys ->
  List.length ys = List.length xs ->
  p8binop sp nlhs [a; b; s] =
    match p8_op sp (code ch) with
    | Some f => let! r := x_fill (fun i => let! x := x_get (x_data a) i in let! y := x_get (x_data b) i in f x y) (x_items a) (x_uninit (x_dims a) XInt8 (x_cplx b)) in Ok (Returned r)
    | None => Ok (Returned (x_uninit (x_dims a) XInt8 (x_cplx b)))
    end.
Proof.
  intros Ca Cb Cs Ds Ha Hb L. unfold p8binop. cbn [List.length Nat.eqb negb andb x_arg nth_error bind]. unfold x_string.
  rewrite Ca, Cb, Cs, Ds. cbn [xcls_eqb negb orb app x_get nth_error bind Z.eqb].
  rewrite (items_of a xs Ha), (items_of b ys Hb), L, Z.eqb_refl. cbn [negb]. reflexivity.
Qed.
Lemma binop_all sp nlhs a b s xs ys op f R : In (op, f, R) ops -> x_cls a = XInt8 -> x_cls b = XInt8 -> says s op ->
  holds a xs -> holds b ys -> Forall int8 xs -> Forall int8 ys -> x_cplx a = x_cplx b -> List.length ys = List.length xs ->
  exists zs, p8binop sp nlhs [a; b; s] = Ok (Returned (like a XInt8 zs)) /\ Forall int8 zs /\
    each2 (fun x y z => f (zposit sp) x y = Ok z /\ R (zposit sp) x y z) xs ys zs.
Proof.
  intros I Ca Cb [Cs Ds] Ha Hb Px Py CC L. destruct (ops_facts sp op f R I) as ((ch & Eop & Ef) & D & G).
  rewrite Eop in Ds. cbn [map] in Ds. change (Z.of_nat (nat_of_ascii ch)) with (code ch) in Ds.
  rewrite (binop_run sp nlhs a b s xs ys ch Ca Cb Cs Ds Ha Hb L), Ef, <- CC.
  assert (D' : forall x y, int8 x -> int8 y -> exists z, f (zposit sp) x y = Ok z) by (intros x y A B; destruct (D x y A B) as (z & E & _); eauto).
  destruct (outcomes2 (f (zposit sp)) int8 int8 xs ys L Px Py D') as (zs & F).
  exists zs. split; [|split; [|split]].
  - rewrite (fill_all a xs zs); [reflexivity|exact Ha|rewrite (f2_len _ _ _ F); apply combine_len; exact L|].
    intros k z N. destruct (forall2_nth _ _ _ F k z N) as (p & Np & Ep). destruct (combine_nth _ _ _ _ Np) as [N1 N2].
    rewrite (get_of a xs k _ Ha N1), (get_of b ys k _ Hb N2). cbn [bind]. exact Ep.
  - apply (f2_right _ _ _ _ _ (forall_combine int8 int8 xs ys Px Py)) with (2 := F). intros p z [A B] E. destruct (D _ _ A B) as (w & E2 & W).
    rewrite E in E2. injection E2 as ->. exact W.
  - exact L.
  - apply (forall2_map (fun p z => f (zposit sp) (fst p) (snd p) = Ok z) _ _ _ (fun _ => True)); [apply Forall_forall; intros; exact I0 || exact Logic.I| |exact F].
    intros p z _ E. split; [exact E|apply G; exact E].
Qed.
Lemma binop_refused sp nlhs a b s xs ys : holds a xs -> holds b ys -> List.length ys <> List.length xs \/ x_cls a <> XInt8 \/ x_cls b <> XInt8 \/ x_cls s <> XChar ->
  p8binop sp nlhs [a; b; s] = Ok Message.
Proof.
  intros Ha Hb H. unfold p8binop. cbn [List.length Nat.eqb negb andb x_arg nth_error bind].
  rewrite (items_of a xs Ha), (items_of b ys Hb).
  destruct (x_cls a), (x_cls b); cbn [xcls_eqb negb orb]; try reflexivity. destruct (x_cls s); cbn [xcls_eqb negb]; try reflexivity.
  destruct (Z.eqb_spec (Z.of_nat (List.length xs)) (Z.of_nat (List.length ys))); cbn [negb]; [|reflexivity].
  destruct H as [H|[H|[H|H]]]; [lia|congruence..].
Qed.
(** An operator that is none of the four. *)
Lemma uninit_unwritten dims cls cx : unwritten (x_uninit dims cls cx).
Proof. unfold unwritten, x_uninit. cbn [x_data]. apply Forall_forall. intros e E. apply repeat_spec in E. exact E. Qed.
Lemma binop_unknown sp nlhs a b s xs ys ch : x_cls a = XInt8 -> x_cls b = XInt8 -> says s (String ch EmptyString) -> holds a xs -> holds b ys ->
  List.length ys = List.length xs -> ~ In ch ["+"; "-"; "*"; "/"]%char ->
  exists r, p8binop sp nlhs [a; b; s] = Ok (Returned r) /\ x_dims r = x_dims a /\ unwritten r.
Proof.
  intros Ca Cb [Cs Ds] Ha Hb L N. cbn [list_ascii_of_string map] in Ds. change (Z.of_nat (nat_of_ascii ch)) with (code ch) in Ds.
  rewrite (binop_run sp nlhs a b s xs ys ch Ca Cb Cs Ds Ha Hb L).
  assert (CI : forall d, code ch = code d -> ch = d).
  { intros d E. unfold code in E. apply Nat2Z.inj in E. rewrite <- (ascii_nat_embedding ch), <- (ascii_nat_embedding d), E. reflexivity. }
  assert (E : p8_op sp (code ch) = None).
  { unfold p8_op. cbn [In] in N. destruct (Z.eqb_spec (code ch) (code "+")) as [E|_]; [apply CI in E; subst; tauto|].
    destruct (Z.eqb_spec (code ch) (code "-")) as [E|_]; [apply CI in E; subst; tauto|]. destruct (Z.eqb_spec (code ch) (code "*")) as [E|_]; [apply CI in E; subst; tauto|].
    destruct (Z.eqb_spec (code ch) (code "/")) as [E|_]; [apply CI in E; subst; tauto|]. reflexivity. }
  rewrite E. eexists. split; [reflexivity|]. split; [reflexivity|apply uninit_unwritten].
Qed.
(** A complex array and a real one with twice as many elements. *)
Lemma binop_complex sp nlhs a b s xs ys op f R : In (op, f, R) ops -> x_cls a = XInt8 -> x_cls b = XInt8 -> says s op ->
  holds a xs -> holds b ys -> Forall int8 xs -> Forall int8 ys -> x_cplx a = true -> x_cplx b = false -> List.length ys = List.length xs -> xs <> [] ->
  p8binop sp nlhs [a; b; s] = UB OutOfBounds.
Proof.
  intros I Ca Cb [Cs Ds] Ha Hb Px Py XA XB L NE. destruct (ops_facts sp op f R I) as ((ch & Eop & Ef) & D & G).
  rewrite Eop in Ds. cbn [map] in Ds. change (Z.of_nat (nat_of_ascii ch)) with (code ch) in Ds.
  rewrite (binop_run sp nlhs a b s xs ys ch Ca Cb Cs Ds Ha Hb L), Ef, XB, (items_of a xs Ha). unfold x_fill, x_uninit. cbn [x_data x_cls x_dims x_cplx]. rewrite Nat2Z.id.
  assert (HL : 2 * x_count (x_dims a) false = Z.of_nat (List.length xs)) by (rewrite <- (count_of a xs Ha), XA; unfold x_count; lia).
  assert (0 < List.length xs)%nat by (destruct xs; [congruence|cbn [List.length]; lia]).
  rewrite loop_beyond; [reflexivity|rewrite repeat_length; lia|rewrite repeat_length; lia|].
  intros k K. destruct (nth_error xs k) as [x|] eqn:Nx; [|apply nth_error_None in Nx; lia]. destruct (nth_error ys k) as [y|] eqn:Ny; [|apply nth_error_None in Ny; lia].
  rewrite (get_of a xs k x Ha Nx), (get_of b ys k y Hb Ny). cbn [bind].
  destruct (D x y) as (z & E & _); [apply (proj1 (Forall_forall _ _) Px), (nth_error_In _ _ Nx)|apply (proj1 (Forall_forall _ _) Py), (nth_error_In _ _ Ny)|].
  exists z. exact E.
Qed.
(** With one output asked for, the number of arguments is not looked at. *)
Lemma arguments sp a : x_cls a = XInt8 ->
  p8binop sp 1 [a] = UB OutOfBounds /\ p8binop sp 1 [a; a] = UB OutOfBounds /\ p8unop sp 1 [a] = UB OutOfBounds /\ p8binop sp 0 [a; a] = Ok Message /\ p8unop sp 0 [a] = Ok Message.
Proof.
  intros C. unfold p8binop, p8unop. cbn [List.length Nat.eqb negb andb x_arg nth_error bind Z.eqb]. rewrite C. cbn [xcls_eqb negb orb]. repeat split.
Qed.
Lemma empty_operator sp nlhs a b s xs ys : x_cls a = XInt8 -> x_cls b = XInt8 -> says s EmptyString -> holds a xs -> holds b ys -> List.length ys = List.length xs ->
  p8binop sp nlhs [a; b; s] = UB OutOfBounds.
Proof.
  intros Ca Cb [Cs Ds] Ha Hb L. unfold p8binop. cbn [List.length Nat.eqb negb andb x_arg nth_error bind]. unfold x_string.
  rewrite Ca, Cb, Cs, Ds. cbn [xcls_eqb negb orb app x_get nth_error bind Z.eqb list_ascii_of_string map].
  rewrite (items_of a xs Ha), (items_of b ys Hb), L, Z.eqb_refl. reflexivity.
Qed.
Lemma unop_all sp nlhs a s xs : x_cls a = XInt8 -> says s "inv" -> holds a xs -> Forall int8 xs ->
  exists zs, p8unop sp nlhs [a; s] = Ok (Returned (like a XInt8 zs)) /\ Forall int8 zs /\
    each (fun x z => p_inv (zposit sp) x = Ok z /\ inverted (zposit sp) x z) xs zs.
Proof.
  intros Ca [Cs Ds] Ha Px. unfold p8unop. cbn [List.length Nat.eqb negb andb x_arg nth_error bind]. rewrite Ca, Cs. cbn [xcls_eqb negb].
  unfold x_is_inv. rewrite Ds. cbn [list_ascii_of_string map]. change (Z.of_nat (nat_of_ascii "i") =? code "i") with true.
  change (Z.of_nat (nat_of_ascii "n") =? code "n") with true. change (Z.of_nat (nat_of_ascii "v") =? code "v") with true. cbn [andb].
  assert (D : forall x, int8 x -> exists z, p_inv (zposit sp) x = Ok z) by (intros x A; destruct (z_inv sp x A) as (z & E & _); eauto).
  destruct (outcomes (p_inv (zposit sp)) int8 xs Px D) as (zs & F). exists zs. split; [|split].
  - rewrite (fill_all a xs zs); [reflexivity|exact Ha|apply (f2_len _ _ _ F)|].
    intros k z N. destruct (forall2_nth _ _ _ F k z N) as (p & Np & Ep). rewrite (get_of a xs k _ Ha Np). exact Ep.
  - apply (f2_right _ _ _ _ _ Px) with (2 := F). intros x z A E. destruct (z_inv sp x A) as (w & E2 & W). rewrite E in E2. injection E2 as ->. exact W.
  - apply (forall2_map (fun x z => p_inv (zposit sp) x = Ok z) _ _ _ int8 Px) with (2 := F). intros x z _ E. split; [exact E|apply inv_inverted; exact E].
Qed.
Lemma unop_unknown sp nlhs a s t : x_cls a = XInt8 -> says s t -> t <> "inv"%string -> exists r, p8unop sp nlhs [a; s] = Ok (Returned r) /\ x_dims r = x_dims a /\ unwritten r.
Proof.
  intros Ca [Cs Ds] N. unfold p8unop. cbn [List.length Nat.eqb negb andb x_arg nth_error bind]. rewrite Ca, Cs. cbn [xcls_eqb negb].
  assert (E : x_is_inv s = false).
  { unfold x_is_inv. rewrite Ds. destruct t as [|c1 [|c2 [|c3 [|c4 t]]]]; try reflexivity. cbn [list_ascii_of_string map].
    assert (CI : forall c d, (Z.of_nat (nat_of_ascii c) =? code d) = true -> c = d).
    { intros c d E. apply Z.eqb_eq in E. apply Nat2Z.inj in E. rewrite <- (ascii_nat_embedding c), <- (ascii_nat_embedding d), E. reflexivity. }
    destruct (Z.of_nat (nat_of_ascii c1) =? code "i") eqn:E1; [|reflexivity]. destruct (Z.of_nat (nat_of_ascii c2) =? code "n") eqn:E2; [|reflexivity].
    destruct (Z.of_nat (nat_of_ascii c3) =? code "v") eqn:E3; [|reflexivity]. apply CI in E1, E2, E3. subst. congruence. }
  rewrite E. eexists. split; [reflexivity|]. split; [reflexivity|apply uninit_unwritten].
Qed.
Lemma to_run sp nlhs a t eb fb xs zs : x_cls a = XInt8 -> format (x_cls t) = Some (eb, fb) -> holds a xs ->
  Forall2 (fun x z => p_to_float (zposit sp) (any_floattrait eb fb true) x = Ok z) xs zs -> p8Tofloat sp nlhs [a; t] = Ok (Returned (like a (x_cls t) zs)).
Proof.
  intros Ca Ft Ha F. destruct (formats sp (x_cls t) eb fb Ft) as (TR & _). unfold p8Tofloat. cbn [List.length Nat.eqb negb andb x_arg nth_error bind].
  rewrite Ca, TR. cbn [xcls_eqb negb]. rewrite (fill_all a xs zs); [reflexivity|exact Ha|apply (f2_len _ _ _ F)|].
  intros k z N. destruct (forall2_nth _ _ _ F k z N) as (p & Np & Ep). rewrite (get_of a xs k _ Ha Np). exact Ep.
Qed.
Lemma from_run sp nlhs a eb fb xs zs : format (x_cls a) = Some (eb, fb) -> holds a xs ->
  Forall2 (fun x z => p_of_float (zposit sp) (any_floattrait eb fb true) x = Ok z) xs zs -> floatTop8 sp nlhs [a] = Ok (Returned (like a XInt8 zs)).
Proof.
  intros Fa Ha F. destruct (formats sp (x_cls a) eb fb Fa) as (TR & _). unfold floatTop8. cbn [List.length Nat.eqb negb andb x_arg nth_error bind].
  rewrite TR. rewrite (fill_all a xs zs); [reflexivity|exact Ha|apply (f2_len _ _ _ F)|].
  intros k z N. destruct (forall2_nth _ _ _ F k z N) as (p & Np & Ep). rewrite (get_of a xs k _ Ha Np). exact Ep.
Qed.
Lemma to_list sp cls eb fb xs : format cls = Some (eb, fb) -> Forall int8 xs ->
  exists zs, Forall2 (fun x z => p_to_float (zposit sp) (any_floattrait eb fb true) x = Ok z) xs zs.
Proof. intros F P. apply (outcomes _ int8 xs P). intros x A. destruct (z_to sp cls eb fb x F A) as (z & E & _). eauto. Qed.
Lemma to_float_all sp nlhs a t xs eb fb : x_cls a = XInt8 -> format (x_cls t) = Some (eb, fb) -> holds a xs -> Forall int8 xs ->
  exists zs, p8Tofloat sp nlhs [a; t] = Ok (Returned (like a (x_cls t) zs)) /\ each (same_as (zposit sp) eb fb) xs zs.
Proof.
  intros Ca Ft Ha P. destruct (to_list sp _ eb fb xs Ft P) as (zs & F). exists zs. split; [apply (to_run sp nlhs a t eb fb xs zs Ca Ft Ha F)|].
  apply (forall2_map _ _ _ _ int8 P) with (2 := F). intros x z A E. destruct (z_to sp _ eb fb x Ft A) as (w & E2 & W). rewrite E in E2. injection E2 as ->. exact W.
Qed.
Lemma from_float_all sp nlhs a bs eb fb : format (x_cls a) = Some (eb, fb) -> holds a bs -> Forall (fun b => 0 <= b < 2 ^ (eb + fb + 1)) bs ->
  exists zs, floatTop8 sp nlhs [a] = Ok (Returned (like a XInt8 zs)) /\ each (cut_from (zposit sp) eb fb) bs zs.
Proof.
  intros Fa Ha P. assert (D : exists zs, Forall2 (fun x z => p_of_float (zposit sp) (any_floattrait eb fb true) x = Ok z) bs zs).
  { apply (outcomes _ _ bs P). intros x A. destruct (z_of sp _ eb fb x Fa A) as (z & E & _). eauto. }
  destruct D as (zs & F). exists zs. split; [apply (from_run sp nlhs a eb fb bs zs Fa Ha F)|].
  apply (forall2_map _ _ _ _ _ P) with (2 := F). intros x z A E. destruct (z_of sp _ eb fb x Fa A) as (w & E2 & W). rewrite E in E2. injection E2 as ->. exact W.
Qed.
Lemma back_list sp cls eb fb xs : format cls = Some (eb, fb) -> Forall int8 xs -> forall zs,
  Forall2 (fun x z => p_to_float (zposit sp) (any_floattrait eb fb true) x = Ok z) xs zs -> Forall2 (fun z x => p_of_float (zposit sp) (any_floattrait eb fb true) z = Ok x) zs xs.
Proof. intros F P zs G. induction G; [constructor|]. inversion P; subst. constructor; [eapply z_back; eassumption|auto]. Qed.
Lemma round_trip_all sp n m a t xs eb fb : x_cls a = XInt8 -> format (x_cls t) = Some (eb, fb) -> holds a xs -> Forall int8 xs ->
  exists f, p8Tofloat sp n [a; t] = Ok (Returned f) /\ floatTop8 sp m [f] = Ok (Returned a).
Proof.
  intros Ca Ft Ha P. destruct (to_list sp _ eb fb xs Ft P) as (zs & F). exists (like a (x_cls t) zs).
  split; [apply (to_run sp n a t eb fb xs zs Ca Ft Ha F)|].
  pose proof (like_holds a (x_cls t) xs zs Ha (f2_len _ _ _ F)) as Hf.
  rewrite (from_run sp m (like a (x_cls t) zs) eb fb zs xs Ft Hf (back_list sp _ eb fb xs Ft P zs F)).
  f_equal. f_equal. rewrite <- (like_self a xs Ca Ha) at 2. reflexivity.
Qed.
Lemma class_refused sp nlhs a t : format (x_cls t) = None -> x_cls a = XInt8 -> p8Tofloat sp nlhs [a; t] = Ok Message /\ floatTop8 sp nlhs [t] = Ok Message.
Proof.
  intros F Ca. unfold p8Tofloat, floatTop8. cbn [List.length Nat.eqb negb andb x_arg nth_error bind]. rewrite Ca. cbn [xcls_eqb negb].
  destruct (x_cls t); try discriminate F; split; reflexivity.
Qed.
Lemma from_refuted :
  ieee_val 8 23 0x7f800001 = NaNVal /\ floatTop8 WithNanInf 1 [Mx XSingle [1] false [Some 0x7f800001]] = Ok (Returned (Mx XInt8 [1] false [Some 127])) /\
  inf_of (Cfg 8 8 0 16 WithNanInf) false = 127 /\
  (exists q, ieee_val 8 23 1 = FinVal q /\ (0 < q)%Q) /\ floatTop8 WithNan 1 [Mx XSingle [1] false [Some 1]] = Ok (Returned (Mx XInt8 [1] false [Some 0])) /\
  (forall a, x_cls a = XInt8 -> p8Tofloat WithNan 1 [a] = UB OutOfBounds).
Proof.
  split; [vm_compute; reflexivity|]. split; [vm_compute; reflexivity|]. split; [reflexivity|].
  split; [eexists; split; [reflexivity|vm_compute; reflexivity]|]. split; [vm_compute; reflexivity|].
  intros a C. unfold p8Tofloat. cbn [List.length Nat.eqb negb andb x_arg nth_error bind Z.eqb]. rewrite C. reflexivity.
Qed.
Lemma long_operator sp nlhs a b s xs ys c1 c2 t : holds a xs -> holds b ys -> says s (String c1 (String c2 t)) -> c2 <> Ascii.zero ->
  p8binop sp nlhs [a; b; s] = Ok Message.
Proof.
  intros Ha Hb [Cs Ds] NZ. unfold p8binop. cbn [List.length Nat.eqb negb andb x_arg nth_error bind]. unfold x_string.
  destruct (x_cls a), (x_cls b); cbn [xcls_eqb negb orb]; try reflexivity. rewrite Cs, Ds. cbn [xcls_eqb negb].
  destruct (x_items a =? x_items b); cbn [negb]; [|reflexivity].
  cbn [list_ascii_of_string map app x_get nth_error bind].
  destruct (Z.eqb_spec (Z.of_nat (nat_of_ascii c2)) 0) as [E|_]; [exfalso|reflexivity].
  apply NZ. rewrite <- (ascii_nat_embedding c2). replace (nat_of_ascii c2) with O by lia. reflexivity.
Qed.
