(** The deferred product (POSITMUL): sums and differences of two products. *)
From Coq Require Import ZArith QArith Qabs Lia Lqa Bool List.
From Verif Require Import Res CInt Bits Traits Unpacked Cfg Posit Spec QPow Core SpecLemmas Arith DecodeProof EncodeProof
  UOps UAdd Ops OpsAdd OpsUnary OpsUnary2 Specials Room Laws Configs Final1 Final2 Final3 Fma.
Open Scope Z_scope.

Lemma prod_shape c a b : valid_cfg c -> fma_fits c -> real c a -> real c b ->
  (uprod c (a, b) = Ok u_zero /\ (a = 0 \/ b = 0) /\ (value c a * value c b == 0)%Q) \/
  (exists n e f, uprod c (a, b) = Ok (U Regular n e f) /\ a <> 0 /\ b <> 0 /\ - (2 * emax c) <= e <= 2 * emax c + 1 /\ 0 <= f < 2 ^ cF c /\ f mod 16 = 0 /\
     (value c a * value c b == uval (cF c) n e f)%Q).
Proof.
  intros V FM Ra Rb. vcb V. pose proof (fma_fits_add c V FM) as AF. pose proof (mul_fits_frac c (add_fits_mul c AF)) as FF.
  assert (DEC : (a = 0 \/ b = 0) \/ (a <> 0 /\ b <> 0)) by lia. destruct DEC as [ZZ|[Na Nb]].
  - left. assert (E : (value c a * value c b == 0)%Q) by (destruct ZZ as [-> | ->]; rewrite v0; ring). split; [|auto].
    unfold uprod. cbn [fst snd].
    assert (K : forall v, real c v -> unpack c v = Ok (U Zero false 0 0) \/ exists n e f, unpack c v = Ok (U Regular n e f)).
    { intros v Rv. destruct (Z.eq_dec v 0) as [->|Nv]; [left; apply unpack_zero; assumption|right].
      unfold frac_fits in FF. rewrite <- gran_val in FF. destruct (unpack_real c v 0 V ltac:(lia) ltac:(lia) Rv Nv) as [e1 [f1 [U1 _]]]. eauto. }
    destruct ZZ as [-> | ->].
    + rewrite unpack_zero by assumption. destruct (K b Rb) as [->|[n [e [f ->]]]]; reflexivity.
    + rewrite (unpack_zero c) by assumption. destruct (K a Ra) as [->|[n [e [f ->]]]]; reflexivity.
  - right. unfold fma_fits in FM. rewrite <- (gran_val c) in FM. pose proof (gran_nonneg c BN Bes) as G.
    assert (FG : gran c + (cF c - gran c) <= cF c) by lia.
    destruct (unpack_real c a (cF c - gran c) V ltac:(lia) FG Ra Na) as [e1 [f1 [U1 [H1 [E1 [M1 V1]]]]]].
    destruct (unpack_real c b (cF c - gran c) V ltac:(lia) FG Rb Nb) as [e2 [f2 [U2 [H2 [E2 [M2 V2]]]]]].
    destruct (emax_bound c V) as [B1 B2]. pose proof (vc_F c V) as WF. pose proof (c_E_width c V) as WE.
    destruct (u_mul_exact (cF c) (c_E c) (gran c) (a <? 0) (b <? 0) e1 e2 f1 f2) as [e [f [UM [Be [Hf [M16 VM]]]]]]; try assumption; try lia.
    exists (xorb (a <? 0) (b <? 0)), e, f. unfold uprod. cbn [fst snd]. rewrite U1, U2. cbn [bind]. split; [exact UM|]. split; [exact Na|]. split; [exact Nb|].
    split; [lia|]. split; [exact Hf|]. split; [exact M16|].
    rewrite V1, V2. unfold uval. destruct (a <? 0), (b <? 0); cbn [xorb]; rewrite VM; ring.
Qed.

Lemma exps_ok c e1 e2 : valid_cfg c -> - (2 * emax c) <= e1 <= 2 * emax c + 1 -> - (2 * emax c) <= e2 <= 2 * emax c + 1 ->
  - 2 ^ (c_E c - 1) <= e1 - e2 < 2 ^ (c_E c - 1) /\ - 2 ^ (c_E c - 1) <= e2 - e1 < 2 ^ (c_E c - 1) /\
  Z.max e1 e2 + 1 < 2 ^ (c_E c - 1) /\ - 2 ^ (c_E c - 1) <= Z.max e1 e2 - cF c.
Proof.
  intros V H1 H2. vcb V. destruct (emax_bound c V) as [B1 B2]. pose proof (is_width_pos _ (c_E_width c V)) as BE. pose proof (is_width_pos _ (vc_F c V)) as BF'.
  assert (P7 : 2 ^ 7 <= 2 ^ (c_E c - 1)) by (apply pow2_mono; lia). change (2 ^ 7) with 128 in P7.
  assert (EV : exists k, 2 ^ (c_E c - 1) = 2 * k) by (exists (2 ^ (c_E c - 2)); rewrite <- pow2_S by lia; f_equal; lia).
  destruct EV as [k EV]. lia.
Qed.

(** One of the two summands zero, or both regular. *)
Definition usummand (c : cfg) (u : unpacked) (q : Q) : Prop :=
  (u = u_zero /\ (q == 0)%Q) \/
  (exists n e f, u = U Regular n e f /\ - (2 * emax c) <= e <= 2 * emax c + 1 /\ 0 <= f < 2 ^ cF c /\ f mod 16 = 0 /\ (q == uval (cF c) n e f)%Q).

Lemma pack_one c u q : valid_cfg c -> exp_ok c -> usummand c u q ->
  (forall r, pack_posit c u = Ok r -> faithful c q r /\ sign_ok q r) /\ (room_up c q -> exists r, pack_posit c u = Ok r).
Proof.
  intros V X [[-> Z0]|(n & e & f & -> & E & F & M & Q)]; vcb V.
  - change (pack_posit c u_zero) with (@Ok Z 0). split; [|eauto]. intros r P. injection P as <-.
    split; [eapply faithful_comp; [symmetry; exact Z0|]; apply faithful_zero; assumption|]. unfold sign_ok. rewrite Z0. split; [|split]; split; intros; try lia; try lra; reflexivity.
  - split.
    + intros r P. pose proof (pack_value c n e f r V X F P) as R.
      assert (R' : rounds_tz c q r) by (eapply rounds_tz_comp; [assumption|assumption| |exact R]; etransitivity; [exact (uvalue_uval (cF c) n e f ltac:(lia))|symmetry; exact Q]).
      split; [apply rounds_faithful; assumption|apply (rounds_sign_ok c); assumption].
    + intros RU. apply pack_room_defined; try assumption. assert (S : scale q e) by (eapply scale_comp; [symmetry; exact Q|]; apply uval_scale; [lia|assumption]).
      destruct RU as [Z0|[k [S' [R1 R2]]]]; [exfalso; eapply scale_nz; eassumption|]. rewrite (scale_unique _ _ _ S S'). exact R1.
Qed.

Lemma sum_two c u w x y : valid_cfg c -> exp_ok c -> add_fits c -> usummand c u x -> usummand c w y ->
  let s := bind (u_add (cF c) (c_E c) u w) (pack_posit c) in
  (forall r, s = Ok r -> faithful c (x + y) r /\ sign_ok (x + y) r) /\
  (near c x y -> room_up c (x + y) -> exists r, s = Ok r) /\
  (~ near c x y -> s = UB ShiftCount).
Proof.
  intros V X AF HU HW s.
  assert (ONE : forall v q, usummand c v q -> (x + y == q)%Q -> s = pack_posit c v -> (x == 0)%Q \/ (y == 0)%Q ->
    (forall r, s = Ok r -> faithful c (x + y) r /\ sign_ok (x + y) r) /\ (near c x y -> room_up c (x + y) -> exists r, s = Ok r) /\ (~ near c x y -> s = UB ShiftCount)).
  { intros v q Hv E -> Z0. destruct (pack_one c v q V X Hv) as [A B]. split; [|split].
    - intros r P. destruct (A r P) as [F1 F2]. split; [eapply faithful_comp; [symmetry; exact E|exact F1]|]. unfold sign_ok in *. rewrite E. exact F2.
    - intros _ RU. apply B. destruct RU as [Q0|[k [S [R1 R2]]]]; [left; rewrite <- E; assumption|]. right. exists k. split; [|split; assumption]. eapply scale_comp; [exact E|exact S].
    - intros NN. exfalso. apply NN. intros e1 e2 S1 S2. exfalso. destruct Z0 as [Z0|Z0]; [exact (scale_nz _ _ S1 Z0)|exact (scale_nz _ _ S2 Z0)]. }
  destruct HU as [[-> Zx]|(n1 & e1 & f1 & -> & E1 & F1 & M1 & Q1)].
  - apply (ONE w y HW); [rewrite Zx; ring| |left; exact Zx]. unfold s. destruct HW as [[-> _]|(n & e & f & -> & _)]; reflexivity.
  - destruct HW as [[-> Zy]|(n2 & e2 & f2 & -> & E2 & F2 & M2 & Q2)].
    + apply (ONE (U Regular n1 e1 f1) x); [right; exists n1, e1, f1; auto|rewrite Zy; ring|reflexivity|right; exact Zy].
    + destruct (exps_ok c e1 e2 V E1 E2) as (D1 & D2 & D3 & D4). vcb V.
      assert (Q : (x + y == uval (cF c) n1 e1 f1 + uval (cF c) n2 e2 f2)%Q) by (rewrite Q1, Q2; reflexivity).
      assert (SX : scale x e1) by (eapply scale_comp; [symmetry; exact Q1|]; apply uval_scale; [lia|assumption]).
      assert (SY : scale y e2) by (eapply scale_comp; [symmetry; exact Q2|]; apply uval_scale; [lia|assumption]).
      destruct (Z_lt_le_dec (Z.abs (e1 - e2)) (Z.max 32 (cF c))) as [D|D].
      * destruct (sum_pack c n1 n2 e1 e2 f1 f2 V X AF F1 F2 M1 M2 D1 D2 D3 D4 D) as [A B]. split; [|split].
        -- intros r P. destruct (A r P) as [G1 G2]. split; [eapply faithful_comp; [symmetry; exact Q|exact G1]|]. unfold sign_ok in *. rewrite Q. exact G2.
        -- intros _ RU. apply B. destruct RU as [Z0|[k [S [R1 R2]]]]; [left; rewrite <- Q; assumption|]. right. exists k. split; [|split; assumption]. eapply scale_comp; [exact Q|exact S].
        -- intros NN. exfalso. apply NN. intros k1 k2 K1 K2. rewrite (scale_unique _ _ _ K1 SX), (scale_unique _ _ _ K2 SY). exact D.
      * unfold s. rewrite (sum_far c n1 n2 e1 e2 f1 f2) by assumption. split; [intros r P; discriminate|]. split; [|auto].
        intros NR. pose proof (NR e1 e2 SX SY). lia.
Qed.

Lemma pm_add_uprod c m n : pm_add c m n = bind (uprod c m) (fun x => bind (uprod c n) (fun y => bind (u_add (cF c) (c_E c) x y) (pack_posit c))).
Proof.
  unfold pm_add, uprod. destruct (unpack c (fst m)); cbn [bind]; [|reflexivity]. destruct (unpack c (snd m)); cbn [bind]; [|reflexivity].
  destruct (u_mul _ _ _ _); cbn [bind]; [|reflexivity]. destruct (unpack c (fst n)); cbn [bind]; [|reflexivity]. destruct (unpack c (snd n)); reflexivity.
Qed.
Lemma pm_sub_uprod c m n : pm_sub c m n = bind (uprod c m) (fun x => bind (uprod c n) (fun y => bind (u_sub (cF c) (c_E c) x y) (pack_posit c))).
Proof.
  unfold pm_sub, uprod. destruct (unpack c (fst m)); cbn [bind]; [|reflexivity]. destruct (unpack c (snd m)); cbn [bind]; [|reflexivity].
  destruct (u_mul _ _ _ _); cbn [bind]; [|reflexivity]. destruct (unpack c (fst n)); cbn [bind]; [|reflexivity]. destruct (unpack c (snd n)); reflexivity.
Qed.
Lemma prod_summand c a b : valid_cfg c -> fma_fits c -> real c a -> real c b -> exists u, uprod c (a, b) = Ok u /\ usummand c u (value c a * value c b).
Proof.
  intros V FM A B. destruct (prod_shape c a b V FM A B) as [(E & _ & Z0)|(n & e & f & E & _ & _ & H)]; eexists; (split; [exact E|]); [left; auto|right; exists n, e, f; tauto].
Qed.
Lemma pm_add_ok c a b d g : valid_cfg c -> exp_ok c -> fma_fits c -> real c a -> real c b -> real c d -> real c g ->
  let x := (value c a * value c b)%Q in let y := (value c d * value c g)%Q in
  (forall r, pm_add c (a, b) (d, g) = Ok r -> faithful c (x + y) r /\ sign_ok (x + y) r) /\
  (near c x y -> room_up c (x + y) -> exists r, pm_add c (a, b) (d, g) = Ok r) /\
  (~ near c x y -> pm_add c (a, b) (d, g) = UB ShiftCount).
Proof.
  intros V X FM A B D G x y. rewrite pm_add_uprod. destruct (prod_summand c a b V FM A B) as (u & -> & HU). destruct (prod_summand c d g V FM D G) as (w & -> & HW). cbn [bind].
  exact (sum_two c u w x y V X (fma_fits_add c V FM) HU HW).
Qed.
Lemma pm_sub_ok c a b d g : valid_cfg c -> exp_ok c -> fma_fits c -> real c a -> real c b -> real c d -> real c g -> d <> 0 -> g <> 0 ->
  let x := (value c a * value c b)%Q in let y := (value c d * value c g)%Q in
  (forall r, pm_sub c (a, b) (d, g) = Ok r -> faithful c (x - y) r /\ sign_ok (x - y) r) /\
  (near c x y -> room_up c (x - y) -> exists r, pm_sub c (a, b) (d, g) = Ok r) /\
  (~ near c x y -> pm_sub c (a, b) (d, g) = UB ShiftCount).
Proof.
  intros V X FM A B D G ND NG x y. rewrite pm_sub_uprod. destruct (prod_summand c a b V FM A B) as (u & -> & HU). 
  destruct (prod_shape c d g V FM D G) as [(_ & [Z0|Z0] & _)|(n & e & f & -> & _ & _ & E1 & F1 & M1 & Q1)]; [contradiction..|]. cbn [bind].
  assert (HW : usummand c (U Regular (negb n) e f) (- y)).
  { right. exists (negb n), e, f. split; [reflexivity|]. split; [exact E1|]. split; [exact F1|]. split; [exact M1|]. unfold y. rewrite Q1. unfold uval. destruct n; cbn [negb]; ring. }
  assert (EU : u_neg (cF c) (c_E c) (U Regular n e f) = U Regular (negb n) e f).
  { unfold u_neg, u_mk. cbn [uexp ufrac uneg]. vcb V. pose proof (is_width_pos _ (c_E_width c V)) as BE. f_equal.
    - destruct (emax_bound c V) as [B1 B2]. apply cast_s_small; lia.
    - rewrite cast_u. apply Z.mod_small. exact F1. }
  unfold u_sub. rewrite EU. pose proof (sum_two c u _ x (- y)%Q V X (fma_fits_add c V FM) HU HW) as (A1 & A2 & A3).
  split; [exact A1|]. split.
  - intros NR. apply A2. intros k1 k2 K1 K2. apply (NR k1 k2 K1). destruct K2 as [S1 S2]. rewrite Qabs_opp in S1, S2. split; assumption.
  - intros NN. apply A3. intros NR. apply NN. intros k1 k2 K1 K2. apply (NR k1 k2 K1). destruct K2 as [S1 S2]. split; rewrite Qabs_opp; assumption.
Qed.
(** A zero product counts as 1 on the right of the minus sign. *)
Lemma pm_sub_zero_bad : pm_sub p16w (16384, 16384) (0, 16384) = Ok 0 /\ (value p16w 16384 * value p16w 16384 - value p16w 0 * value p16w 16384 == 1)%Q.
Proof. split; vm_compute; reflexivity. Qed.
