(** Sums of products of integers in unpacked numbers. *)
From Coq Require Import ZArith QArith Qabs Lia Lqa Bool List.
From Verif Require Import Res CInt Bits Traits Unpacked Cfg Spec QPow Core Arith UOps UAdd Ops OpsAdd Final1 Conv1 Misc2 UAdd2 FloatArith HighPrec SpecHigh Conv5.
Import ListNotations.
Open Scope Z_scope.

Lemma zero_val eb fb : 2 <= eb -> 1 <= fb -> exists q, ieee_val eb fb 0 = FinVal q /\ (q == 0)%Q.
Proof.
  intros H1 H2. pow_pos 2 fb. pow_pos 2 eb. pow_pos 2 (fb + eb). assert (4 <= 2 ^ eb) by (change 4 with (2 ^ 2); apply pow2_mono; lia).
  unfold ieee_val. rewrite !Z.div_0_l, !Z.mod_0_l by lia. destruct (Z.eqb_spec 0 (2 ^ eb - 1)); [lia|]. eexists. split; [reflexivity|]. cbn [Z.eqb]. change (inject_Z 0) with 0%Q. ring.
Qed.

Section hp.
Variables eb fb F E : Z.
Hypothesis FO : fmt_ok eb fb.
Hypothesis WF : is_width F.
Hypothesis WE : is_width E.
Hypothesis E16 : 16 <= E.
Hypothesis FF : fb + 2 <= F.
Notation read := (u_unpack_xfloati F E (any_floattrait eb fb true)).
Notation M := (2 ^ (F - 3)).

(** Integers as unpacked numbers. *)
Definition rep (s : Z) (n : bool) (e f : Z) : Prop := 0 <= f < 2 ^ F /\ 0 <= e <= F /\ f mod 4 = 0 /\ (uvalue F n e f == inject_Z s)%Q.
Definition holds (s : Z) (r : unpacked) : Prop := (s = 0 /\ r = u_zero) \/ (s <> 0 /\ exists n e f, r = U Regular n e f /\ rep s n e f).

Lemma int_rep s : s <> 0 -> Z.abs s < M -> exists n e f, rep s n e f.
Proof using WF.
  intros NZ B. pose proof (is_width_pos F WF) as WP. clear - NZ B WP.
  exists (s <? 0), (Z.log2 (Z.abs s)), ((Z.abs s - 2 ^ Z.log2 (Z.abs s)) * 2 ^ (F - Z.log2 (Z.abs s))).
  pose proof (Z.log2_spec (Z.abs s) ltac:(lia)) as [L1 L2]. pose proof (Z.log2_nonneg (Z.abs s)).
  assert (L3 : Z.log2 (Z.abs s) < F - 3) by (apply Z.log2_lt_pow2; lia).
  set (e := Z.log2 (Z.abs s)) in *. clearbody e. unfold Z.succ in L2. rewrite pow2_S in L2 by lia.
  assert (P : 2 ^ F = 2 ^ e * 2 ^ (F - e)) by (rewrite <- Z.pow_add_r by lia; f_equal; lia).
  assert (P4 : 2 ^ (F - e) = 2 ^ (F - e - 2) * 4) by (change 4 with (2 ^ 2); rewrite <- Z.pow_add_r by lia; f_equal; lia).
  pow_pos 2 (F - e). pow_pos 2 e.
  split; [split; [nia|rewrite P; apply Z.mul_lt_mono_pos_r; lia]|]. split; [lia|]. split; [rewrite P4, Z.mul_assoc; apply Z.mod_mul; lia|].
  rewrite uvalue_dy by lia. replace (2 ^ F + (Z.abs s - 2 ^ e) * 2 ^ (F - e)) with (Z.abs s * 2 ^ (F - e)) by (rewrite P; ring).
  rewrite dy_pow by lia. replace (e - F + (F - e)) with 0 by lia. unfold dy. change (pow2 0) with 1%Q. unfold sgn1.
  destruct (Z.ltb_spec s 0); [rewrite Z.abs_neq, inject_Z_opp by lia|rewrite Z.abs_eq by lia]; ring.
Qed.

Lemma abs_inj x : (Qabs (inject_Z x) == inject_Z (Z.abs x))%Q.
Proof using. unfold Qabs, inject_Z, Qeq. cbn [Qnum Qden]. reflexivity. Qed.

Lemma inj_nz x : x <> 0 -> ~ (inject_Z x == 0)%Q.
Proof using. intros N H. apply N. apply (proj1 (inject_Z_injective x 0)) in H. exact H. Qed.

(** The product of two integers read from floats. *)
Lemma hp_mul bx by_ i j : 0 <= bx < 2 ^ (eb + fb + 1) -> 0 <= by_ < 2 ^ (eb + fb + 1) ->
  (exists q, ieee_val eb fb bx = FinVal q /\ (q == inject_Z i)%Q) -> (exists q, ieee_val eb fb by_ = FinVal q /\ (q == inject_Z j)%Q) ->
  Z.abs (i * j) < M ->
  exists x y z, read bx = Ok x /\ read by_ = Ok y /\ u_mul F E x y = Ok z /\ holds (i * j) z.
Proof using FO WF WE E16 FF.
  intros Bx By (qx & Vx & Ix) (qy & Vy & Iy) B. assert (F0 : fb <= F) by lia.
  destruct (Z.eq_dec i 0) as [->|Ni].
  - assert (Z0 : (qx == 0)%Q) by (rewrite Ix; reflexivity).
    destruct (fl_zero_all eb fb F E by_ bx qy qx FO WF WE E16 F0 By Bx Vy Vx Z0) as (y & x & Ry & Rx & _ & _ & z1 & z2 & _ & M2 & _ & T).
    exists x, y, z2. split; [exact Rx|]. split; [exact Ry|]. split; [exact M2|]. left. split; [lia|].
    clear - M2 T Rx Ry Vx Z0 Vy Bx By F0 FO WF WE E16. 
    assert (EE : eb < E) by (destruct FO as [_ [E1 E2] _]; lia).
    pose proof (unpack_wide eb fb F E true FO WF WE EE bx F0 Bx) as UW. rewrite Vx in UW.
    destruct UW as [[_ (e & f & R)]|[NZ _]]; [|contradiction]. rewrite R in Rx. injection Rx as <-.
    pose proof (unpack_wide eb fb F E true FO WF WE EE by_ F0 By) as UY. rewrite Vy in UY.
    destruct UY as [[_ (e' & f' & R')]|[_ [_ (n & e' & f' & R' & _)]]]; rewrite R' in Ry; injection Ry as <-; cbn in M2; injection M2 as <-; reflexivity.
  - destruct (Z.eq_dec j 0) as [->|Nj].
    + assert (Z0 : (qy == 0)%Q) by (rewrite Iy; reflexivity).
      assert (EE : eb < E) by (destruct FO as [_ [E1 E2] _]; lia).
      pose proof (unpack_wide eb fb F E true FO WF WE EE by_ F0 By) as UW. rewrite Vy in UW.
      destruct UW as [[_ (e & f & R)]|[NZ _]]; [|contradiction].
      pose proof (read_ok eb fb F E FO WF WE E16 F0 bx qx Bx Vx) as RX. destruct RX as (n & ex & fx & RX & _); [rewrite Ix; apply inj_nz; assumption|].
      eexists _, _, _. split; [exact RX|]. split; [exact R|]. split; [reflexivity|]. left. split; [lia|reflexivity].
    + assert (Nx : ~ (qx == 0)%Q) by (rewrite Ix; apply inj_nz; assumption). assert (Ny : ~ (qy == 0)%Q) by (rewrite Iy; apply inj_nz; assumption).
      destruct (read_ok eb fb F E FO WF WE E16 F0 bx qx Bx Vx Nx) as (n & e & f & R & Bf & Mf & Be & Q0).
      destruct (read_ok eb fb F E FO WF WE E16 F0 by_ qy By Vy Ny) as (n' & e' & f' & R' & Bf' & Mf' & Be' & Q0').
      assert (NP : i * j <> 0) by (apply Z.neq_mul_0; tauto). destruct (int_rep (i * j) NP B) as (n2 & e2 & f2 & RP).
      exists (U Regular n e f), (U Regular n' e' f'), (U Regular n2 e2 f2). split; [exact R|]. split; [exact R'|]. split.
      * pose proof (E_room E E16 (e + e') ltac:(lia)). pose proof (E_room E E16 (e + e' + 1) ltac:(lia)). destruct RP as (P1 & P2 & P3 & P4).
        apply mul_exact; try assumption; try lia; try (apply (mod_lower _ 1 (F - fb)); [lia|assumption]).
        rewrite Q0, Q0', P4, Ix, Iy, inject_Z_mult. reflexivity.
      * right. split; [exact NP|]. exists n2, e2, f2. split; [reflexivity|exact RP].
Qed.

Lemma hp_add s t r z : holds s r -> holds t z -> Z.abs s < M -> Z.abs t < M -> Z.abs (s + t) < M ->
  exists r', u_add F E r z = Ok r' /\ holds (s + t) r'.
Proof using WF WE E16.
  intros [[-> ->]|[Ns (n & e & f & -> & R1 & R2 & R3 & R4)]] H Bs Bt Bst.
  - destruct H as [[-> ->]|[Nt (n & e & f & -> & R)]].
    + exists u_zero. split; [reflexivity|left; split; reflexivity].
    + eexists. split; [reflexivity|]. right. split; [lia|]. exists n, e, f. split; [reflexivity|exact R].
  - destruct H as [[-> ->]|[Nt (n' & e' & f' & -> & R1' & R2' & R3' & R4')]].
    + rewrite Z.add_0_r. eexists. split; [reflexivity|]. right. split; [exact Ns|]. exists n, e, f. split; [reflexivity|]. unfold rep. tauto.
    + pose proof (is_width_pos F WF) as WP. pose proof (E_room E E16) as ER.
      assert (BM : forall v, Z.abs v < M -> (Qabs (inject_Z v) < pow2 (F - 4 + 1))%Q).
      { intros v Bv. rewrite abs_inj. replace (F - 4 + 1) with (F - 3) by lia. rewrite pow2_Z by lia. rewrite <- Zlt_Qlt. exact Bv. }
      assert (UN : forall v, (inject_Z v == inject_Z (v * 2) * pow2 (F - 4 + 3 - F))%Q).
      { intros v. replace (F - 4 + 3 - F) with (-1) by lia. rewrite inject_Z_mult. change (pow2 (-1)) with (1 # 2). change (inject_Z 2) with 2%Q. field. }
      destruct (add_found F E n n' e e' f f' (F - 4) (s * 2) (t * 2) WF WE R1 R1') as [A1 A2];
        try (pose proof (ER (e - e') ltac:(lia)); pose proof (ER (e' - e) ltac:(lia)); pose proof (ER (Z.max e e' + 1) ltac:(lia)); pose proof (ER (Z.max e e' + 2 - F) ltac:(lia)); lia);
        try (rewrite R4; apply BM; assumption); try (rewrite R4'; apply BM; assumption); try (rewrite R4; apply UN); try (rewrite R4'; apply UN).
      destruct (Z.eq_dec (s + t) 0) as [Z0|NZ].
      * exists u_zero. split; [|left; split; [exact Z0|reflexivity]]. apply A1. rewrite R4, R4', <- inject_Z_plus, Z0. reflexivity.
      * destruct (int_rep (s + t) NZ Bst) as (n2 & e2 & f2 & RP). exists (U Regular n2 e2 f2). split.
        -- apply A2; [apply RP|]. rewrite R4, R4', <- inject_Z_plus. apply RP.
        -- right. split; [exact NZ|]. exists n2, e2, f2. split; [reflexivity|exact RP].
Qed.

Lemma hp_sum : forall l li r s, holds s r -> Z.abs s < M ->
  Forall2 (fun p ij => 0 <= fst p < 2 ^ (eb + fb + 1) /\ 0 <= snd p < 2 ^ (eb + fb + 1) /\
    (exists q, ieee_val eb fb (fst p) = FinVal q /\ (q == inject_Z (fst ij))%Q) /\ (exists q, ieee_val eb fb (snd p) = FinVal q /\ (q == inject_Z (snd ij))%Q)) l li ->
  dot_within M s li ->
  exists r', hp_loop F E (any_floattrait eb fb true) r l = Ok r' /\ holds (s + dot_int li) r' /\ Z.abs (s + dot_int li) < M.
Proof using FO WF WE E16 FF.
  induction l as [|[a b] l IH]; intros li r s H B L D; inversion L as [|? [i j] ? li' (Ba & Bb & Va & Vb) L']; subst.
  - exists r. cbn [hp_loop dot_int]. rewrite Z.add_0_r. split; [reflexivity|]. split; assumption.
  - cbn [dot_within] in D. destruct D as (D1 & D2 & D3). cbn [fst snd] in *.
    destruct (hp_mul a b i j Ba Bb Va Vb D1) as (x & y & z & Rx & Ry & Mz & Hz).
    destruct (hp_add s (i * j) r z H Hz B D1 D2) as (r' & A & Hr).
    destruct (IH li' r' (s + i * j) Hr D2 L' D3) as (r2 & O & Hr2 & B2).
    exists r2. cbn [hp_loop dot_int]. rewrite Rx, Ry. cbn [bind]. rewrite Mz. cbn [bind]. rewrite A. cbn [bind].
    split; [exact O|]. rewrite Z.add_assoc. split; assumption.
Qed.

Lemma hp_all l li :
  Forall2 (fun p ij => 0 <= fst p < 2 ^ (eb + fb + 1) /\ 0 <= snd p < 2 ^ (eb + fb + 1) /\
    (exists q, ieee_val eb fb (fst p) = FinVal q /\ (q == inject_Z (fst ij))%Q) /\ (exists q, ieee_val eb fb (snd p) = FinVal q /\ (q == inject_Z (snd ij))%Q)) l li ->
  dot_within M 0 li ->
  exists r, hp_loop F E (any_floattrait eb fb true) u_zero l = Ok r /\
    (dot_int li = 0 -> r = u_zero) /\
    (dot_int li <> 0 -> exists n e f, r = U Regular n e f /\ 0 <= f < 2 ^ F /\ (uvalue F n e f == inject_Z (dot_int li))%Q) /\
    exists b, hp_test F E (any_floattrait eb fb true) l = Ok b /\ float_trunc eb fb (inject_Z (dot_int li)) b.
Proof using FO WF WE E16 FF.
  intros L D. pose proof (is_width_pos F WF) as WP.
  assert (B0 : Z.abs 0 < M) by (apply Z.pow_pos_nonneg; lia).
  destruct (hp_sum l li u_zero 0 ltac:(left; split; reflexivity) B0 L D) as (r & O & H & B). rewrite Z.add_0_l in H, B.
  exists r. split; [exact O|]. unfold hp_test. rewrite O. cbn [bind].
  destruct H as [[Z0 ->]|[NZ (n & e & f & -> & R1 & R2 & R3 & R4)]].
  - split; [reflexivity|]. split; [intros; contradiction|]. exists 0. split; [reflexivity|]. rewrite Z0.
    pose proof FO as [_ [E1 E2] Hf].
    split; [split; [lia|apply Z.pow_pos_nonneg; lia]|].
    assert (V0 : exists q, ieee_val eb fb 0 = FinVal q /\ (q == 0)%Q) by (apply zero_val; lia).
    destruct V0 as (q & V0 & Q0). exists q. split; [exact V0|]. rewrite Q0. change (Qabs (inject_Z 0)) with 0%Q. change (Qabs 0) with 0%Q.
    split; [lra|]. split; [lra|]. intros b' q' _ _ T. rewrite Q0. exact T.
  - split; [intros; contradiction|]. split; [intros _; exists n, e, f; split; [reflexivity|split; assumption]|].
    pose proof FO as [_ [E1 E2] Hf].
    assert (BI : 2 ^ (eb - 1) - 1 <= 1023).
    { assert (2 ^ (eb - 1) <= 2 ^ 10) by (apply pow2_mono; lia). change (2 ^ 10) with 1024 in *. lia. }
    assert (BI0 : 2 <= 2 ^ (eb - 1)) by (change 2 with (2 ^ 1) at 1; apply pow2_mono; lia).
    pose proof (pack_float_trunc F E eb fb true n e f (inject_Z (dot_int li)) WF WE FO) as PT. cbv zeta in PT.
    set (L0 := Z.max E (least_bits eb)) in *. assert (HL : 16 <= L0) by (unfold L0; lia).
    assert (EL : 2 ^ 15 <= 2 ^ (L0 - 1)) by (apply pow2_mono; lia). change (2 ^ 15) with 32768 in EL.
    destruct PT as [PT _]; try lia; [symmetry; exact R4|].
    apply PT. rewrite abs_inj. assert (T : (pow2 (2 - 2 ^ (eb - 1)) <= pow2 0)%Q) by (apply pow2_le; lia). change (pow2 0) with 1%Q in T.
    assert (T2 : (1 <= inject_Z (Z.abs (dot_int li)))%Q) by (change 1%Q with (inject_Z 1); rewrite <- Zle_Qle; lia). lra.
Qed.
End hp.
Lemma hp_limit : exists q1 q2 q3, ieee_val 11 52 0x43e0000000000000 = FinVal q1 /\ (q1 == inject_Z (2 ^ 63))%Q /\ ieee_val 11 52 0x3ff0000000000000 = FinVal q2 /\ (q2 == 1)%Q /\
  ieee_val 11 52 0xbff0000000000000 = FinVal q3 /\ (q3 == -1)%Q /\
  hp_test 64 32 (any_floattrait 11 52 true) [(0x43e0000000000000, 0x3ff0000000000000); (0x3ff0000000000000, 0x3ff0000000000000); (0x43e0000000000000, 0xbff0000000000000)] = Ok 0 /\
  dot_int [(2 ^ 63, 1); (1, 1); (2 ^ 63, -1)] = 1.
Proof. eexists _, _, _. do 7 (split; [vm_compute; reflexivity|]). vm_compute; reflexivity. Qed.
