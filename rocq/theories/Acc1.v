(** Which dyadic numbers are posits. *)
From Coq Require Import ZArith QArith Qabs Lia Lqa Bool.
From Verif Require Import Cfg Spec SpecAcc QPow Core SpecLemmas DecodeProof OpsAdd Room.
Open Scope Z_scope.

Section acc.
Context (c : cfg) (V : valid_cfg c).
Notation N := (cN c).
Notation es := (ces c).
Notation g := (gran c).
Notation fb := (fracbits c).

Lemma v_N : 3 <= N. Proof using V. destruct V. lia. Qed.
Lemma v_es : 0 <= es <= N - 3. Proof using V. destruct V. lia. Qed.

Lemma fb_sft e : fb e = g - sft (e / 2 ^ es).
Proof using V. unfold fracbits, gran, sft. cbv zeta. destruct (0 <=? e / 2 ^ es); lia. Qed.

(** A coordinate that the regime shift divides is one of a posit. *)
Lemma coord_posit y : yrange N y -> (2 ^ sft (y / 2 ^ (N - 3)) | y mod 2 ^ (N - 3)) ->
  1 <= ppk N y < 2 ^ (N - 1) /\ reg N (ppk N y) = y / 2 ^ (N - 3) /\ (value c (ppk N y) == lval g y)%Q.
Proof using V.
  pose proof v_N as HN. pose proof v_es as Hes. intros Y (q & D). pose proof (ppk_bounds N HN y Y) as B. pose proof (ppk_reg N HN y Y) as R. split; [exact B|]. split; [exact R|].
  rewrite (value_pos_lval c HN Hes _ B).
  assert (E : pdec N (ppk N y) = y); [|rewrite E; reflexivity].
  unfold pdec. rewrite R. unfold ppk. set (k := y / 2 ^ (N - 3)) in *. pow_pos 2 (N - 3).
  pose proof (sft_bound N HN k Y) as (S & _). pow_pos 2 (sft k). rewrite D, Z.div_mul by lia. pose proof (Z.div_mod y (2 ^ (N - 3)) ltac:(lia)) as DM. fold k in DM. lia.
Qed.
Lemma real_reg p : 1 <= p < 2 ^ (N - 1) -> reg N p <= maxk c -> real c p.
Proof using V.
  pose proof v_N as HN. intros P R. unfold real, maxreal. unfold maxk in R. destruct (csp c); cbn [spec_eqb] in R; try lia.
  destruct (Z.eq_dec p (2 ^ (N - 1) - 1)) as [->|]; [|lia]. exfalso.
  assert (E : reg N (2 ^ (N - 1) - 1) = N - 2).
  { apply (reg_unique N HN); [unfold inreg; lia|]. rewrite (base_last N HN). unfold cnt. rewrite Z.eqb_refl. lia. }
  lia.
Qed.
Lemma pows : 2 ^ (N - 3) = 2 ^ es * 2 ^ g /\ 0 < 2 ^ es /\ 0 < 2 ^ g /\ 0 <= g.
Proof using V.
  pose proof v_es as Hes. unfold gran. replace (N - 3) with (es + (N - 3 - es)) at 1 by lia. rewrite Z.pow_add_r by lia. pow_pos 2 (ces c). pow_pos 2 (N - 3 - es). lia.
Qed.

(** The grid of a binade. *)
Lemma grid e m : 0 <= fb e -> 2 ^ fb e <= m < 2 ^ (fb e + 1) -> exists v, real c v /\ 1 <= v /\ (value c v == dy m (e - fb e))%Q.
Proof using V.
  pose proof v_N as HN. pose proof v_es as Hes. destruct pows as (P3 & Pe & Pg & G0). intros F M. rewrite fb_sft in *. set (k := e / 2 ^ es) in *. set (s := sft k) in *.
  assert (K : - (N - 2) <= k <= N - 3 - es) by (unfold s, sft, gran in F; destruct (Z.leb_spec 0 k); lia).
  assert (S : 0 <= s <= g) by (unfold s, sft in *; destruct (Z.leb_spec 0 k); lia).
  assert (Q : 2 ^ g = 2 ^ s * 2 ^ (g - s)) by (rewrite <- Z.pow_add_r by lia; f_equal; lia).
  rewrite pow2_S in M by lia. pow_pos 2 s. pow_pos 2 (g - s). set (r := m - 2 ^ (g - s)).
  assert (RB : 0 <= r * 2 ^ s < 2 ^ g) by (unfold r; nia).
  set (y := e * 2 ^ g + r * 2 ^ s).
  assert (YG : y / 2 ^ g = e) by (unfold y; rewrite Z.add_comm, Z.div_add by lia; rewrite Z.div_small; lia).
  assert (YK : y / 2 ^ (N - 3) = k) by (rewrite P3, (Z.mul_comm (2 ^ es)), <- Z.div_div by lia; rewrite YG; reflexivity).
  destruct (coord_posit y) as (B & R & E).
  - unfold yrange, inreg. lia.
  - rewrite YK. fold s. assert (M3 : y mod 2 ^ (N - 3) = y - k * 2 ^ (N - 3)) by (pose proof (Z.div_mod y (2 ^ (N - 3)) ltac:(lia)); lia).
    rewrite M3, P3, Q. unfold y. exists (e * 2 ^ (g - s) + r - k * (2 ^ es * 2 ^ (g - s))). rewrite Q. ring.
  - exists (ppk N y). split; [apply real_reg; [exact B|rewrite R, YK; unfold maxk; destruct (spec_eqb (csp c) WithNanInf); lia]|]. split; [lia|].
    rewrite E. unfold y. rewrite lval_ef by exact RB. replace (2 ^ g + r * 2 ^ s) with (m * 2 ^ s) by (unfold r; rewrite Q; ring). rewrite dy_pow by lia.
    replace (e - g + s) with (e - (g - s)) by lia. reflexivity.
Qed.
(** The powers of useed. *)
Lemma useed_power k : - (N - 2) <= k <= maxk c -> exists v, real c v /\ 1 <= v /\ (value c v == pow2 (k * 2 ^ es))%Q.
Proof using V.
  pose proof v_N as HN. pose proof v_es as Hes. destruct pows as (P3 & Pe & Pg & G0). intros K. set (y := k * 2 ^ (N - 3)).
  assert (MK : maxk c <= N - 2) by (unfold maxk; destruct (spec_eqb (csp c) WithNanInf); lia).
  assert (YK : y / 2 ^ (N - 3) = k) by (unfold y; apply Z.div_mul; nia).
  destruct (coord_posit y) as (B & R & E).
  - unfold yrange, inreg. lia.
  - unfold y at 2. rewrite Z.mod_mul by nia. apply Z.divide_0_r.
  - exists (ppk N y). split; [apply real_reg; [exact B|lia]|]. split; [lia|]. rewrite E. unfold y. rewrite P3.
    replace (k * (2 ^ es * 2 ^ g)) with (k * 2 ^ es * 2 ^ g + 0) by ring. rewrite lval_ef by lia. replace (2 ^ g + 0) with (1 * 2 ^ g) by ring. rewrite dy_pow by lia.
    unfold dy. replace (k * 2 ^ es - g + g) with (k * 2 ^ es) by lia. change (inject_Z 1) with 1%Q. ring.
Qed.

(** Every posit is on the grid of its binade. *)
Lemma on_grid v : 1 <= v < 2 ^ (N - 1) -> exists e m, scale (value c v) e /\ - ((N - 2) * 2 ^ es) <= e /\ 2 ^ Z.max 0 (fb e) <= m < 2 ^ (Z.max 0 (fb e) + 1) /\ (value c v == dy m (e - Z.max 0 (fb e)))%Q.
Proof using V.
  pose proof v_N as HN. pose proof v_es as Hes. destruct pows as (P3 & Pe & Pg & G0). intros P.
  pose proof (value_pos_lval c HN Hes v P) as E. destruct (pdec_range N HN v P) as [Y YK]. destruct (reg_spec N HN v P) as [RG BS]. set (y := pdec N v) in *. set (k := reg N v) in *.
  set (e := y / 2 ^ g). pose proof (Z.mod_pos_bound y (2 ^ g) Pg) as MB. pose proof (Z.div_mod y (2 ^ g) ltac:(lia)) as DM. fold e in DM. set (t := y mod 2 ^ g) in *.
  assert (EV : (value c v == dy (2 ^ g + t) (e - g))%Q) by (rewrite E; unfold lval; fold e; reflexivity).
  assert (EK : e / 2 ^ es = k) by (unfold e; rewrite Z.div_div by lia; rewrite Z.mul_comm, <- P3; exact YK).
  assert (SC : scale (value c v) e).
  { assert (SB : (pow2 e <= value c v)%Q /\ (value c v < pow2 (e + 1))%Q).
    { rewrite EV. assert (A : (pow2 e == dy (2 ^ g) (e - g))%Q) by (rewrite <- (Z.mul_1_l (2 ^ g)), dy_pow by lia; replace (e - g + g) with e by lia; unfold dy; change (inject_Z 1) with 1%Q; ring).
      assert (A1 : (pow2 (e + 1) == dy (2 * 2 ^ g) (e - g))%Q) by (rewrite dy_pow by lia; replace (e - g + g) with e by lia; unfold dy; rewrite pow2_plus; change (inject_Z 2) with (pow2 1); ring).
      rewrite A, A1. split; [apply dy_le; lia|apply dy_lt; lia]. }
    unfold scale. rewrite Qabs_pos by (pose proof (pow2_pos e); lra). exact SB. }
  unfold yrange in Y. rewrite YK in Y. pose proof Y as YR. unfold inreg in Y. exists e. pose proof (fb_sft e) as FS. rewrite EK in FS. rewrite FS. pose proof (sft_bound N HN k RG) as (S0 & _).
  set (s := sft k) in *. assert (YS : y = k * 2 ^ (N - 3) + (v - base N k) * 2 ^ s) by reflexivity.
  assert (EL : - ((N - 2) * 2 ^ es) <= e) by (pose proof (Z.div_mod e (2 ^ es) ltac:(lia)) as D2; pose proof (Z.mod_pos_bound e (2 ^ es) Pe); rewrite EK in D2; nia).
  destruct (Z_le_gt_dec s g) as [L|L].
  - assert (Q : 2 ^ g = 2 ^ s * 2 ^ (g - s)) by (rewrite <- Z.pow_add_r by lia; f_equal; lia). pow_pos 2 s. pow_pos 2 (g - s).
    set (q := k * 2 ^ es * 2 ^ (g - s) + (v - base N k) - e * 2 ^ (g - s)).
    assert (TQ : t = q * 2 ^ s) by (unfold q; rewrite P3, Q in YS; rewrite Q in DM; lia).
    assert (QB : 0 <= q < 2 ^ (g - s)) by nia.
    exists (2 ^ (g - s) + q). split; [exact SC|]. split; [exact EL|]. rewrite Z.max_r by lia. rewrite pow2_S by lia. split; [lia|].
    rewrite EV. replace (2 ^ g + t) with ((2 ^ (g - s) + q) * 2 ^ s) by (rewrite TQ, Q; ring). rewrite dy_pow by lia. replace (e - g + s) with (e - (g - s)) by lia. reflexivity.
  - exists 1. split; [exact SC|]. split; [exact EL|]. rewrite Z.max_l by lia. split; [change (2 ^ 0) with 1; change (2 ^ (0 + 1)) with 2; lia|].
    assert (T0 : t = 0).
    { assert (Q : 2 ^ s = 2 ^ g * 2 ^ (s - g)) by (rewrite <- Z.pow_add_r by lia; f_equal; lia).
      rewrite P3, Q in YS. unfold t. rewrite YS. replace (k * (2 ^ es * 2 ^ g) + (v - base N k) * (2 ^ g * 2 ^ (s - g))) with ((k * 2 ^ es + (v - base N k) * 2 ^ (s - g)) * 2 ^ g) by ring. apply Z.mod_mul. lia. }
    rewrite EV, T0. replace (2 ^ g + 0) with (1 * 2 ^ g) by ring. rewrite dy_pow by lia. replace (e - g + g) with (e - 0) by lia. reflexivity.
Qed.

(** The number of fraction bits changes by at most one from a binade to the next. *)
Lemma fb_step e : fb e - 1 <= fb (e + 1) <= fb e + 1.
Proof using V.
  rewrite !fb_sft. destruct pows as (_ & Pe & _). pose proof (Z.div_mod e (2 ^ es) ltac:(lia)) as D1. pose proof (Z.mod_pos_bound e (2 ^ es) Pe) as B1.
  pose proof (Z.div_mod (e + 1) (2 ^ es) ltac:(lia)) as D2. pose proof (Z.mod_pos_bound (e + 1) (2 ^ es) Pe) as B2. set (k := e / 2 ^ es) in *. set (k' := (e + 1) / 2 ^ es) in *.
  assert (k' = k \/ k' = k + 1) as [-> | ->] by nia; unfold sft; [lia|]. destruct (Z.leb_spec 0 k), (Z.leb_spec 0 (k + 1)); lia.
Qed.
Lemma fb_lip e d : 0 <= d -> fb (e + d) - d <= fb e <= fb (e + d) + d.
Proof using V.
  intros D. rewrite <- (Z2Nat.id d D). induction (Z.to_nat d) as [|n IH]; [rewrite Z.add_0_r; lia|].
  rewrite Nat2Z.inj_succ. replace (e + Z.succ (Z.of_nat n)) with (e + Z.of_nat n + 1) by lia. pose proof (fb_step (e + Z.of_nat n)). lia.
Qed.
(** The end of the binade is a posit too, or there is nothing above. *)
Lemma grid_end e : 0 <= fb e -> (exists v, real c v /\ 1 <= v /\ (value c v == pow2 (e + 1))%Q) \/ (forall v, real c v -> (value c v <= pow2 e)%Q).
Proof using V.
  pose proof v_N as HN. pose proof v_es as Hes. intros F. destruct pows as (_ & Pe & _). pose proof (Z.div_mod e (2 ^ es) ltac:(lia)) as D1. pose proof (Z.mod_pos_bound e (2 ^ es) Pe) as B1.
  pose proof (Z.div_mod (e + 1) (2 ^ es) ltac:(lia)) as D2. pose proof (Z.mod_pos_bound (e + 1) (2 ^ es) Pe) as B2.
  pose proof (fb_sft e) as FS. set (k := e / 2 ^ es) in *. set (k' := (e + 1) / 2 ^ es) in *.
  assert (KB : - (N - 2) <= k <= N - 3 - es) by (unfold sft, gran in FS; destruct (Z.leb_spec 0 k); lia).
  assert (K' : k' = k \/ k' = k + 1) by nia. destruct K' as [K'|K'].
  - left. assert (FE : fb (e + 1) = fb e) by (rewrite !fb_sft; fold k k'; rewrite K'; reflexivity). pow_pos 2 (fb e).
    destruct (grid (e + 1) (2 ^ fb e)) as (v & R & P & E); [lia|rewrite FE, pow2_S by lia; lia|]. exists v. split; [exact R|]. split; [exact P|]. rewrite E, FE, <- (Z.mul_1_l (2 ^ fb e)), dy_pow by lia.
    replace (e + 1 - fb e + fb e) with (e + 1) by lia. unfold dy. change (inject_Z 1) with 1%Q. ring.
  - assert (E1 : e + 1 = (k + 1) * 2 ^ es) by (rewrite K' in D2; nia).
    destruct (Z_le_gt_dec (k + 1) (maxk c)) as [L|L].
    + left. destruct (useed_power (k + 1) ltac:(lia)) as (v & R & P & E). exists v. rewrite E1. auto.
    + right. unfold maxk in L. intros v R. unfold real, maxreal in R. destruct (csp c); cbn [spec_eqb] in L; try lia.
      assert (es = 0) by lia. assert (k = N - 3) by lia. assert (EK : e = N - 3) by (assert (2 ^ es = 1) by (replace es with 0 by lia; reflexivity); nia).
      pow_pos 2 (N - 1). assert (8 <= 2 ^ N) by (apply (Z.pow_le_mono_r 2 3 N); lia). replace N with (N - 1 + 1) in H2 by lia. rewrite pow2_S in H2 by lia.
      apply Qle_trans with (value c (2 ^ (N - 1) - 2)); [apply (value_le c HN Hes); lia|].
      rewrite (value_pos_lval c HN Hes) by lia. rewrite (pdec_last2 N HN). unfold gran. rewrite EK. replace (N - 3 - es) with (N - 3) by lia.
      replace ((N - 3) * 2 ^ (N - 3)) with ((N - 3) * 2 ^ (N - 3) + 0) by ring. pow_pos 2 (N - 3). rewrite lval_ef by lia. replace (2 ^ (N - 3) + 0) with (1 * 2 ^ (N - 3)) by ring. rewrite dy_pow by lia.
      replace (N - 3 - (N - 3) + (N - 3)) with (N - 3) by lia. unfold dy. change (inject_Z 1) with 1%Q. lra.
Qed.
End acc.
