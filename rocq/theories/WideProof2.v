(** Products, quotients and inverses of unpacked numbers with 64 bit fractions when unsigned128 is the struct. *)
From Coq Require Import ZArith QArith Qabs Qfield Bool Lia Lqa.
From Verif Require Import Res CInt Unpacked Cfg Spec SpecWide Wide QPow Core Arith UOps WideProof.
Open Scope Z_scope.
Local Notation B := 18446744073709551616.

Lemma hid f : word f -> cor (FT_leftmost_bit 64) (f / 2) = 2 ^ 63 + f / 2 /\ 0 <= f / 2 < 2 ^ 63.
Proof.
  intros W. assert (H : 0 <= f / 2 < 2 ^ 63) by (unfold word in W; change (2 ^ 64) with (2 * 2 ^ 63) in W; split; [apply Z.div_pos; lia|apply Z.div_lt_upper_bound; lia]).
  split; [|exact H]. unfold cor, FT_leftmost_bit. change (64 - 1) with 63. replace (2 ^ 63) with (1 * 2 ^ 63) at 1 by lia. rewrite lor_split by lia. lia.
Qed.
Lemma shr1 f : cshr u64 f 1 = Ok (f / 2).
Proof. reflexivity. Qed.
Lemma u_mk_ok E e n : is_width E -> - 2 ^ (E - 1) <= e < 2 ^ (E - 1) -> u_mk 64 E e 0 n = U Regular n e 0.
Proof. intros WE H. unfold u_mk. rewrite cast_s_small by (try assumption; pose proof (is_width_pos E WE); lia). reflexivity. Qed.

Lemma fr_bounds f : word f -> (0 <= inject_Z f / pow2 64)%Q /\ (inject_Z f / pow2 64 < 1)%Q /\ (f <> 0 -> (0 < inject_Z f / pow2 64)%Q).
Proof.
  intros [L U]. pose proof (pow2_pos 64) as P. assert (E : (pow2 64 == inject_Z B)%Q) by reflexivity.
  split; [apply Qle_shift_div_l; [exact P|]; rewrite Qmult_0_l; change 0%Q with (inject_Z 0); rewrite <- Zle_Qle; exact L|].
  split; [apply Qlt_shift_div_r; [exact P|]; rewrite Qmult_1_l, E, <- Zlt_Qlt; exact U|].
  intros N. apply Qlt_shift_div_l; [exact P|]. rewrite Qmult_0_l. change 0%Q with (inject_Z 0). rewrite <- Zlt_Qlt. lia.
Qed.
Lemma fr_inj f g : (inject_Z f / pow2 64 == inject_Z g / pow2 64)%Q -> f = g.
Proof.
  intros H. assert (E : (inject_Z f == inject_Z g)%Q).
  { rewrite <- (Qmult_div_r (inject_Z f) (pow2 64)) by apply pow2_nz. rewrite <- (Qmult_div_r (inject_Z g) (pow2 64)) by apply pow2_nz. rewrite H. reflexivity. }
  unfold Qeq in E. cbn in E. lia.
Qed.
Definition sg (n : bool) : Q := if n then (-1)%Q else 1%Q.
Lemma sg_x a b : (sg (xorb a b) == sg a * sg b)%Q. Proof. destruct a, b; reflexivity. Qed.
Lemma sg_nz a : ~ (sg a == 0)%Q. Proof. destruct a; discriminate. Qed.
Lemma uv n e f : (uvalue 64 n e f == sg n * pow2 e * (1 + inject_Z f / pow2 64))%Q. Proof. reflexivity. Qed.
Lemma fr0 : (1 + inject_Z 0 / pow2 64 == 1)%Q. Proof. reflexivity. Qed.

Lemma w_mul_eq E na nb ea eb fa fb : is_width E -> word fa -> word fb -> - 2 ^ (E - 1) <= ea + eb < 2 ^ (E - 1) ->
  w_mul E (U Regular na ea fa) (U Regular nb eb fb) = Ok (U Regular (xorb na nb) (ea + eb) 0).
Proof.
  intros WE A C H. unfold w_mul. cbn [u_isNaN utype_eqb utyp orb uneg uexp ufrac]. rewrite !shr1. cbn [bind].
  unfold w_extramul, cmul, arith. cbn [isg u64 uint bind]. set (m := wrapu _ _). assert (S : w_shr (w_of m) 64 = Ok (w_of 0)) by reflexivity. rewrite S. cbn [bind].
  change (cand (w_to (w_of 0)) (FT_leftmost_bit 64) =? 0) with true. cbv iota. change (w_shl (w_of 0) 1) with (Ok (w_of 0)). cbn [bind].
  unfold cadd. rewrite pE_arith by (try assumption; lia). cbn [bind]. rewrite Z.add_0_r, pE_arith by (try assumption; lia). cbn [bind].
  change (w_shl (w_of 0) 1) with (Ok (w_of 0)). cbn [bind]. change (w_to (w_of 0)) with 0. rewrite u_mk_ok by assumption. reflexivity.
Qed.
Lemma w_mul_ok E na nb ea eb fa fb : is_width E -> word fa -> word fb -> - 2 ^ (E - 1) <= ea + eb < 2 ^ (E - 1) ->
  w_mul E (U Regular na ea fa) (U Regular nb eb fb) = Ok (U Regular (xorb na nb) (ea + eb) 0) /\
  ((uvalue 64 (xorb na nb) (ea + eb) 0 == uvalue 64 na ea fa * uvalue 64 nb eb fb)%Q <-> fa = 0 /\ fb = 0).
Proof.
  intros WE A C H. split; [exact (w_mul_eq E na nb ea eb fa fb WE A C H)|].
  destruct (fr_bounds fa A) as (A1 & A2 & A3). destruct (fr_bounds fb C) as (B1 & B2 & B3).
  rewrite !uv, fr0, sg_x, pow2_plus. split.
  - intros X. assert (Y : ((1 + inject_Z fa / pow2 64) * (1 + inject_Z fb / pow2 64) == 1)%Q).
    { apply (Qmult_inj_l _ _ (sg na * sg nb * (pow2 ea * pow2 eb))).
      - intros Z. destruct (Qmult_integral _ _ Z) as [Z1|Z1]; destruct (Qmult_integral _ _ Z1) as [Z2|Z2]; try (revert Z2; apply sg_nz); revert Z2; apply pow2_nz.
      - rewrite X. ring. }
    destruct (Z.eq_dec fa 0) as [->|NA], (Z.eq_dec fb 0) as [->|NB]; [split; reflexivity|exfalso|exfalso|exfalso].
    + specialize (B3 NB). rewrite fr0 in Y. lra.
    + specialize (A3 NA). rewrite fr0 in Y. lra.
    + specialize (A3 NA). nra.
  - intros [-> ->]. rewrite fr0. ring.
Qed.

Lemma w_div_eq E na nb ea eb fa fb : is_width E -> word fa -> word fb -> - 2 ^ (E - 1) <= ea - eb - 1 -> ea - eb < 2 ^ (E - 1) ->
  w_div E (U Regular na ea fa) (U Regular nb eb fb) = Ok (U Regular (xorb na nb) (if fa / 2 <? fb / 2 then ea - eb - 1 else ea - eb) 0).
Proof.
  intros WE A C H1 H2. unfold w_div. cbn [u_isNaN utype_eqb utyp orb uneg uexp ufrac]. rewrite !shr1. cbn [bind].
  destruct (hid fa A) as [-> BA]. destruct (hid fb C) as [-> BB].
  unfold csub, cadd. rewrite pE_arith by (try assumption; lia). cbn [bind].
  assert (LT : (2 ^ 63 + fa / 2 <? 2 ^ 63 + fb / 2) = (fa / 2 <? fb / 2)) by (destruct (Z.ltb_spec (2 ^ 63 + fa / 2) (2 ^ 63 + fb / 2)), (Z.ltb_spec (fa / 2) (fb / 2)); lia || reflexivity).
  rewrite LT. change (2 ^ 63) with 9223372036854775808 in *.
  assert (N : w_shl (w_of (9223372036854775808 + fa / 2)) 64 = Ok (W (9223372036854775808 + fa / 2) 0)).
  { unfold w_shl. change (64 >=? 64) with true. cbv iota. unfold cshl, u64. cbn [iw isg uint]. change ((64 - 64 <? 0) || (64 <=? 64 - 64)) with false. cbn [bind w_of wlo]. unfold wrapu. change (2 ^ (64 - 64)) with 1. rewrite Z.mul_1_r, Z.mod_small; [reflexivity|]. change (2 ^ 64) with B. lia. }
  destruct (Z.ltb_spec (fa / 2) (fb / 2)).
  - replace (ea - eb + -1) with (ea - eb - 1) by lia. rewrite pE_arith by (try assumption; lia). cbn [bind]. rewrite shr1. cbn [bind]. rewrite N. cbn [bind].
    unfold w_extradiv, cdiv, w_to. cbn [wlo]. destruct (Z.eqb_spec ((9223372036854775808 + fb / 2) / 2) 0) as [Z|Z].
    { exfalso. assert (1 <= (9223372036854775808 + fb / 2) / 2) by (apply Z.div_le_lower_bound; lia). lia. }
    unfold arith. cbn [isg u64 uint iw]. rewrite Z.quot_0_l by exact Z. cbn [bind]. change (wlo (w_of (wrapu 64 0))) with 0. rewrite u_mk_ok by (try assumption; lia). reflexivity.
  - rewrite Z.add_0_r, pE_arith by (try assumption; lia). cbn [bind]. rewrite N. cbn [bind].
    unfold w_extradiv, cdiv, w_to. cbn [wlo]. destruct (Z.eqb_spec (9223372036854775808 + fb / 2) 0) as [Z|Z]; [lia|].
    unfold arith. cbn [isg u64 uint iw]. rewrite Z.quot_0_l by exact Z. cbn [bind]. change (wlo (w_of (wrapu 64 0))) with 0. rewrite u_mk_ok by (try assumption; lia). reflexivity.
Qed.
Lemma pow2_m1 e : (pow2 (e - 1) == pow2 e * (1 # 2))%Q. Proof. unfold Z.sub. rewrite pow2_plus. reflexivity. Qed.
Lemma w_div_ok E na nb ea eb fa fb : is_width E -> word fa -> word fb -> - 2 ^ (E - 1) <= ea - eb - 1 -> ea - eb < 2 ^ (E - 1) ->
  exists e, w_div E (U Regular na ea fa) (U Regular nb eb fb) = Ok (U Regular (xorb na nb) e 0) /\
  ((uvalue 64 (xorb na nb) e 0 == uvalue 64 na ea fa / uvalue 64 nb eb fb)%Q <-> fa = fb).
Proof.
  intros WE A C H1 H2. exists (if fa / 2 <? fb / 2 then ea - eb - 1 else ea - eb). split; [exact (w_div_eq E na nb ea eb fa fb WE A C H1 H2)|].
  destruct (fr_bounds fa A) as (A1 & A2 & A3). destruct (fr_bounds fb C) as (B1 & B2 & B3).
  pose proof (fr_inj fa fb) as INJ. assert (R : fa = fb -> (inject_Z fa / pow2 64 == inject_Z fb / pow2 64)%Q) by (intros ->; reflexivity).
  assert (LT : fa = fb -> (fa / 2 <? fb / 2) = false) by (intros ->; apply Z.ltb_irrefl).
  rewrite !uv, fr0, sg_x. set (x := (inject_Z fa / pow2 64)%Q) in *. set (y := (inject_Z fb / pow2 64)%Q) in *. clearbody x y.
  pose proof (pow2_nz ea). pose proof (pow2_nz eb). pose proof (sg_nz na). pose proof (sg_nz nb).
  assert (NB : (sg nb * sg nb == 1)%Q) by (destruct nb; reflexivity).
  assert (K : forall e k, (pow2 e == pow2 ea / pow2 eb * k)%Q -> (sg na * sg nb * pow2 e * 1 == sg na * pow2 ea * (1 + x) / (sg nb * pow2 eb * (1 + y)))%Q <-> (k * (1 + y) == 1 + x)%Q).
  { intros e k PE. assert (Y : ~ (1 + y == 0)%Q) by lra.
    assert (EQ : (sg na * pow2 ea * (1 + x) / (sg nb * pow2 eb * (1 + y)) == sg na * sg nb * (pow2 ea / pow2 eb) * ((1 + x) / (1 + y)))%Q).
    { transitivity ((sg nb * sg nb) * (sg na * pow2 ea * (1 + x) / (sg nb * pow2 eb * (1 + y))))%Q; [rewrite NB; ring|field; repeat split; assumption]. }
    rewrite EQ, PE. split.
    - intros X. assert (Z : (k == (1 + x) / (1 + y))%Q).
      { apply (Qmult_inj_l _ _ (sg na * sg nb * (pow2 ea / pow2 eb))).
        - intros Z. destruct (Qmult_integral _ _ Z) as [Z1|Z1]; [destruct (Qmult_integral _ _ Z1); contradiction|]. unfold Qdiv in Z1. destruct (Qmult_integral _ _ Z1) as [Z2|Z2]; [contradiction|].
          revert Z2. rewrite <- pow2_opp. apply pow2_nz.
        - rewrite <- X. ring. }
      rewrite Z. field. exact Y.
    - intros X. rewrite <- X. field. split; assumption. }
  destruct (Z.ltb_spec (fa / 2) (fb / 2)) as [L|L].
  - rewrite (K _ (1 # 2)) by (rewrite pow2_m1, pow2_sub; reflexivity). split; [intros X; exfalso; lra|intros EQ; specialize (LT EQ); discriminate].
  - rewrite (K _ 1%Q) by (rewrite pow2_sub; ring). split; [intros X; apply INJ; lra|intros EQ; rewrite (R EQ); ring].
Qed.

Lemma w_inv_ok E na ea fa : is_width E -> word fa -> - 2 ^ (E - 1) <= - ea - 1 -> - ea < 2 ^ (E - 1) ->
  exists e, w_inv E (U Regular na ea fa) = Ok (U Regular na e 0) /\ ((uvalue 64 na e 0 == 1 / uvalue 64 na ea fa)%Q <-> fa = 0).
Proof.
  intros WE A H1 H2. exists (if 0 <? fa / 2 then - ea - 1 else - ea). split.
  - unfold w_inv. cbn [utyp uexp ufrac uneg]. unfold cneg, csub. destruct (Z.eqb_spec fa 0) as [->|NZ].
    + rewrite pE_arith by (try assumption; lia). cbn [bind]. change (0 <? 0 / 2) with false. rewrite u_mk_ok by (try assumption; lia). reflexivity.
    + rewrite shr1. cbn [bind]. destruct (hid fa A) as [-> BA]. rewrite pE_arith by (try assumption; lia). cbn [bind].
      unfold FT_leftmost_bit. change (64 - 1) with 63. change (2 ^ 63) with 9223372036854775808 in *.
      assert (LT : (9223372036854775808 <? 9223372036854775808 + fa / 2) = (0 <? fa / 2)) by (destruct (Z.ltb_spec 9223372036854775808 (9223372036854775808 + fa / 2)), (Z.ltb_spec 0 (fa / 2)); lia || reflexivity).
      rewrite LT. change (w_shl (w_of 9223372036854775808) 64) with (Ok (W 9223372036854775808 0)).
      destruct (Z.ltb_spec 0 (fa / 2)).
      * rewrite pE_arith by (try assumption; lia). cbn [bind]. rewrite shr1. cbn [bind]. unfold w_extradiv, cdiv, w_to. cbn [wlo].
        destruct (Z.eqb_spec ((9223372036854775808 + fa / 2) / 2) 0) as [Z|Z]; [exfalso; assert (1 <= (9223372036854775808 + fa / 2) / 2) by (apply Z.div_le_lower_bound; lia); lia|].
        unfold arith. cbn [isg u64 uint iw]. rewrite Z.quot_0_l by exact Z. cbn [bind]. change (wlo (w_of (wrapu 64 0))) with 0. rewrite u_mk_ok by (try assumption; lia). reflexivity.
      * cbn [bind]. unfold w_extradiv, cdiv, w_to. cbn [wlo]. destruct (Z.eqb_spec (9223372036854775808 + fa / 2) 0) as [Z|Z]; [lia|].
        unfold arith. cbn [isg u64 uint iw]. rewrite Z.quot_0_l by exact Z. cbn [bind]. change (wlo (w_of (wrapu 64 0))) with 0. rewrite u_mk_ok by (try assumption; lia). reflexivity.
  - destruct (fr_bounds fa A) as (A1 & A2 & A3). rewrite !uv, fr0. assert (R : fa = 0 -> (inject_Z fa / pow2 64 == 0)%Q) by (intros ->; reflexivity).
    assert (LT : fa = 0 -> (0 <? fa / 2) = false) by (intros ->; reflexivity).
    pose proof (pow2_nz ea). pose proof (sg_nz na). assert (NA : (sg na * sg na == 1)%Q) by (destruct na; reflexivity).
    set (x := (inject_Z fa / pow2 64)%Q) in *. clearbody x. assert (X0 : ~ (1 + x == 0)%Q) by lra.
    assert (K : forall e k, (pow2 e == / pow2 ea * k)%Q -> (sg na * pow2 e * 1 == 1 / (sg na * pow2 ea * (1 + x)))%Q <-> (k * (1 + x) == 1)%Q).
    { intros e k PE. assert (EQ : (1 / (sg na * pow2 ea * (1 + x)) == sg na * / pow2 ea * (/ (1 + x)))%Q).
      { transitivity ((sg na * sg na) * (1 / (sg na * pow2 ea * (1 + x))))%Q; [rewrite NA; ring|field; repeat split; assumption]. }
      rewrite EQ, PE. split.
      - intros X. assert (Z : (k == / (1 + x))%Q).
        { apply (Qmult_inj_l _ _ (sg na * / pow2 ea)); [|rewrite <- X; ring]. intros Z. destruct (Qmult_integral _ _ Z) as [Z1|Z1]; [contradiction|]. revert Z1. rewrite <- pow2_opp. apply pow2_nz. }
        rewrite Z. field. exact X0.
      - intros X. assert (Z : (k == / (1 + x))%Q) by (transitivity (k * (1 + x) * / (1 + x))%Q; [field; exact X0|rewrite X; ring]). rewrite Z. ring. }
    destruct (Z.ltb_spec 0 (fa / 2)).
    + rewrite (K _ (1 # 2)) by (rewrite pow2_m1, pow2_opp; reflexivity). split; [intros X; exfalso; lra|intros EQ; specialize (LT EQ); discriminate].
    + rewrite (K _ 1%Q) by (rewrite pow2_opp; ring). split; [intros X; destruct (Z.eq_dec fa 0) as [Z|Z]; [exact Z|specialize (A3 Z); exfalso; lra]|intros EQ; rewrite (R EQ); reflexivity].
Qed.

Lemma w_mul_bad : w_mul 32 (U Regular false 1 (2 ^ 63)) (U Regular false 1 (2 ^ 63)) = Ok (U Regular false 2 0) /\
  (uvalue 64 false 1 (2 ^ 63) == 3)%Q /\ (uvalue 64 false 2 0 == 4)%Q.
Proof. vm_compute. repeat split; reflexivity. Qed.
Lemma w_div_bad : w_div 32 (U Regular false 1 (2 ^ 63)) (U Regular false 1 0) = Ok (U Regular false 0 0) /\
  w_inv 32 (U Regular false 1 (2 ^ 63)) = Ok (U Regular false (-2) 0) /\
  (uvalue 64 false 1 (2 ^ 63) == 3)%Q /\ (uvalue 64 false 1 0 == 2)%Q /\ (uvalue 64 false 0 0 == 1)%Q /\ (uvalue 64 false (-2) 0 == 1 # 4)%Q.
Proof. vm_compute. repeat split; reflexivity. Qed.
(** With the 128 bit integers of the compiler the same operations are those of the headers for the special values. *)
Lemma w_special E a b : utyp a <> Regular \/ utyp b <> Regular -> w_mul E a b = u_mul 64 E a b /\ w_div E a b = u_div 64 E a b.
Proof. intros N. unfold w_mul, u_mul, w_div, u_div. destruct a as [[] ? ? ?], b as [[] ? ? ?]; cbn in N; try (destruct N; congruence); split; reflexivity. Qed.

(** The same facts with [wok] and [wval] spelled out. *)
Section Flat.
Variables (a b : u128).
Hypotheses (Ha : word (whi a)) (La : word (wlo a)).
Lemma w_add_flat : word (whi b) -> word (wlo b) ->
  exists r, w_add a b = Ok r /\ word (whi r) /\ word (wlo r) /\
  wide (whi r) (wlo r) = (wide (whi a) (wlo a) + wide (whi b) (wlo b)) mod 2 ^ 128.
Proof using Ha La. intros Hb Lb. destruct (w_add_ok a b (conj Ha La) (conj Hb Lb)) as (r & R & (W1 & W2) & V). exists r. tauto. Qed.
Lemma w_sub_flat : word (whi b) -> word (wlo b) ->
  exists r, w_sub a b = Ok r /\ word (whi r) /\ word (wlo r) /\
  wide (whi r) (wlo r) = (wide (whi a) (wlo a) - wide (whi b) (wlo b)) mod 2 ^ 128.
Proof using Ha La. intros Hb Lb. destruct (w_sub_ok a b (conj Ha La) (conj Hb Lb)) as (r & R & (W1 & W2) & V). exists r. tauto. Qed.
Lemma w_lt_flat : word (whi b) -> word (wlo b) -> w_lt a b = true -> wide (whi a) (wlo a) < wide (whi b) (wlo b).
Proof using Ha La. intros Hb Lb. exact (w_lt_sound a b (conj Ha La) (conj Hb Lb)). Qed.
Lemma w_shl_flat n : 1 <= n < 128 -> exists r, w_shl a n = Ok r /\ word (whi r) /\ word (wlo r) /\
  wide (whi r) (wlo r) = (wide (whi a) (wlo a) * 2 ^ n) mod 2 ^ 128.
Proof using Ha La. intros N. destruct (w_shl_ok a n (conj Ha La) N) as (r & R & (W1 & W2) & V). exists r. tauto. Qed.
Lemma w_shr_flat n : 1 <= n < 128 -> exists r, w_shr a n = Ok r /\ word (whi r) /\ word (wlo r) /\
  wide (whi r) (wlo r) = wide (whi a) (wlo a) / 2 ^ n.
Proof using Ha La. intros N. destruct (w_shr_ok a n (conj Ha La) N) as (r & R & (W1 & W2) & V). exists r. tauto. Qed.
Lemma w_shift0_flat : w_shl a 0 = UB ShiftCount /\ w_shr a 0 = UB ShiftCount.
Proof using Ha La. exact (w_shift_undefined a 0 (conj Ha La) (or_introl (Z.le_refl 0))). Qed.
Lemma w_conv_flat x : word x -> wide (whi (w_of x)) (wlo (w_of x)) = x /\ w_to a = wide (whi a) (wlo a) mod 2 ^ 64.
Proof using Ha La. intros X. destruct (w_conv a x (conj Ha La) X) as (P & _ & Q). split; assumption. Qed.
End Flat.
Lemma w_lt_bad_flat : exists a b, word (whi a) /\ word (wlo a) /\ word (whi b) /\ word (wlo b) /\
  wide (whi a) (wlo a) < wide (whi b) (wlo b) /\ w_lt a b = false.
Proof. destruct w_lt_bad as (a & b & (A1 & A2) & (B1 & B2) & C & D). exists a, b. tauto. Qed.
Lemma w_inv_special E n e f na ea fa :
  w_inv E (U Zero n e f) = Ok (U Infinity false 0 0) /\ w_inv E (U Infinity n e f) = Ok (U Zero false 0 0) /\
  (exists r, w_inv E (U NaN n e f) = Ok r /\ utyp r = NaN) /\
  w_div E (U Regular na ea fa) (U Zero n e f) = Ok (U Infinity na 0 0) /\ w_mul E (U Regular na ea fa) (U Zero n e f) = Ok (U Zero false 0 0).
Proof. split; [reflexivity|]. split; [reflexivity|]. split; [exists (U NaN n e f); split; reflexivity|]. split; reflexivity. Qed.
