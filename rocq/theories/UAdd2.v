(** Error of the addition of unpacked numbers. *)
From Coq Require Import ZArith QArith Qabs Lia Lqa Bool List.
From Verif Require Import Res CInt Bits Traits Unpacked Cfg Spec QPow Core Arith UOps UAdd Dot Final1.
Open Scope Z_scope.

Lemma sig2_div F f : is_width F -> sig2 F f = (2 ^ F + f) / 4.
Proof.
  intros W. pose proof (is_width_pos F W). unfold sig2.
  assert (2 ^ F = 2 ^ (F - 2) * 4) by (change 4 with (2 ^ 2); rewrite <- Z.pow_add_r by lia; f_equal; lia).
  rewrite H0, Z.div_add_l by lia. reflexivity.
Qed.
(** What is left of an operand after the shift to the unit 2^(M+2-F). *)
Lemma part F M e f : is_width F -> 0 <= f < 2 ^ F -> e <= M ->
  let A := sig2 F f / 2 ^ (M - e) in 0 <= A < 2 ^ (F - 1) /\ (dy A (M + 2 - F) <= uabs F e f)%Q /\ (uabs F e f < dy (A + 1) (M + 2 - F))%Q.
Proof.
  intros W B L A. pose proof (is_width_pos F W). pow_pos 2 (M - e). pose proof (sig2_bounds F f W B) as SB.
  assert (EA : A = (2 ^ F + f) / 2 ^ (M - e + 2)).
  { unfold A. rewrite sig2_div by assumption. rewrite Z.div_div by lia. f_equal. rewrite Z.pow_add_r by lia. change (2 ^ 2) with 4. lia. }
  split.
  - assert (2 ^ (F - 1) = 2 * 2 ^ (F - 2)) by (rewrite <- Z.pow_succ_r by lia; f_equal; lia). unfold A.
    split; [apply Z.div_pos; lia|]. apply Z.le_lt_trans with (sig2 F f); [|lia]. apply Z.div_le_upper_bound; nia.
  - set (k := M - e + 2) in *. pow_pos 2 k. pose proof (Z.div_mod (2 ^ F + f) (2 ^ k) ltac:(lia)) as DM. pose proof (Z.mod_pos_bound (2 ^ F + f) (2 ^ k) ltac:(lia)) as MB.
    rewrite <- EA in DM. replace (M + 2 - F) with (e - F + k) by (unfold k; lia). rewrite <- !dy_pow by (unfold k; lia). unfold uabs.
    split; [apply dy_le|apply dy_lt]; nia.
Qed.

Section sum.
Variables (F E : Z) (na nb : bool) (ea eb fa fb : Z).
Hypotheses (WF : is_width F) (WE : is_width E) (Ha : 0 <= fa < 2 ^ F) (Hb : 0 <= fb < 2 ^ F).
Hypotheses (D1 : - 2 ^ (E - 1) <= ea - eb < 2 ^ (E - 1)) (D2 : - 2 ^ (E - 1) <= eb - ea < 2 ^ (E - 1)).
Hypotheses (D3 : Z.max ea eb + 1 < 2 ^ (E - 1)) (D4 : - 2 ^ (E - 1) <= Z.max ea eb + 2 - F).
Hypothesis (DP : Z.abs (ea - eb) < pw F).
Let M := Z.max ea eb.
Let x := uvalue F na ea fa.
Let y := uvalue F nb eb fb.
Let u := pow2 (M + 2 - F).
Let A := sig2 F fa / 2 ^ (M - ea).
Let B := sig2 F fb / 2 ^ (M - eb).
Definition sgz (n : bool) (z : Z) : Z := if n then - z else z.

(** The sum of the parts is what comes out. *)
Lemma sum_parts :
  (sgz na A + sgz nb B = 0 /\ u_add F E (U Regular na ea fa) (U Regular nb eb fb) = Ok (u_special Zero false)) \/
  (exists n e f, u_add F E (U Regular na ea fa) (U Regular nb eb fb) = Ok (U Regular n e f) /\ 0 <= f < 2 ^ F /\
     (uvalue F n e f == dy (sgz na A + sgz nb B) (M + 2 - F))%Q) \/
  (32 <= F /\ Z.abs (sgz na A + sgz nb B) = 1 /\ u_add F E (U Regular na ea fa) (U Regular nb eb fb) = UB ShiftCount).
Proof using All.
  pose proof (is_width_pos F WF) as FP. destruct (part F M ea fa WF Ha ltac:(lia)) as (BA & _). destruct (part F M eb fb WF Hb ltac:(lia)) as (BB & _).
  fold A in BA. fold B in BB. pose proof (u_add_eq F E na nb ea eb fa fb WF WE Ha Hb D1 D2 ltac:(lia) DP) as EQ. cbv zeta in EQ. fold M A B in EQ. rewrite EQ. clear EQ.
  assert (P1 : 2 ^ F = 2 * 2 ^ (F - 1)) by (rewrite <- Z.pow_succ_r by lia; f_equal; lia).
  assert (SG : sgz na A + sgz nb B = sgz (addneg na nb A B) (addfrac na nb A B)).
  { unfold sgz, addneg, addfrac. destruct na, nb; cbn [Bool.eqb]; try lia; destruct (Z.gtb_spec A B); lia. }
  assert (FB : 0 <= addfrac na nb A B < 2 ^ F) by (unfold addfrac; destruct (Bool.eqb na nb); lia).
  rewrite SG. set (n := addneg na nb A B) in *. set (fr := addfrac na nb A B) in *.
  destruct (Z.eq_dec fr 0) as [Z0|NZ]; [left|right].
  { split; [rewrite Z0; unfold sgz; destruct n; lia|]. unfold u_normalized. cbn [ufrac]. rewrite Z0. reflexivity. }
  pose proof (Z.log2_nonneg fr) as LN. assert (LF : Z.log2 fr < F) by (apply Z.log2_lt_pow2; lia).
  destruct (Z_lt_ge_dec (F - Z.log2 fr) (pw F)) as [K|K]; [left|right].
  - destruct (u_normalized_spec F E n (M + 1) fr WF WE ltac:(lia) K ltac:(lia)) as (N & BF & _).
    eexists n, _, _. split; [exact N|]. split; [exact BF|].
    rewrite uvalue_uval by lia. unfold uval. pose proof (norm_val F (M + 1) fr WF ltac:(lia)) as NV. replace (M + 2 - F) with (M + 1 + 1 - F) by lia.
    unfold sgz. destruct n; rewrite NV; [apply dy_opp|reflexivity].
  - unfold pw in K. assert (L0 : Z.log2 fr = 0) by lia. assert (F1 : fr = 1).
    { pose proof (Z.log2_spec fr ltac:(lia)) as LS. rewrite L0 in LS. change (2 ^ Z.succ 0) with 2 in LS. lia. }
    split; [lia|]. split; [rewrite F1; unfold sgz; destruct n; reflexivity|]. apply normalized_ub; try assumption; [lia|unfold pw; lia|lia].
Qed.
Lemma part_x : let d := (x - dy (sgz na A) (M + 2 - F))%Q in (if na then - u < d /\ d <= 0 else 0 <= d /\ d < u)%Q.
Proof using All.
  pose proof (is_width_pos F WF) as FP. destruct (part F M ea fa WF Ha ltac:(lia)) as (_ & L & U). fold A in L, U. rewrite <- dy_add in U.
  assert (E1 : (dy 1 (M + 2 - F) == u)%Q) by (unfold dy, u; change (inject_Z 1) with 1%Q; ring). rewrite E1 in U.
  cbv zeta. assert (EX : (x == uval F na ea fa)%Q) by (apply uvalue_uval; lia). unfold uval in EX. unfold sgz. pose proof (dy_opp A (M + 2 - F)) as DO. clear E1. destruct na; split; lra.
Qed.
Lemma part_y : let d := (y - dy (sgz nb B) (M + 2 - F))%Q in (if nb then - u < d /\ d <= 0 else 0 <= d /\ d < u)%Q.
Proof using All.
  pose proof (is_width_pos F WF) as FP. destruct (part F M eb fb WF Hb ltac:(lia)) as (_ & L & U). fold B in L, U. rewrite <- dy_add in U.
  assert (E1 : (dy 1 (M + 2 - F) == u)%Q) by (unfold dy, u; change (inject_Z 1) with 1%Q; ring). rewrite E1 in U.
  cbv zeta. assert (EX : (y == uval F nb eb fb)%Q) by (apply uvalue_uval; lia). unfold uval in EX. unfold sgz. pose proof (dy_opp B (M + 2 - F)) as DO. clear E1. destruct nb; split; lra.
Qed.
Lemma u_pos : (0 < u)%Q. Proof. apply pow2_pos. Qed.

Theorem add_error :
  let r := u_add F E (U Regular na ea fa) (U Regular nb eb fb) in
  (r = Ok (u_special Zero false) /\ (Qabs (x + y) < u)%Q) \/
  (exists n e f, r = Ok (U Regular n e f) /\ 0 <= f < 2 ^ F /\
     (na = nb -> n = na /\ (Qabs (uvalue F n e f) <= Qabs (x + y))%Q /\ (Qabs (x + y) < Qabs (uvalue F n e f) + 2 * u)%Q) /\
     (na <> nb -> (Qabs (uvalue F n e f - (x + y)) < u)%Q)) \/
  (32 <= F /\ na <> nb /\ r = UB ShiftCount /\ (Qabs (x + y) < 2 * u)%Q).
Proof using All.
  cbv zeta. pose proof (is_width_pos F WF) as FP. pose proof part_x as PX. pose proof part_y as PY. cbv zeta in PX, PY. pose proof u_pos as UP.
  destruct (part F M ea fa WF Ha ltac:(lia)) as (BA & LA & _). destruct (part F M eb fb WF Hb ltac:(lia)) as (BB & LB & _). fold A in BA, LA. fold B in BB, LB.
  assert (APOS : 0 < A \/ 0 < B).
  { pose proof (sig2_bounds F fa WF Ha). pose proof (sig2_bounds F fb WF Hb). pow_pos 2 (F - 2).
    destruct (Z_le_gt_dec eb ea) as [L|L]; [left; unfold A; replace (M - ea) with 0 by lia|right; unfold B; replace (M - eb) with 0 by lia]; change (2 ^ 0) with 1; rewrite Z.div_1_r; lia. }
  assert (SP : (dy (sgz na A + sgz nb B) (M + 2 - F) == dy (sgz na A) (M + 2 - F) + dy (sgz nb B) (M + 2 - F))%Q) by (rewrite dy_add; reflexivity).
  assert (D0 : (dy 0 (M + 2 - F) == 0)%Q) by apply dy_0.
  assert (E1 : (dy 1 (M + 2 - F) == u)%Q) by (unfold dy, u; change (inject_Z 1) with 1%Q; ring).
  assert (SAME : na = nb -> Z.abs (sgz na A + sgz nb B) = A + B) by (intros <-; unfold sgz; destruct na; lia).
  destruct sum_parts as [(S0 & R)|[(n & e & f & R & Bf & V)|(F32 & S1 & R)]]; [left|right; left|right; right].
  - split; [exact R|]. assert (NE : na <> nb) by (intros EN; specialize (SAME EN); lia).
    rewrite S0, D0 in SP. apply Qabs_case; intros _; destruct na, nb; try congruence; destruct PX, PY; lra.
  - exists n, e, f. split; [exact R|]. split; [exact Bf|]. set (z := uvalue F n e f) in *. split; intros EN.
    + specialize (SAME EN). assert (SN : n = na).
      { assert (ZV : (z == uval F n e f)%Q) by (apply uvalue_uval; lia). assert (UA : (0 < uabs F e f)%Q) by (apply dy_pos; lia).
        unfold uval in ZV. destruct n, na; subst nb; try reflexivity; exfalso; unfold sgz in V.
        - assert (dy 0 (M + 2 - F) <= dy (A + B) (M + 2 - F))%Q by (apply dy_le; lia). lra.
        - assert (dy (- A + - B) (M + 2 - F) <= dy 0 (M + 2 - F))%Q by (apply dy_le; lia). lra. }
      split; [exact SN|].
      assert (DA : (0 <= dy A (M + 2 - F))%Q) by (rewrite <- D0; apply dy_le; lia). assert (DB : (0 <= dy B (M + 2 - F))%Q) by (rewrite <- D0; apply dy_le; lia).
      pose proof (dy_opp A (M + 2 - F)) as OA. pose proof (dy_opp B (M + 2 - F)) as OB. unfold sgz in *. clear SN. subst nb.
      destruct na; destruct PX, PY; [rewrite !Qabs_neg by lra|rewrite !Qabs_pos by lra]; split; lra.
    + apply Qabs_case; intros _; destruct na, nb; try congruence; destruct PX, PY; lra.
  - split; [exact F32|]. assert (NE : na <> nb).
    { intros EN. specialize (SAME EN). rewrite S1 in SAME.
      assert (P1 : 1 < 2 ^ (F - 2)) by (apply Z.pow_gt_1; lia). pose proof (sig2_bounds F fa WF Ha). pose proof (sig2_bounds F fb WF Hb).
      destruct (Z_le_gt_dec eb ea) as [L|L].
      - assert (A = sig2 F fa) by (unfold A; replace (M - ea) with 0 by lia; change (2 ^ 0) with 1; apply Z.div_1_r). lia.
      - assert (B = sig2 F fb) by (unfold B; replace (M - eb) with 0 by lia; change (2 ^ 0) with 1; apply Z.div_1_r). lia. }
    split; [exact NE|]. split; [exact R|].
    assert (SB : (- u <= dy (sgz na A + sgz nb B) (M + 2 - F) <= u)%Q).
    { rewrite <- E1, dy_opp. split; apply dy_le; lia. }
    destruct SB as [SB1 SB2]. apply Qabs_case; intros _; destruct na, nb; try congruence; destruct PX, PY; lra.
Qed.
(** Operands that are multiples of the unit. *)
Lemma multiple n z e f (i : Z) : (uvalue F n e f == inject_Z i * u)%Q ->
  (let d := (uvalue F n e f - dy (sgz n z) (M + 2 - F))%Q in (if n then - u < d /\ d <= 0 else 0 <= d /\ d < u)%Q) -> (uvalue F n e f == dy (sgz n z) (M + 2 - F))%Q.
Proof using All.
  intros I D. cbv zeta in D. assert (EI : (uvalue F n e f == dy i (M + 2 - F))%Q) by exact I. 
  assert (E1 : (dy 1 (M + 2 - F) == u)%Q) by (unfold dy, u; change (inject_Z 1) with 1%Q; ring).
  assert (DD : (dy i (M + 2 - F) - dy (sgz n z) (M + 2 - F) == dy (i - sgz n z) (M + 2 - F))%Q).
  { unfold Z.sub, Qminus. rewrite <- dy_add, dy_opp. reflexivity. }
  pose proof (dy_0 (M + 2 - F)) as D0. assert (i = sgz n z) as <-; [|exact EI]. destruct n; destruct D as [L U]; rewrite EI, DD in L; rewrite EI, DD in U.
  - rewrite <- D0 in U. apply dy_le_inv in U. rewrite <- E1, dy_opp in L. apply dy_lt_inv in L. lia.
  - rewrite <- D0 in L. apply dy_le_inv in L. rewrite <- E1 in U. apply dy_lt_inv in U. lia.
Qed.
Theorem add_exact (i j : Z) : (x == inject_Z i * u)%Q -> (y == inject_Z j * u)%Q ->
  let r := u_add F E (U Regular na ea fa) (U Regular nb eb fb) in
  (r = Ok (u_special Zero false) /\ (x + y == 0)%Q) \/
  (exists n e f, r = Ok (U Regular n e f) /\ 0 <= f < 2 ^ F /\ (uvalue F n e f == x + y)%Q) \/
  (32 <= F /\ r = UB ShiftCount /\ (Qabs (x + y) == u)%Q).
Proof using All.
  intros X Y. cbv zeta. pose proof (multiple na A ea fa i X part_x) as EX. pose proof (multiple nb B eb fb j Y part_y) as EY. fold x in EX. fold y in EY.
  assert (SP : (dy (sgz na A + sgz nb B) (M + 2 - F) == x + y)%Q) by (rewrite <- dy_add, EX, EY; reflexivity).
  destruct sum_parts as [(S0 & R)|[(n & e & f & R & Bf & V)|(F32 & S1 & R)]]; [left|right; left|right; right].
  - split; [exact R|]. rewrite <- SP, S0. apply dy_0.
  - exists n, e, f. split; [exact R|]. split; [exact Bf|]. rewrite V. exact SP.
  - split; [exact F32|]. split; [exact R|]. rewrite <- SP. assert (E1 : (dy 1 (M + 2 - F) == u)%Q) by (unfold dy, u; change (inject_Z 1) with 1%Q; ring). pose proof u_pos.
    destruct (Z.abs_spec (sgz na A + sgz nb B)) as [[_ Q]|[_ Q]].
    + replace (sgz na A + sgz nb B) with 1 by lia. rewrite E1. apply Qabs_pos. lra.
    + replace (sgz na A + sgz nb B) with (- (1)) by lia. rewrite <- dy_opp, E1. rewrite Qabs_opp. apply Qabs_pos. lra.
Qed.
End sum.

(** Twice a number, by addition and by multiplication, and a number minus itself. *)
Lemma add_self F E n e f : is_width F -> is_width E -> 0 <= f < 2 ^ F -> f mod 4 = 0 -> - 2 ^ (E - 1) <= e -> e + 1 < 2 ^ (E - 1) ->
  u_add F E (U Regular n e f) (U Regular n e f) = Ok (U Regular n (e + 1) f).
Proof.
  intros WF WE B M4 L H. pose proof (is_width_pos F WF) as FP. pose proof (is_width_pos E WE) as EP. pow_pos 2 (E - 1).
  pose proof (u_add_eq F E n n e e f f WF WE B B ltac:(lia) ltac:(lia) ltac:(lia) ltac:(unfold pw; lia)) as EQ. cbv zeta in EQ. rewrite EQ. clear EQ.
  replace (Z.max e e) with e by lia. replace (e - e) with 0 by lia. change (2 ^ 0) with 1. rewrite Z.div_1_r.
  pose proof (sig2_bounds F f WF B) as SB. assert (P : 2 ^ F = 4 * 2 ^ (F - 2)) by (change 4 with (2 ^ 2); rewrite <- Z.pow_add_r by lia; f_equal; lia).
  assert (P1 : 2 ^ (F - 1) = 2 * 2 ^ (F - 2)) by (rewrite <- Z.pow_succ_r by lia; f_equal; lia).
  assert (S4 : 4 * sig2 F f = 2 ^ F + f) by (unfold sig2; pose proof (Z.div_mod f 4 ltac:(lia)); lia).
  unfold addneg, addfrac. rewrite eqb_reflx. set (s := sig2 F f) in *.
  assert (LG : Z.log2 (s + s) = F - 1) by (apply Z.log2_unique; [lia|]; replace (Z.succ (F - 1)) with F by lia; lia).
  destruct (u_normalized_spec F E n (e + 1) (s + s) WF WE) as (N & _); rewrite ?LG; try lia; [unfold pw; lia|].
  rewrite N, LG. do 2 f_equal; [lia|]. replace (F - (F - 1)) with 1 by lia. change (2 ^ 1) with 2. lia.
Qed.
Lemma mul_two F E n e f : is_width F -> is_width E -> 0 <= f < 2 ^ F -> f mod 4 = 0 -> - 2 ^ (E - 1) <= e + 1 -> e + 2 < 2 ^ (E - 1) ->
  u_mul F E (U Regular false 1 0) (U Regular n e f) = Ok (U Regular n (e + 1) f).
Proof.
  intros WF WE B M4 L H. pose proof (is_width_pos F WF) as FP. pow_pos 2 F.
  destruct (u_mul_spec F E false n 1 e 0 f WF WE ltac:(lia) B ltac:(lia) ltac:(lia)) as (e' & f' & j & R & J & BE & (Bf & _ & MJ & LO & UP)).
  rewrite R. replace (xorb false n) with n by (destruct n; reflexivity). pose proof (Z.div_mod f 4 ltac:(lia)) as DM. rewrite M4 in DM.
  replace (2 * (f / 2)) with f in * by (rewrite DM, Z.add_0_r; replace (4 * (f / 4)) with (2 * (f / 4) * 2) by lia; rewrite Z.div_mul by lia; lia).
  change (2 * (0 / 2)) with 0 in *. rewrite Z.add_0_r in *.
  assert (PX : (dy (2 ^ F) (1 - F) * dy (2 ^ F + f) (e - F) == dy (2 ^ F + f) (e + 1 - F))%Q).
  { rewrite dy_mul, Z.mul_comm, dy_pow by lia. replace (1 - F + (e - F) + F) with (e + 1 - F) by lia. reflexivity. }
  rewrite PX in *. unfold uabs in LO.
  assert (EE : e' = e + 1).
  { destruct (Z.eq_dec e' (e + 1)) as [|N]; [assumption|exfalso]. replace e' with (e + 1 + 1) in LO by lia.
    replace (e + 1 + 1 - F) with (e + 1 - F + 1) in LO by lia. rewrite <- dy_pow in LO by lia. apply dy_le_inv in LO. change (2 ^ 1) with 2 in LO. lia. }
  subst e'. apply dy_le_inv in LO. apply dy_lt_inv in UP. do 2 f_equal. 
  assert (J12 : j = 1 \/ j = 2) by lia. clear R PX B H L. destruct J12 as [-> | ->].
  - change (2 ^ 1) with 2 in *. pose proof (Z.div_mod f' 2 ltac:(lia)). lia.
  - change (2 ^ 2) with 4 in *. pose proof (Z.div_mod f' 4 ltac:(lia)). lia.
Qed.
Lemma add_cancel F E n e f : is_width F -> is_width E -> 0 <= f < 2 ^ F -> - 2 ^ (E - 1) <= e -> e + 1 < 2 ^ (E - 1) ->
  u_add F E (U Regular n e f) (U Regular (negb n) e f) = Ok (u_special Zero false).
Proof.
  intros WF WE B L H. pose proof (is_width_pos F WF) as FP. pose proof (is_width_pos E WE) as EP. pow_pos 2 (E - 1).
  pose proof (u_add_eq F E n (negb n) e e f f WF WE B B ltac:(lia) ltac:(lia) ltac:(lia) ltac:(unfold pw; lia)) as EQ. cbv zeta in EQ. rewrite EQ. clear EQ.
  unfold u_normalized, addfrac. cbn [ufrac]. replace (Bool.eqb n (negb n)) with false by (destruct n; reflexivity). rewrite Z.sub_diag. reflexivity.
Qed.

Lemma add_specials F E a : (utyp a <> NaN ->
    u_add F E a (u_special Zero false) = Ok a) /\
  (utyp a = Regular \/ utyp a = Infinity -> u_add F E (u_special Zero false) a = Ok a) /\
  (forall s, utyp a = Regular \/ utyp a = Zero -> u_add F E (u_special Infinity s) a = Ok (u_special Infinity s) /\ u_add F E a (u_special Infinity s) = Ok (u_special Infinity s)) /\
  (forall s, u_add F E (u_special Infinity s) (u_special Infinity s) = Ok (u_special Infinity s) /\ u_add F E (u_special Infinity s) (u_special Infinity (negb s)) = Ok u_nan) /\
  (utyp a = NaN -> forall b, u_add F E a b = Ok a).
Proof.
  unfold u_add, u_isNaN, u_special. split; [|split; [|split; [|split]]].
  - destruct a as [[] n e f]; cbn; congruence.
  - intros [H|H]; destruct a as [t n e f]; cbn in H; subst t; reflexivity.
  - intros s [H|H]; destruct a as [t n e f]; cbn in H; subst t; split; reflexivity.
  - intros []; split; reflexivity.
  - intros H b. rewrite H. reflexivity.
Qed.
Lemma add_refuted :
  (u_add 32 16 u_one u_nan = Ok u_one) /\
  (u_add 32 16 (U Regular false 40 0) u_one = UB ShiftCount) /\
  (u_add 32 16 (U Regular false 0 1) (U Regular false 0 1) = Ok (U Regular false 1 0)) /\
  (u_add 32 16 (U Regular false 0 4) (U Regular true 0 0) = UB ShiftCount) /\
  (exists e, u_add 32 16 (U Regular false 32767 0) (U Regular false 32767 0) = Ok (U Regular false e 0) /\ e = -32768).
Proof. split; [reflexivity|]. split; [vm_compute; reflexivity|]. split; [vm_compute; reflexivity|]. split; [vm_compute; reflexivity|]. eexists. split; [vm_compute; reflexivity|reflexivity]. Qed.
