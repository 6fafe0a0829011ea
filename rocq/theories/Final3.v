(** Property-level lemmas: laws, special operands, refutations. *)
From Coq Require Import ZArith QArith Qabs Lia Lqa Bool List.
From Verif Require Import Res CInt Bits Traits Unpacked Cfg Posit Spec QPow Core SpecLemmas Arith
  DecodeProof EncodeProof UOps UAdd Ops OpsAdd OpsUnary OpsUnary2 Specials Room Laws Configs Final1 Final2 Examples.
Open Scope Z_scope.

Lemma real_pat c v : valid_cfg c -> real c v -> pattern c v.
Proof. intros V R. vcb V. apply real_pattern; assumption. Qed.

Lemma add_undefined :
  exists c a b, valid_cfg c /\ exp_ok c /\ add_fits c /\ roomy c /\ real c a /\ real c b /\ p_add c a b = UB ShiftCount.
Proof. exists p16, 32767, 1. ex. Qed.

Lemma commute c a b : valid_cfg c -> pattern c a -> pattern c b -> ~ is_nan c a -> ~ is_nan c b ->
  p_add c a b = p_add c b a /\ p_mul c a b = p_mul c b a.
Proof. intros. split; [apply p_add_comm|apply p_mul_comm]; assumption. Qed.
Lemma commute_refuted :
  exists c a b, valid_cfg c /\ pattern c a /\ pattern c b /\ p_add c a b <> p_add c b a /\ p_mul c a b <> p_mul c b a.
Proof. exists p16, (-32768), 12345. ex. Qed.

Lemma neutral c x : valid_cfg c -> exp_ok c -> mul_fits c -> real c x ->
  p_add c x 0 = Ok x /\ p_add c 0 x = Ok x /\ p_sub c x 0 = Ok x /\
  p_mul c x 0 = Ok 0 /\ p_mul c 0 x = Ok 0 /\
  (x <> 0 -> p_div c x x = Ok (p_one c)) /\
  (add_fits c -> p_sub c x x = Ok 0) /\
  (room c (value c x) ->
    p_mul c x (p_one c) = Ok x /\ p_mul c (p_one c) x = Ok x /\ p_div c x (p_one c) = Ok x /\
    p_mul c x (p_mone c) = Ok (- x) /\ p_neg c x = Ok (- x)) /\
  (~ room c (value c x) ->
    p_mul c x (p_one c) = UB ShiftCount /\ p_mul c (p_one c) x = UB ShiftCount /\ p_div c x (p_one c) = UB ShiftCount).
Proof.
  intros V X MF R. destruct (add_zero c x V R) as [A1 [A2 A3]]. destruct (mul_zero c x V R) as [M1 M2].
  split; [assumption|]. split; [assumption|]. split; [assumption|]. split; [assumption|]. split; [assumption|].
  split; [intros; apply div_self; assumption|]. split; [intros; apply sub_self; assumption|].
  pose proof (one_real c V) as OR. pose proof (one_val c V) as OV. split.
  - intros Rm. split; [apply mul_one_r; assumption|]. split; [apply mul_one_l; assumption|].
    split; [apply div_one; assumption|]. split; [apply mul_mone; assumption|]. apply p_neg_real; assumption.
  - intros NR. rewrite OV. pose proof (one_value c V) as O1.
    split; [|split].
    + apply p_mul_room; try assumption. intros Rm. apply NR. eapply room_comp; [|exact Rm]. rewrite O1. ring.
    + apply p_mul_room; try assumption. intros Rm. apply NR. eapply room_comp; [|exact Rm]. rewrite O1. ring.
    + apply p_div_room; try assumption; [destruct (pow_split c V); lia|].
      intros Rm. apply NR. eapply room_comp; [|exact Rm]. rewrite O1. field.
Qed.

Lemma nan_left c a b : valid_cfg c -> is_nan c a -> pattern c b ->
  p_add c a b = Ok a /\ p_mul c a b = Ok a /\ p_div c a b = Ok a /\ (real c b -> p_sub c a b = Ok a).
Proof.
  intros V N P. split; [apply add_nan_l; assumption|]. split; [apply mul_nan_l; assumption|].
  split; [apply div_nan_l; assumption|]. intros R. rewrite p_sub_add by assumption.
  apply add_nan_l; try assumption. apply real_pat; [assumption|]. apply ropp; assumption.
Qed.
Lemma nan_right c a b : valid_cfg c -> exp_ok c -> frac_fits c -> is_nan c b -> pattern c a ->
  (forall r, p_mul c a b = Ok r -> r = a) /\ (forall r, p_div c a b = Ok r -> r = a) /\
  (forall r, a <> 0 -> p_add c a b = Ok r -> r = a) /\ p_add c 0 b = Ok b.
Proof.
  intros V X FF N P. split; [intros r; apply mul_nan_r; assumption|]. split; [intros r; apply div_nan_r; assumption|].
  split; [intros r; apply add_nan_r; assumption|]. reflexivity.
Qed.
Lemma nan_refuted :
  exists c a n, valid_cfg c /\ exp_ok c /\ frac_fits c /\ real c a /\ is_nan c n /\
    p_add c a n = Ok a /\ p_sub c a n = Ok a /\ p_mul c a n = Ok a /\ p_div c a n = Ok a.
Proof. exists p16, 12345, (-32768). ex. Qed.

Lemma infinities c i x : valid_cfg c -> is_inf c i -> real c x ->
  p_add c i x = Ok i /\ p_add c x i = Ok i /\ p_add c i i = Ok i /\
  (x <> 0 -> p_mul c i x = Ok (inf_of c (neg_sign i x)) /\ p_mul c x i = Ok (inf_of c (neg_sign x i)) /\
             p_div c i x = Ok (inf_of c (neg_sign i x)) /\ p_div c x 0 = Ok (inf_of c (x <? 0))) /\
  p_mul c i 0 = Ok (exceptional c) /\ p_mul c 0 i = Ok (exceptional c) /\
  p_div c 0 0 = Ok (exceptional c) /\ p_div c i 0 = Ok i /\ p_div c 0 i = Ok 0 /\
  (forall j, is_inf c j -> p_mul c i j = Ok (inf_of c (neg_sign i j)) /\ p_div c i j = Ok (exceptional c)) /\
  (forall j, is_pinf c i -> is_ninf c j -> p_add c i j = Ok (exceptional c) /\ p_add c j i = Ok (exceptional c)).
Proof.
  intros V I R. destruct (add_inf_l c i x V I R) as [A B]. destruct (mul_inf_0 c i V I) as [C D].
  split; [assumption|]. split; [assumption|]. split; [apply add_inf_same; assumption|].
  split.
  { intros NZ. split; [apply mul_inf_l; assumption|]. split; [apply mul_inf_r; assumption|].
    split; [apply div_inf_x; assumption|]. apply div_by_0; assumption. }
  split; [assumption|]. split; [assumption|]. split; [apply div_0_0; assumption|].
  split; [apply div_inf_0; assumption|]. split; [apply div_0_inf; assumption|].
  split; intros j; [intros J; split; [apply mul_inf_inf|apply div_inf_inf]; assumption|].
  intros; apply add_inf_opp; assumption.
Qed.
(** Subtraction of infinities: signed ones behave, a single unsigned one minus itself too when T has
    exactly totalbits bits. *)
Lemma sub_infinities c i j : valid_cfg c -> is_pinf c i -> is_ninf c j ->
  p_sub c i i = Ok (exceptional c) /\ p_sub c j j = Ok (exceptional c) /\ p_sub c i j = Ok i /\ p_sub c j i = Ok j /\
  (forall x, real c x -> p_sub c i x = Ok i /\ p_sub c j x = Ok j /\ p_sub c x i = Ok j /\ p_sub c x j = Ok i).
Proof.
  intros V I J. destruct I as [S Ei]. destruct J as [_ Ej].
  assert (I : is_pinf c i) by (split; assumption). assert (J : is_ninf c j) by (split; assumption).
  destruct (neg_signed_inf c V S) as [N1 [N2 _]].
  assert (Fi : inf_of c false = i) by (unfold inf_of; rewrite S; symmetry; assumption).
  assert (Fj : inf_of c true = j) by (unfold inf_of; rewrite S; symmetry; assumption).
  rewrite Fi, Fj in *. assert (II : is_inf c i) by (left; assumption). assert (JJ : is_inf c j) by (right; left; assumption).
  destruct (add_inf_opp c i j V I J) as [O1 O2].
  unfold p_sub. rewrite N1, N2. cbn [bind].
  split; [assumption|]. split; [assumption|]. split; [apply add_inf_same; assumption|]. split; [apply add_inf_same; assumption|].
  intros x R. rewrite p_neg_real by assumption. cbn [bind]. pose proof (ropp c x R) as R'.
  split; [apply (add_inf_l c i (- x) V II R')|]. split; [apply (add_inf_l c j (- x) V JJ R')|].
  split; [apply (add_inf_l c j x V JJ R)|apply (add_inf_l c i x V II R)].
Qed.
Lemma sub_uinf_refuted :
  exists c i, valid_cfg c /\ is_inf c i /\ exists r, p_sub c i i = Ok r /\ is_inf c r.
Proof. exists p16i, (-32768). split; [exact valid_p16i|]. split; [right; right; ex|]. exists (-32768). split; [vm_compute; reflexivity|right; right; ex]. Qed.
Lemma fin_div_inf c i x : valid_cfg c -> is_inf c i -> real c x -> x <> 0 ->
  p_div c x i = Ok (inf_of c (neg_sign x i)).
Proof. apply div_x_inf. Qed.
Lemma fin_div_inf_refuted :
  exists c i x, valid_cfg c /\ is_inf c i /\ real c x /\ p_div c x i <> Ok 0.
Proof. exists p16ni, 32767, 12345. split; [exact valid_p16ni|]. split; [left; ex|]. split; [ex|ex]. Qed.

Lemma div_zero_all c x : valid_cfg c -> real c x ->
  p_div c 0 0 = Ok (exceptional c) /\
  (x <> 0 -> csp c = WithNan -> exists r, p_div c x 0 = Ok r /\ is_nan c r) /\
  (x <> 0 -> csp c = WithInf -> exists r, p_div c x 0 = Ok r /\ is_uinf c r) /\
  (x <> 0 -> csp c = WithNanInf -> exists r, p_div c x 0 = Ok r /\ (if x <? 0 then is_ninf c r else is_pinf c r)).
Proof.
  intros V R. split; [apply div_0_0; assumption|].
  split; [|split]; intros NZ S; rewrite div_by_0 by assumption; eexists; (split; [reflexivity|]); unfold inf_of; rewrite S.
  - split; [congruence|reflexivity].
  - split; [congruence|reflexivity].
  - destruct (x <? 0); split; auto.
Qed.

(** Sign symmetry, stated with the negation operator. *)
Lemma neg_rmap c o : valid_cfg c -> (forall r, o = Ok r -> real c r) -> bind o (p_neg c) = rmap Z.opp o.
Proof. intros V H. destruct o as [r|u]; [|reflexivity]. cbn [bind rmap]. apply p_neg_real; auto. Qed.
Lemma mul_real c a b r : valid_cfg c -> exp_ok c -> mul_fits c -> real c a -> real c b -> p_mul c a b = Ok r -> real c r.
Proof. intros V X MF Ra Rb P. vcb V. eapply rounds_tz_real; [assumption|assumption|]. apply (p_mul_rounds c a b); assumption. Qed.
Lemma div_real c a b r : valid_cfg c -> exp_ok c -> mul_fits c -> real c a -> real c b -> b <> 0 -> p_div c a b = Ok r -> real c r.
Proof. intros V X MF Ra Rb Nb P. vcb V. eapply rounds_tz_real; [assumption|assumption|]. apply (p_div_rounds c a b); assumption. Qed.
Lemma add_real c a b r : valid_cfg c -> exp_ok c -> add_fits c -> real c a -> real c b -> p_add c a b = Ok r -> real c r.
Proof. intros V X MF Ra Rb P. apply (p_add_faithful c a b r); assumption. Qed.

Lemma sign_symmetry c a b : valid_cfg c -> exp_ok c -> add_fits c -> real c a -> real c b ->
  exists na nb, p_neg c a = Ok na /\ p_neg c b = Ok nb /\
    p_mul c na b = bind (p_mul c a b) (p_neg c) /\ p_mul c a nb = bind (p_mul c a b) (p_neg c) /\
    (b <> 0 -> p_div c na b = bind (p_div c a b) (p_neg c) /\ p_div c a nb = bind (p_div c a b) (p_neg c)) /\
    p_add c na nb = bind (p_add c a b) (p_neg c).
Proof.
  intros V X AF Ra Rb. pose proof (add_fits_mul c AF) as MF. exists (- a), (- b).
  split; [apply p_neg_real; assumption|]. split; [apply p_neg_real; assumption|].
  rewrite (neg_rmap c (p_mul c a b)); [|assumption|intros r P; eapply (mul_real c a b); eassumption].
  rewrite (neg_rmap c (p_add c a b)); [|assumption|intros r P; eapply (add_real c a b); eassumption].
  split; [apply p_mul_opp_l; assumption|]. split; [apply p_mul_opp_r; assumption|].
  split; [|apply p_add_opp; assumption].
  intros Nb. rewrite (neg_rmap c (p_div c a b)); [|assumption|intros r P; eapply (div_real c a b); eassumption].
  split; [apply p_div_opp_l; assumption|apply p_div_opp_r; assumption].
Qed.
Lemma inv_opp c x r s : valid_cfg c -> exp_ok c -> mul_fits c -> real c x -> x <> 0 ->
  p_inv c x = Ok r -> p_inv c (- x) = Ok s -> s = - r.
Proof.
  intros V X MF R NZ P Q. vcb V. pose proof (ropp c x R) as R'.
  assert (D : inv_escapes c x \/ ~ inv_escapes c x).
  { unfold inv_escapes. destruct (csp c); [right|right|]; try (intros [E _]; discriminate).
    destruct (Z.eq_dec x 1); [left; auto|]. destruct (Z.eq_dec x (-1)); [left; auto|]. right. tauto. }
  destruct D as [D|D].
  - assert (D' : inv_escapes c (- x)) by (destruct D as [S [-> | ->]]; split; auto).
    rewrite (p_inv_escape c x r V D P), (p_inv_escape c (- x) s V D' Q).
    unfold sg. destruct D as [_ [-> | ->]]; cbn [Z.ltb Z.compare Z.opp Pos.compare Pos.compare_cont]; lia.
  - assert (D' : ~ inv_escapes c (- x)) by (intros [S [E|E]]; apply D; split; auto; [right|left]; lia).
    apply p_inv_rounds in P; try assumption. apply p_inv_rounds in Q; try assumption; [|lia].
    apply (rounds_tz_unique c BN Bes (/ value c (- x))); [assumption|].
    apply rounds_tz_opp in P; try assumption. eapply rounds_tz_comp; try assumption; [|exact P].
    rewrite vopp. assert (NV : ~ (value c x == 0)%Q) by (apply value_nz; assumption). field. assumption.
Qed.

(** Canonical results. *)
Lemma results_real c a b : valid_cfg c -> exp_ok c -> add_fits c -> real c a -> real c b ->
  (forall r, p_add c a b = Ok r -> real c r) /\ (forall r, p_sub c a b = Ok r -> real c r) /\
  (forall r, p_mul c a b = Ok r -> real c r) /\ (forall r, p_div c a b = Ok r -> pattern c r /\ (b <> 0 -> real c r)) /\
  (forall r, p_neg c a = Ok r -> real c r) /\ (forall r, p_abs c a = Ok r -> real c r) /\
  (forall r, p_inv c a = Ok r -> pattern c r) /\
  (forall r, p_half c a = Ok r -> real c r) /\ (forall r, p_twice c a = Ok r -> pattern c r).
Proof.
  intros V X AF Ra Rb. pose proof (add_fits_mul c AF) as MF. vcb V. pose proof (maxreal_bounds c BN Bes) as MB.
  assert (IP : forall n, pattern c (inf_of c n)).
  { intros n. unfold pattern, inf_of. pose proof (pow_ge4 c V). destruct (csp c), n; lia. }
  split; [intros r P; eapply (add_real c a b); eassumption|].
  split. { intros r P. rewrite p_sub_add in P by assumption. eapply (add_real c a (- b)); try eassumption. apply ropp; assumption. }
  split; [intros r P; eapply (mul_real c a b); eassumption|].
  split.
  { intros r P. destruct (Z.eq_dec b 0) as [->|Nb].
    - split; [|congruence]. destruct (Z.eq_dec a 0) as [->|Na].
      + rewrite div_0_0 in P by assumption. injection P as <-. unfold pattern, exceptional. lia.
      + rewrite div_by_0 in P by assumption. injection P as <-. apply IP.
    - pose proof (div_real c a b r V X MF Ra Rb Nb P). split; [apply real_pat; assumption|auto]. }
  split; [intros r P; rewrite p_neg_real in P by assumption; injection P as <-; apply ropp; assumption|].
  split; [intros r P; rewrite p_abs_real in P by assumption; injection P as <-; unfold real in *; lia|].
  split.
  { intros r P. destruct (Z.eq_dec a 0) as [->|Na].
    { rewrite (proj1 (inv_special c V)) in P. injection P as <-. unfold pattern. lia. }
    assert (D : inv_escapes c a \/ ~ inv_escapes c a).
    { unfold inv_escapes. destruct (csp c); [right|right|]; try (intros [E _]; discriminate).
      destruct (Z.eq_dec a 1); [left; auto|]. destruct (Z.eq_dec a (-1)); [left; auto|]. right. tauto. }
    destruct D as [D|D].
    - rewrite (p_inv_escape c a r V D P). unfold pattern, sg. destruct (a <? 0); lia.
    - apply real_pat; [assumption|]. eapply rounds_tz_real; [assumption|assumption|]. apply (p_inv_rounds c a); assumption. }
  split.
  { intros r P. destruct (Z.eq_dec a 1) as [->|]; [rewrite (p_half_minpos c 1 r V ltac:(auto) P); unfold real; lia|].
    destruct (Z.eq_dec a (-1)) as [->|]; [rewrite (p_half_minpos c (-1) r V ltac:(auto) P); unfold real; lia|].
    eapply rounds_tz_real; [assumption|assumption|]. apply (p_half_rounds c a); assumption. }
  intros r P.
  assert (D : (csp c = WithNanInf /\ ces c = 0 /\ Z.abs a = maxreal c) \/ ~ (csp c = WithNanInf /\ ces c = 0 /\ Z.abs a = maxreal c)).
  { destruct (csp c); [right; intros [E _]; discriminate|right; intros [E _]; discriminate|].
    destruct (Z.eq_dec (ces c) 0); [|right; tauto]. destruct (Z.eq_dec (Z.abs a) (maxreal c)); [left; auto|right; tauto]. }
  destruct D as [[S [E0 A]]|D].
  - rewrite (twice_escape c a r V S E0 Ra A P). apply IP.
  - apply real_pat; [assumption|]. eapply rounds_tz_real; [assumption|assumption|]. apply (twice_rounds c a); assumption.
Qed.

Lemma monotone c a b d : valid_cfg c -> exp_ok c -> mul_fits c -> real c a -> real c b -> real c d ->
  (value c a <= value c b)%Q ->
  (forall r s, (0 < value c d)%Q -> p_mul c a d = Ok r -> p_mul c b d = Ok s -> p_le c r s = true) /\
  (forall r s, (0 < value c d)%Q -> p_div c a d = Ok r -> p_div c b d = Ok s -> p_le c r s = true) /\
  (forall r s, (0 <= value c a)%Q /\ (0 <= value c b)%Q /\ (0 <= value c d)%Q \/
               (value c a <= 0)%Q /\ (value c b <= 0)%Q /\ (value c d <= 0)%Q ->
     p_add c a d = Ok r -> p_add c b d = Ok s -> p_le c r s = true).
Proof.
  intros V X MF Ra Rb Rd L. vcb V.
  assert (AB : a <= b).
  { apply Z.nlt_ge. intros G. pose proof (real_bounds c BN Bes _ Ra). pose proof (real_bounds c BN Bes _ Rb).
    assert ((value c b < value c a)%Q) by (apply (value_lt c BN Bes); lia). lra. }
  assert (ORD : forall r s, real c r -> real c s -> r <= s -> p_le c r s = true).
  { intros r s Rr Rs LE. apply (compare_real c r s V Rr Rs). apply real_value_le; assumption. }
  assert (DP : (0 < value c d)%Q -> 0 < d) by (apply value_sign; assumption).
  split; [|split].
  - intros r s D P Q. apply ORD; [eapply (mul_real c a d); eassumption|eapply (mul_real c b d); eassumption|].
    apply (p_mul_mono c a b d); auto.
  - intros r s D P Q. pose proof (DP D). apply ORD; [eapply (div_real c a d); eauto; lia|eapply (div_real c b d); eauto; lia|].
    apply (p_div_mono c a b d); auto.
  - intros r s D P Q.
    assert (NN : forall v, real c v -> (0 <= value c v)%Q -> 0 <= v).
    { intros v Rv G. apply Z.nlt_ge. intros G'. apply (proj1 (value_sign c v V Rv)) in G'. lra. }
    assert (NP : forall v, real c v -> (value c v <= 0)%Q -> v <= 0).
    { intros v Rv G. apply Z.nlt_ge. intros G'. apply (proj2 (value_sign c v V Rv)) in G'. lra. }
    assert (SS : 0 <= a /\ 0 <= b /\ 0 <= d \/ a <= 0 /\ b <= 0 /\ d <= 0).
    { destruct D as [[D1 [D2 D3]]|[D1 [D2 D3]]]; [left|right]; auto. }
    pose proof (p_add_mono c a b d r s V X MF Ra Rb Rd SS AB P Q) as LE.
    assert (R1 : real c r).
    { eapply rounds_tz_real; [assumption|assumption|]. apply (p_add_same_rounds c a d); try assumption. lia. }
    assert (R2 : real c s).
    { eapply rounds_tz_real; [assumption|assumption|]. apply (p_add_same_rounds c b d); try assumption. lia. }
    apply ORD; assumption.
Qed.
Lemma add_defined_iff c a b :
  valid_cfg c -> exp_ok c -> add_fits c -> roomy c -> real c a -> real c b ->
  (near c (value c a) (value c b) -> exists r, p_add c a b = Ok r) /\
  (~ near c (value c a) (value c b) -> p_add c a b = UB ShiftCount).
Proof.
  intros V X AF Rm Ra Rb. destruct (add_total c a b V X AF Ra Rb) as [A B]. split; [|assumption].
  intros N. destruct A as [r [E _]]; [left; split; [assumption|apply roomy_room_up; assumption]|eauto].
Qed.
Lemma fin_div_inf_all c i x :
  valid_cfg c -> is_inf c i -> real c x ->
  p_div c 0 i = Ok 0 /\ (x <> 0 -> p_div c x i = Ok (inf_of c (neg_sign x i))).
Proof. intros V I R. split; [apply div_0_inf; assumption|]. intros. apply div_x_inf; assumption. Qed.
