(** Accumulated errors: the statements as C133 and C134 use them, and concrete cases. *)
From Coq Require Import ZArith QArith Qabs Qpower Lia Lqa Bool List.
From Verif Require Import Res CInt Traits Cfg Spec SpecAcc SpecProg SpecDot SpecErr Unpacked Posit Posit2 Configs Examples QPow Err1 Err2.
Import ListNotations.
Open Scope Z_scope.

Lemma program_bounds c f e r : valid_cfg c -> exp_ok c -> add_fits c -> 1 <= f -> positive c e -> precise_steps c f e -> eval c e = Ok r ->
  real c r /\ (0 < value c r)%Q /\
  ((1 - pow2 (- f)) ^ Z.of_nat (roundings e) * exact c e <= value c r)%Q /\
  ((1 - pow2 (- f)) ^ Z.of_nat (roundings e) * value c r <= exact c e)%Q /\
  (no_division e -> (value c r <= exact c e)%Q).
Proof.
  intros V X AF F1 P S E. destruct (program_error c V X AF f F1 e r P S E) as (A & B & _ & [C1 C2] & D). auto.
Qed.
Lemma sum_range c f lo hi s l : valid_cfg c -> exp_ok c -> mul_fits c -> roomy c -> 1 <= f -> f <= fracbits c lo -> f <= fracbits c hi -> hi - lo < Z.max 32 (cF c) ->
  real c s -> Forall (real c) l -> Forall (fun x => x = 0 \/ (pow2 lo <= value c x)%Q) (s :: l) -> (value c s + sum_exact c l < pow2 (hi + 1))%Q ->
  exists r, run_sum c s l = Ok r /\ real c r /\ (value c r <= value c s + sum_exact c l)%Q /\
    ((1 - pow2 (- f)) ^ Z.of_nat (length l) * (value c s + sum_exact c l) <= value c r)%Q.
Proof.
  intros V X MF Rm F1 FL FH SP RS RL HL U. inversion HL as [|? ? HS HT]; subst.
  destruct (sum_defined c V X MF f F1 lo hi FL FH Rm SP l s RS HS RL HT U) as (r & E). exists r. split; [exact E|].
  destruct (sum_positive c V X MF f F1 lo hi FL FH l s r RS (proj1 (zero_or_pos c V lo s RS HS)) RL HT U E) as (A & B & C). auto.
Qed.
Lemma dot_range c f lo hi s l : valid_cfg c -> exp_ok c -> mul_fits c -> roomy c -> 1 <= f -> f <= fracbits c lo -> f <= fracbits c hi -> hi - lo < Z.max 32 (cF c) ->
  real c s -> s = 0 \/ (pow2 lo <= value c s)%Q -> dot_real c l ->
  Forall (fun p => 0 <= fst p /\ 0 <= snd p /\ (fst p = 0 \/ snd p = 0 \/ (pow2 lo <= value c (fst p) * value c (snd p))%Q)) l -> (value c s + dot_exact c l < pow2 (hi + 1))%Q ->
  exists r, run_dot c s l = Ok r /\ real c r /\ (value c r <= value c s + dot_exact c l)%Q /\
    ((1 - pow2 (- f)) ^ Z.of_nat (length l) * (value c s + (1 - pow2 (- f)) * dot_exact c l) <= value c r)%Q.
Proof.
  intros V X MF Rm F1 FL FH SP RS HS RL HL U.
  destruct (dot_defined c V X MF f F1 lo hi FL FH Rm SP l s RS HS RL HL U) as (r & E). exists r. split; [exact E|].
  destruct (dot_positive c V X MF f F1 lo hi FL FH l s r RS (proj1 (zero_or_pos c V lo s RS HS)) RL HL U E) as (A & B & C). auto.
Qed.

(** ** Concrete cases *)
Lemma precise_by c f x e : (pow2 e <= Qabs x)%Q -> (Qabs x < pow2 (e + 1))%Q -> f <= fracbits c e -> precise c f x.
Proof. intros A B F. right. exists e. split; [split; assumption|exact F]. Qed.
Ltac scan e := first [apply (precise_by _ _ _ e); [vm_compute; discriminate|vm_compute; reflexivity|vm_compute; discriminate]].
Ltac prec := first [scan 0|scan 1|scan 2|scan 3|scan 4|scan 5|scan 6|scan (-1)|scan (-2)|scan (-3)|scan (-14)|scan (-15)|scan (-16)|scan (-13)|scan (-12)].
Ltac num := match goal with
  | |- precise _ _ _ => prec
  | |- valid_cfg _ => valid_hyp
  | |- real _ _ => unfold real; vm_compute; split; discriminate
  | |- (_ < _)%Q => vm_compute; reflexivity
  | |- (_ <= _)%Q => vm_compute; discriminate
  | |- _ < _ => vm_compute; reflexivity
  | |- _ <= _ => vm_compute; discriminate
  | |- _ = _ => vm_compute; reflexivity
  | |- exp_ok _ => compute_hyp
  | |- add_fits _ => compute_hyp
  | |- mul_fits _ => compute_hyp
  | |- roomy _ => compute_hyp
  | |- True => exact I
  | |- exists r, eval _ _ = Ok r => eexists; vm_compute; reflexivity
  end.
Ltac step := let x := fresh in let y := fresh in let A := fresh in let B := fresh in intros x y A B; vm_compute in A, B; injection A as <-; injection B as <-; prec.
Lemma cancellation : exists a b, real p16 a /\ real p16 b /\ (0 < value p16 a)%Q /\ (0 < value p16 b)%Q /\
  precise p16 10 (value p16 a + value p16 b) /\ eval p16 (Sub (Add (Lit a) (Lit b)) (Lit a)) = Ok 0.
Proof. exists 16384, 200. conj; num. Qed.
Lemma example_program : let e := Div (Mul (Add (OfInt 3) (OfInt 7)) (OfInt 10)) (OfInt 7) in
  valid_cfg p16_32 /\ exp_ok p16_32 /\ add_fits p16_32 /\ positive p16_32 e /\ precise_steps p16_32 8 e /\ (exists r, eval p16_32 e = Ok r) /\ roundings e = 6%nat /\
  let e' := Add (Mul (Lit 100) (OfInt 3)) (Lit 20000) in positive p16_32 e' /\ precise_steps p16_32 4 e' /\ no_division e' /\ exists r, eval p16_32 e' = Ok r.
Proof.
cbv zeta. cbn [positive precise_steps no_division]. conj; try num; try step.
Qed.
Lemma example_sums : valid_cfg p16_32 /\ exp_ok p16_32 /\ add_fits p16_32 /\ mul_fits p16_32 /\ roomy p16_32 /\ 7 <= fracbits p16_32 (-4) /\ 7 <= fracbits p16_32 7 /\ 7 - -4 < Z.max 32 (cF p16_32) /\
  real p16_32 22528 /\ Forall (real p16_32) [-26112; 9557] /\ sum_precise p16_32 8 22528 [-26112; 9557] /\ run_sum p16_32 22528 [-26112; 9557] = Ok (-23893) /\
  dot_real p16_32 [(22528, 26112); (26112, -16384)] /\ dot_precise p16_32 8 0 [(22528, 26112); (26112, -16384)] /\ run_dot p16_32 0 [(22528, 26112); (26112, -16384)] = Ok 28160 /\
  Forall (fun x => x = 0 \/ (pow2 (-4) <= value p16_32 x)%Q) [22528; 0; 26112] /\ (value p16_32 22528 + sum_exact p16_32 [0; 26112]%Z < pow2 8)%Q /\
  Forall (fun p => 0 <= fst p /\ 0 <= snd p /\ (fst p = 0 \/ snd p = 0 \/ (pow2 (-4) <= value p16_32 (fst p) * value p16_32 (snd p))%Q)) [(22528, 26112); (0, 5)] /\ (value p16_32 22528 + dot_exact p16_32 [(22528, 26112); (0, 5)]%Z < pow2 8)%Q.
Proof.
  conj; try num.
  - constructor; [num|]. constructor; [num|]. constructor.
  - cbn [sum_precise]. split; [num|]. intros r E. vm_compute in E. injection E as <-. split; [num|]. intros; exact I.
  - constructor; [split; num|]. constructor; [split; num|]. constructor.
  - cbn [dot_precise]. split; [num|]. intros p E. vm_compute in E. injection E as <-. split; [num|]. intros r E. vm_compute in E. injection E as <-. split; [num|].
    intros p E. vm_compute in E. injection E as <-. split; [num|]. intros; exact I.
  - constructor; [right; num|]. constructor; [left; num|]. constructor; [right; num|]. constructor.
  - constructor; [cbn [fst snd]; conj; [num|num|right; right; num]|]. constructor; [cbn [fst snd]; conj; [num|num|left; num]|]. constructor.
Qed.
