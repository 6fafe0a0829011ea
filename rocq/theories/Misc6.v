(** urDeltaPs of PositF. *)
From Coq Require Import ZArith QArith Qabs Lia Lqa Bool.
From Verif Require Import Res CInt Bits Cfg Spec SpecFloat Posit PositF FloatOps Unpacked Traits QPow Core SpecLemmas Arith DecodeProof EncodeProof UOps UAdd Ops Room Laws Configs Final1 Final2 Final4 Misc1
  FloatProof FloatProof2 PositFProof PositFProof2 PositFProof3 PositFProof4.
Open Scope Z_scope.

Lemma pf_delta c k rnd v : valid_cfg c -> cF c = f_hold k -> float_covers c (f_eb k) (f_fb k) -> et_holds c (f_eb k) ->
  (forall j, rounding (f_eb j) (f_fb j) (rnd j)) -> products_fit c (f_eb k) -> ces c = 0 -> real c v -> (0 <= value c v <= 1)%Q ->
  room_via c (f_eb k) (f_fb k) (value c v * (1 - value c v)) ->
  exists r, pf_urDeltaPs c k rnd v = Ok r /\ via_float c (f_eb k) (f_fb k) (value c v * (1 - value c v)) r.
Proof.
  intros V HF FC ET RN PF Z0 R B RM. vcb V. destruct (one_minus c v V Z0 R B) as (w & O & RW & VW).
  assert (PT : forall u, real c u -> pattern c u) by (intros u U; pose proof (real_bounds c BN Bes u U); unfold pattern; lia).
  assert (E : (value c v * value c w == value c v * (1 - value c v))%Q) by (rewrite VW; reflexivity).
  destruct (pf_mul_spec c k rnd V HF FC ET RN v w PF (PT v R) (PT w RW)) as (r & M & S).
  - rewrite !ext_of_real by assumption. eapply room_via_comp; [symmetry; exact E|exact RM].
  - exists r. unfold pf_urDeltaPs, pf_urOneMinus. rewrite O. cbn [bind]. split; [exact M|]. rewrite !ext_of_real in S by assumption. eapply via_float_comp; [assumption|exact E|exact S].
Qed.
