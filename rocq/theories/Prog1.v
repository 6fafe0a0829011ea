(** Every operation keeps values inside the format. *)
From Coq Require Import ZArith QArith Lia Bool List.
From Verif Require Import Res CInt Bits Traits Cfg Spec SpecFloat Unpacked Posit Posit2 QPow Core SpecLemmas Arith DecodeProof EncodeProof Ops OpsAdd OpsUnary OpsUnary2
  Final1 Final2 Final4 Conv1 Conv2 SpecProg.
Import ListNotations.
Open Scope Z_scope.

(** Unpacked numbers whose fraction is one of FT; those that are finite. *)
Definition uok (F : Z) (u : unpacked) : Prop := 0 <= ufrac u < 2 ^ F.
Definition ufin (u : unpacked) : Prop := utyp u = Regular \/ utyp u = Zero.

Lemma cast_u_range F z : 0 <= F -> 0 <= cast (uint F) z < 2 ^ F.
Proof. intros H. rewrite cast_u. apply Z.mod_pos_bound. pow_pos 2 F. lia. Qed.
Lemma mk_ok F E e f n : 0 <= F -> uok F (u_mk F E e f n). Proof. intros H. apply cast_u_range. exact H. Qed.
Lemma sp_ok F t n : 0 <= F -> uok F (u_special t n). Proof. intros H. unfold uok. cbn [u_special ufrac]. pow_pos 2 F. lia. Qed.
Lemma normalized_ok F E u r : 0 <= F -> u_normalized F E u = Ok r -> uok F r /\ ufin r.
Proof.
  intros H. unfold u_normalized. destruct (ufrac u =? 0).
  - intros O. injection O as <-. split; [apply sp_ok; exact H|right; reflexivity].
  - destruct (findbitleftmostC F (ufrac u)); [|discriminate]. cbn [bind]. destruct (csub _ _ _); [|discriminate]. cbn [bind]. destruct (cshl _ _ _); [|discriminate]. cbn [bind].
    intros O. injection O as <-. split; [apply mk_ok; exact H|left; reflexivity].
Qed.
Ltac inv_binds O := repeat match type of O with
  | bind ?x _ = Ok _ => let z := fresh "z" in destruct x as [z|]; [cbn [bind] in O|discriminate O]
  end.
Lemma uadd_ok F E a b r : 0 <= F -> uok F a -> uok F b -> u_add F E a b = Ok r -> uok F r /\ (ufin a -> ufin b -> ufin r).
Proof.
  intros H A B O. unfold u_add in O. destruct (u_isNaN a || u_isNaN b) eqn:N.
  { injection O as <-. split; [exact A|auto]. }
  destruct (utyp a) eqn:Ta, (utyp b) eqn:Tb;
    try (exfalso; unfold u_isNaN in N; rewrite Ta, Tb in N; discriminate N);
    try (injection O as <-; split; [first [exact A|exact B]|unfold ufin; rewrite ?Ta, ?Tb; auto]; fail);
    try (destruct (Bool.eqb (uneg a) (uneg b)); injection O as <-; (split; [first [exact A|apply sp_ok; exact H]|unfold ufin; rewrite ?Ta, ?Tb; intros [D|D]; discriminate D]); fail).
  inv_binds O. destruct (normalized_ok _ _ _ _ H O). auto.
Qed.
Lemma umul_ok F E a b r : 0 <= F -> uok F a -> u_mul F E a b = Ok r -> uok F r /\ (ufin a -> ufin b -> ufin r).
Proof.
  intros H A O. unfold u_mul in O. destruct (u_isNaN a || u_isNaN b) eqn:N.
  { injection O as <-. split; [exact A|auto]. }
  assert (K : forall t n, uok F (u_special t n)) by (intros; apply sp_ok; exact H).
  destruct (utyp a) eqn:Ta, (utyp b) eqn:Tb;
    try (destruct (xorb (uneg a) (uneg b)); injection O as <-; (split; [apply K|unfold ufin; rewrite ?Ta, ?Tb; intros [D|D] [D'|D']; (discriminate D || discriminate D')]); fail);
    try (injection O as <-; (split; [apply K|unfold ufin; cbn [utyp u_zero u_special u_nan]; rewrite ?Ta, ?Tb; (auto || (intros [D|D] [D'|D']; (discriminate D || discriminate D')))]); fail).
  inv_binds O. injection O as <-. split; [apply mk_ok; exact H|left; reflexivity].
Qed.
Lemma udiv_ok F E a b r : 0 <= F -> uok F a -> u_div F E a b = Ok r -> uok F r /\ (ufin a -> utyp b = Regular -> ufin r).
Proof.
  intros H A O. unfold u_div in O. destruct (u_isNaN a || u_isNaN b) eqn:N.
  { injection O as <-. split; [exact A|auto]. }
  assert (K : forall t n, uok F (u_special t n)) by (intros; apply sp_ok; exact H).
  destruct (utyp a) eqn:Ta, (utyp b) eqn:Tb;
    try (destruct (xorb (uneg a) (uneg b)); injection O as <-; (split; [apply K|unfold ufin; rewrite ?Ta, ?Tb; intros [D|D] D'; (discriminate D || discriminate D')]); fail);
    try (injection O as <-; (split; [first [exact A|apply K]|unfold ufin; cbn [utyp u_zero u_special u_nan]; rewrite ?Ta, ?Tb; (auto || (intros [D|D] D'; (discriminate D || discriminate D')))]); fail).
  inv_binds O. injection O as <-. split; [apply mk_ok; exact H|left; reflexivity].
Qed.
Lemma uinv_ok F E u r : 0 <= F -> uok F u -> u_inv F E u = Ok r -> uok F r.
Proof.
  intros H A O. unfold u_inv in O. destruct (utyp u); try (injection O as <-; first [exact A|apply sp_ok; exact H]).
  destruct (ufrac u =? 0); inv_binds O; injection O as <-; apply mk_ok; exact H.
Qed.

Section ops.
Context (c : cfg) (V : valid_cfg c) (X : exp_ok c).
Notation F := (cF c).

Lemma F_nonneg : 0 <= F. Proof using V. pose proof (is_width_pos _ (vc_F c V)). lia. Qed.
Lemma real_pattern v : real c v -> pattern c v.
Proof using V. intros R. vcb V. pose proof (real_bounds c BN Bes v R). unfold pattern. lia. Qed.
Lemma zero_real : real c 0.
Proof using V. vcb V. unfold real. pose proof (maxreal_bounds c BN Bes). lia. Qed.
Lemma exceptional_pattern : pattern c (exceptional c).
Proof using V. vcb V. unfold pattern, exceptional. pow_pos 2 (cN c - 1). lia. Qed.
Lemma inf_pattern n : pattern c (inf_of c n).
Proof using V. vcb V. unfold pattern, inf_of. pow_pos 2 (cN c - 1). destruct (csp c), n; lia. Qed.
Lemma unpack_ok v u : pattern c v -> unpack c v = Ok u -> uok F u /\ (real c v -> ufin u) /\ (real c v -> v <> 0 -> utyp u = Regular).
Proof using V.
  intros P O. pose proof F_nonneg as HF. pow_pos 2 (cF c).
  assert (S0 : forall t n, uok F (U t n 0 0)) by (intros; unfold uok; cbn [ufrac]; lia).
  destruct (kinds_disjoint c v V) as (_ & D1 & D2 & _).
  destruct (classify c v V P) as [[E U1]|[[E U1]|[[E U1]|(R & NZ & _)]]]; try (rewrite U1 in O; injection O as <-).
  - split; [apply S0|]. split; [right; reflexivity|congruence].
  - split; [apply S0|]. split; intros R; exfalso; apply D1; split; assumption.
  - split; [apply S0|]. split; intros R; exfalso; apply D2; split; assumption.
  - destruct (decode_trunc c v V R NZ) as (e & f & U1 & B & _). rewrite U1 in O. injection O as <-. split; [exact B|]. split; [left; reflexivity|reflexivity].
Qed.
Lemma pack_ok u r : uok F u -> pack_posit c u = Ok r -> pattern c r /\ (ufin u -> real c r).
Proof using V X.
  intros B O. vcb V. destruct u as [t n e f]. unfold uok in B. cbn [ufrac] in B. destruct (pack_specials c n e f V) as (Z1 & Z2 & Z3). destruct t.
  - assert (R : real c r) by (eapply rounds_tz_real; [assumption|assumption|exact (pack_value c n e f r V X B O)]). split; [apply real_pattern; exact R|auto].
  - rewrite Z3 in O. injection O as <-. split; [apply inf_pattern|intros [D|D]; discriminate D].
  - rewrite Z2 in O. injection O as <-. split; [apply exceptional_pattern|intros [D|D]; discriminate D].
  - rewrite Z1 in O. injection O as <-. split; [apply real_pattern, zero_real|intros _; apply zero_real].
Qed.

Lemma mul_closed a b r : pattern c a -> pattern c b -> p_mul c a b = Ok r -> pattern c r /\ (real c a -> real c b -> real c r).
Proof using V X.
  intros A B O. unfold p_mul in O. destruct (unpack c a) as [ua|] eqn:Ua; [cbn [bind] in O|discriminate O]. destruct (unpack c b) as [ub|] eqn:Ub; [cbn [bind] in O|discriminate O].
  destruct (unpack_ok a ua A Ua) as (A1 & A2 & _). destruct (unpack_ok b ub B Ub) as (B1 & B2 & _).
  destruct (u_mul F (c_E c) ua ub) as [m|] eqn:M; [cbn [bind] in O|discriminate O]. destruct (umul_ok _ _ _ _ _ F_nonneg A1 M) as [M1 M2]. destruct (pack_ok m r M1 O). split; auto.
Qed.
Lemma div_closed a b r : pattern c a -> pattern c b -> p_div c a b = Ok r -> pattern c r /\ (real c a -> real c b -> b <> 0 -> real c r).
Proof using V X.
  intros A B O. unfold p_div in O. destruct (unpack c a) as [ua|] eqn:Ua; [cbn [bind] in O|discriminate O]. destruct (unpack c b) as [ub|] eqn:Ub; [cbn [bind] in O|discriminate O].
  destruct (unpack_ok a ua A Ua) as (A1 & A2 & _). destruct (unpack_ok b ub B Ub) as (B1 & B2 & B3).
  destruct (u_div F (c_E c) ua ub) as [m|] eqn:M; [cbn [bind] in O|discriminate O]. destruct (udiv_ok _ _ _ _ _ F_nonneg A1 M) as [M1 M2]. destruct (pack_ok m r M1 O). split; auto.
Qed.
Lemma fma_closed a b d r : pattern c a -> pattern c b -> pattern c d -> p_fma c a b d = Ok r -> pattern c r /\ (real c a -> real c b -> real c d -> real c r).
Proof using V X.
  intros A B D O. unfold p_fma in O. destruct (unpack c a) as [ua|] eqn:Ua; [cbn [bind] in O|discriminate O]. destruct (unpack c b) as [ub|] eqn:Ub; [cbn [bind] in O|discriminate O].
  destruct (unpack_ok a ua A Ua) as (A1 & A2 & _). destruct (unpack_ok b ub B Ub) as (B1 & B2 & _).
  destruct (u_mul F (c_E c) ua ub) as [m|] eqn:M; [cbn [bind] in O|discriminate O]. destruct (umul_ok _ _ _ _ _ F_nonneg A1 M) as [M1 M2].
  destruct (unpack c d) as [ud|] eqn:Ud; [cbn [bind] in O|discriminate O]. destruct (unpack_ok d ud D Ud) as (D1 & D2 & _).
  destruct (u_add F (c_E c) m ud) as [s|] eqn:S; [cbn [bind] in O|discriminate O]. destruct (uadd_ok _ _ _ _ _ F_nonneg M1 D1 S) as [S1 S2]. destruct (pack_ok s r S1 O). split; auto 6.
Qed.
Lemma add_closed a b r : pattern c a -> pattern c b -> p_add c a b = Ok r -> pattern c r /\ (real c a -> real c b -> real c r).
Proof using V X.
  intros A B O. unfold p_add in O. destruct (iszero a); [injection O as <-; auto|]. destruct (iszero b); [injection O as <-; auto|].
  destruct (unpack c a) as [ua|] eqn:Ua; [cbn [bind] in O|discriminate O]. destruct (unpack c b) as [ub|] eqn:Ub; [cbn [bind] in O|discriminate O].
  destruct (unpack_ok a ua A Ua) as (A1 & A2 & _). destruct (unpack_ok b ub B Ub) as (B1 & B2 & _).
  destruct (u_add F (c_E c) ua ub) as [s|] eqn:S; [cbn [bind] in O|discriminate O]. destruct (uadd_ok _ _ _ _ _ F_nonneg A1 B1 S) as [S1 S2]. destruct (pack_ok s r S1 O). split; auto.
Qed.
Lemma acc_ok l : forall u r, uok F u -> Forall (fun p => pattern c (fst p) /\ pattern c (snd p)) l -> dot_acc c u l = Ok r ->
  uok F r /\ (ufin u -> Forall (fun p => real c (fst p) /\ real c (snd p)) l -> ufin r).
Proof using V.
  induction l as [|[x y] l IH]; intros u r U0 H O; cbn [dot_acc] in O.
  - injection O as <-. auto.
  - apply Forall_cons_iff in H. destruct H as [[A B] H]. cbn [fst snd] in A, B.
    destruct (unpack c x) as [ua|] eqn:Ua; [cbn [bind] in O|discriminate O]. destruct (unpack c y) as [ub|] eqn:Ub; [cbn [bind] in O|discriminate O].
    destruct (unpack_ok x ua A Ua) as (A1 & A2 & _). destruct (unpack_ok y ub B Ub) as (B1 & B2 & _).
    destruct (u_mul F (c_E c) ua ub) as [m|] eqn:M; [cbn [bind] in O|discriminate O]. destruct (umul_ok _ _ _ _ _ F_nonneg A1 M) as [M1 M2].
    destruct (u_add F (c_E c) u m) as [s|] eqn:S; [cbn [bind] in O|discriminate O]. destruct (uadd_ok _ _ _ _ _ F_nonneg U0 M1 S) as [S1 S2].
    destruct (IH s r S1 H O) as [I1 I2]. split; [exact I1|]. intros Uf RR. apply Forall_cons_iff in RR. destruct RR as [[Rx Ry] RR]. cbn [fst snd] in Rx, Ry. apply I2; auto.
Qed.
Lemma dot_closed l r : Forall (fun p => pattern c (fst p) /\ pattern c (snd p)) l -> p_dot c l = Ok r ->
  pattern c r /\ (Forall (fun p => real c (fst p) /\ real c (snd p)) l -> real c r).
Proof using V X.
  intros H O. destruct l as [|[x y] l]; cbn [p_dot] in O; [injection O as <-; split; [apply real_pattern, zero_real|intros _; apply zero_real]|].
  apply Forall_cons_iff in H. destruct H as [[A B] H]. cbn [fst snd] in A, B.
  destruct (unpack c x) as [ua|] eqn:Ua; [cbn [bind] in O|discriminate O]. destruct (unpack c y) as [ub|] eqn:Ub; [cbn [bind] in O|discriminate O].
  destruct (unpack_ok x ua A Ua) as (A1 & A2 & _). destruct (unpack_ok y ub B Ub) as (B1 & B2 & _).
  destruct (u_mul F (c_E c) ua ub) as [m|] eqn:M; [cbn [bind] in O|discriminate O]. destruct (umul_ok _ _ _ _ _ F_nonneg A1 M) as [M1 M2].
  destruct (dot_acc c m l) as [s|] eqn:S; [cbn [bind] in O|discriminate O]. destruct (acc_ok l m s M1 H S) as [S1 S2]. destruct (pack_ok s r S1 O) as [P1 P2]. split; [exact P1|].
  intros RR. apply Forall_cons_iff in RR. destruct RR as [[Rx Ry] RR]. cbn [fst snd] in Rx, Ry. auto.
Qed.
Lemma pm_closed a b d g s r : pattern c a -> pattern c b -> pattern c d -> pattern c g -> (if s : bool then pm_sub c (a, b) (d, g) else pm_add c (a, b) (d, g)) = Ok r ->
  pattern c r /\ (real c a -> real c b -> real c d -> real c g -> real c r).
Proof using V X.
  intros A B D G O.
  assert (O' : (let! ua := unpack c a in let! ub := unpack c b in let! x := u_mul F (c_E c) ua ub in let! ud := unpack c d in let! ug := unpack c g in let! y := u_mul F (c_E c) ud ug in
    let! r := u_add F (c_E c) x (if s then u_neg F (c_E c) y else y) in pack_posit c r) = Ok r) by (destruct s; exact O). clear O. rename O' into O.
  destruct (unpack c a) as [ua|] eqn:Ua; [cbn [bind] in O|discriminate O]. destruct (unpack c b) as [ub|] eqn:Ub; [cbn [bind] in O|discriminate O].
  destruct (unpack_ok a ua A Ua) as (A1 & A2 & _). destruct (unpack_ok b ub B Ub) as (B1 & B2 & _).
  destruct (u_mul F (c_E c) ua ub) as [x|] eqn:M; [cbn [bind] in O|discriminate O]. destruct (umul_ok _ _ _ _ _ F_nonneg A1 M) as [M1 M2].
  destruct (unpack c d) as [ud|] eqn:Ud; [cbn [bind] in O|discriminate O]. destruct (unpack c g) as [ug|] eqn:Ug; [cbn [bind] in O|discriminate O].
  destruct (unpack_ok d ud D Ud) as (D1 & D2 & _). destruct (unpack_ok g ug G Ug) as (G1 & G2 & _).
  destruct (u_mul F (c_E c) ud ug) as [y|] eqn:M'; [cbn [bind] in O|discriminate O]. destruct (umul_ok _ _ _ _ _ F_nonneg D1 M') as [N1 N2].
  destruct (u_add F (c_E c) x (if s then u_neg F (c_E c) y else y)) as [t|] eqn:S; [cbn [bind] in O|discriminate O].
  assert (Y1 : uok F (if s then u_neg F (c_E c) y else y)) by (destruct s; [apply mk_ok, F_nonneg|exact N1]).
  assert (Y2 : ufin y -> ufin (if s then u_neg F (c_E c) y else y)) by (destruct s; [intros _; left; reflexivity|auto]).
  destruct (uadd_ok _ _ _ _ _ F_nonneg M1 Y1 S) as [S1 S2]. destruct (pack_ok t r S1 O). split; auto 8.
Qed.

Lemma holder_pattern x : cN c = cH c -> pattern c (deep c x).
Proof using V. intros E. vcb V. unfold pattern, deep, tS. rewrite E. unfold cast, sint, wraps. cbn [isg iw].
  pose proof (is_width_pos _ (vc_H c V)). pow_pos 2 (cH c - 1). assert (S : 2 ^ cH c = 2 * 2 ^ (cH c - 1)) by (replace (cH c) with (cH c - 1 + 1) at 1 by lia; apply pow2_S; lia).
  pose proof (Z.mod_pos_bound (x + 2 ^ (cH c - 1)) (2 ^ cH c)). lia. Qed.
Lemma neg_pattern v r : pattern c v -> cN c = cH c \/ v <> exceptional c -> p_neg c v = Ok r -> pattern c r.
Proof using V.
  intros P H O. vcb V. pose proof (pwH_bound c V) as PB. destruct (Z.eq_dec v (exceptional c)) as [E|NE].
  - destruct H as [H|H]; [|contradiction]. unfold p_neg in O. destruct (cneg _ v); [|discriminate O]. cbn [bind] in O. injection O as <-. apply holder_pattern. exact H.
  - unfold pattern, exceptional in *. unfold p_neg, cneg, tS in O. rewrite arith_ps in O by (try apply (vc_H _ V); lia). cbn [bind] in O. injection O as <-. unfold deep, tS. rewrite cast_s_small by lia. lia.
Qed.
Lemma abs_pattern v r : pattern c v -> cN c = cH c \/ v <> exceptional c -> p_abs c v = Ok r -> pattern c r.
Proof using V.
  intros P H O. vcb V. pose proof (pwH_bound c V) as PB. unfold p_abs, pcabs in O. destruct (Z.ltb_spec v 0).
  - destruct (Z.eq_dec v (exceptional c)) as [E|NE].
    + destruct H as [H|H]; [|contradiction]. destruct (cneg _ v); [|discriminate O]. cbn [bind] in O. injection O as <-. apply holder_pattern. exact H.
    + unfold pattern, exceptional in *. unfold cneg in O. rewrite arith_ps in O by (try apply (vc_H _ V); lia). cbn [bind] in O. injection O as <-. unfold deep, tS. rewrite !cast_s_small by (rewrite ?cast_s_small; lia). lia.
  - cbn [bind] in O. injection O as <-. unfold pattern in *. unfold deep, tS. rewrite cast_s_small by lia. lia.
Qed.
End ops.
