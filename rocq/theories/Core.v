(** Arithmetic of posit positions: the map between the pattern of a positive posit and its
    logarithmic coordinate (proof helper, not part of the model or of the specification). *)
From Coq Require Import ZArith QArith Lia Lqa Bool.
From Verif Require Import Spec QPow.
Open Scope Z_scope.

Ltac pow_pos b e := pose proof (Z.pow_pos_nonneg b e ltac:(lia) ltac:(lia)).

Lemma pow2_S n : 0 <= n -> 2 ^ (n + 1) = 2 * 2 ^ n.
Proof. intros; rewrite Z.pow_add_r by lia; lia. Qed.

Lemma pow2_mono a b : 0 <= a <= b -> 2 ^ a <= 2 ^ b.
Proof. intros; apply Z.pow_le_mono_r; lia. Qed.

Section Core.
Variable N : Z.
Hypothesis HN : 3 <= N.

Definition sft (k : Z) : Z := if 0 <=? k then k else - k - 1.
Definition base (k : Z) : Z := if 0 <=? k then 2 ^ (N - 1) - 2 ^ (N - 2 - k) else 2 ^ (N - 2 + k).
(** Number of posits in regime [k]. *)
Definition cnt (k : Z) : Z := if k =? N - 2 then 1 else 2 ^ (N - 3 - sft k).

Definition inreg (k : Z) : Prop := - (N - 2) <= k <= N - 2.

Lemma base_next k : inreg k -> k < N - 2 -> base (k + 1) = base k + cnt k.
Proof using HN.
  unfold inreg, base, cnt, sft. intros R L.
  destruct (Z.eqb_spec k (N - 2)); [lia|].
  destruct (Z.leb_spec 0 (k + 1)), (Z.leb_spec 0 k); try lia.
  - replace (N - 2 - k) with ((N - 2 - (k + 1)) + 1) by lia.
    rewrite pow2_S by lia. replace (N - 3 - k) with (N - 2 - (k + 1)) by lia. lia.
  - assert (k = -1) by lia. subst k. replace (N - 2 - (-1 + 1)) with (N - 2) by lia.
    replace (N - 1) with ((N - 2) + 1) by lia. rewrite pow2_S by lia.
    replace (N - 2 + -1) with (N - 3) by lia.
    replace (N - 3 - (- -1 - 1)) with (N - 3) by lia.
    replace (N - 2) with ((N - 3) + 1) by lia. rewrite pow2_S by lia. lia.
  - replace (N - 2 + (k + 1)) with ((N - 2 + k) + 1) by lia. rewrite pow2_S by lia.
    replace (N - 3 - (- k - 1)) with (N - 2 + k) by lia. lia.
Qed.

Lemma cnt_pos k : inreg k -> 0 < cnt k.
Proof using HN.
  unfold inreg, cnt, sft. intros R. destruct (Z.eqb_spec k (N - 2)); [lia|].
  apply Z.pow_pos_nonneg; [lia|]. destruct (Z.leb_spec 0 k); lia.
Qed.

Lemma base_lt k k' : inreg k -> inreg k' -> k < k' -> base k + cnt k <= base k'.
Proof using HN.
  intros R R' L.
  replace k' with (k + 1 + Z.of_nat (Z.to_nat (k' - k - 1))) by lia.
  assert (Q : k + 1 + Z.of_nat (Z.to_nat (k' - k - 1)) <= N - 2) by (unfold inreg in *; lia).
  revert Q. generalize (Z.to_nat (k' - k - 1)) as n.
  induction n as [|n IH]; intros Q.
  - replace (k + 1 + Z.of_nat 0) with (k + 1) by lia. rewrite base_next; unfold inreg in *; lia.
  - replace (k + 1 + Z.of_nat (S n)) with ((k + 1 + Z.of_nat n) + 1) by lia.
    rewrite base_next by (unfold inreg in *; lia).
    pose proof (cnt_pos (k + 1 + Z.of_nat n) ltac:(unfold inreg in *; lia)).
    specialize (IH ltac:(lia)). lia.
Qed.

Lemma base_first : base (- (N - 2)) = 1.
Proof using HN.
  unfold base. destruct (Z.leb_spec 0 (- (N - 2))); [lia|].
  replace (N - 2 + - (N - 2)) with 0 by lia. reflexivity.
Qed.
Lemma base_last : base (N - 2) = 2 ^ (N - 1) - 1.
Proof using HN.
  unfold base. destruct (Z.leb_spec 0 (N - 2)); [|lia].
  replace (N - 2 - (N - 2)) with 0 by lia. reflexivity.
Qed.
Lemma base_last2 : base (N - 3) = 2 ^ (N - 1) - 2.
Proof using HN.
  unfold base. destruct (Z.leb_spec 0 (N - 3)); [|lia].
  replace (N - 2 - (N - 3)) with 1 by lia. reflexivity.
Qed.
Lemma base_0 : base 0 = 2 ^ (N - 2).
Proof using HN.
  unfold base. cbn [Z.leb Z.compare]. replace (N - 2 - 0) with (N - 2) by lia.
  replace (N - 1) with ((N - 2) + 1) by lia. rewrite pow2_S by lia. lia.
Qed.

Lemma base_bounds k : inreg k -> 1 <= base k /\ base k + cnt k <= 2 ^ (N - 1).
Proof using HN.
  intros R. split.
  - destruct (Z.eq_dec k (- (N - 2))) as [->|].
    + rewrite base_first. lia.
    + pose proof (base_lt (- (N - 2)) k ltac:(unfold inreg in *; lia) R ltac:(unfold inreg in *; lia)) as B.
      pose proof (cnt_pos (- (N - 2)) ltac:(unfold inreg in *; lia)). rewrite base_first in B. lia.
  - destruct (Z.eq_dec k (N - 2)) as [->|].
    + rewrite base_last. unfold cnt. rewrite Z.eqb_refl. lia.
    + pose proof (base_lt k (N - 2) R ltac:(unfold inreg in *; lia) ltac:(unfold inreg in *; lia)) as B.
      rewrite base_last in B. lia.
Qed.

(** Regime of a positive pattern. *)
Definition reg (p : Z) : Z :=
  if p <? 2 ^ (N - 2) then Z.log2 p - (N - 2)
  else if p =? 2 ^ (N - 1) - 1 then N - 2
  else N - 3 - Z.log2 (2 ^ (N - 1) - 1 - p).

Lemma reg_spec p : 1 <= p < 2 ^ (N - 1) ->
  inreg (reg p) /\ base (reg p) <= p < base (reg p) + cnt (reg p).
Proof using HN.
  intros P. unfold reg.
  assert (E1 : 2 ^ (N - 1) = 2 * 2 ^ (N - 2))
    by (replace (N - 1) with ((N - 2) + 1) by lia; apply pow2_S; lia).
  destruct (Z.ltb_spec p (2 ^ (N - 2))) as [L|L].
  - pose proof (Z.log2_spec p ltac:(lia)) as S. pose proof (Z.log2_nonneg p).
    assert (Z.log2 p < N - 2) by (apply Z.log2_lt_pow2; lia).
    split; [unfold inreg; lia|].
    unfold base, cnt, sft. destruct (Z.leb_spec 0 (Z.log2 p - (N - 2))); [lia|].
    destruct (Z.eqb_spec (Z.log2 p - (N - 2)) (N - 2)); [lia|].
    replace (N - 2 + (Z.log2 p - (N - 2))) with (Z.log2 p) by lia.
    replace (N - 3 - (- (Z.log2 p - (N - 2)) - 1)) with (Z.log2 p) by lia.
    replace (Z.succ (Z.log2 p)) with (Z.log2 p + 1) in S by lia. rewrite pow2_S in S by lia. lia.
  - destruct (Z.eqb_spec p (2 ^ (N - 1) - 1)) as [E|E].
    + split; [unfold inreg; lia|]. rewrite base_last. unfold cnt. rewrite Z.eqb_refl. lia.
    + set (q := 2 ^ (N - 1) - 1 - p).
      assert (Q : 1 <= q < 2 ^ (N - 2)) by lia.
      pose proof (Z.log2_spec q ltac:(lia)) as S. pose proof (Z.log2_nonneg q).
      assert (Z.log2 q < N - 2) by (apply Z.log2_lt_pow2; lia).
      split; [unfold inreg; lia|].
      unfold base, cnt, sft. destruct (Z.leb_spec 0 (N - 3 - Z.log2 q)); [|lia].
      destruct (Z.eqb_spec (N - 3 - Z.log2 q) (N - 2)); [lia|].
      replace (N - 2 - (N - 3 - Z.log2 q)) with (Z.log2 q + 1) by lia.
      replace (N - 3 - (N - 3 - Z.log2 q)) with (Z.log2 q) by lia.
      replace (Z.succ (Z.log2 q)) with (Z.log2 q + 1) in S by lia.
      rewrite pow2_S in * by lia. unfold q in *. lia.
Qed.

Lemma reg_unique p k : inreg k -> base k <= p < base k + cnt k -> reg p = k.
Proof using HN.
  intros R B. pose proof (base_bounds k R) as [B1 B2].
  destruct (reg_spec p ltac:(lia)) as [R' B'].
  destruct (Z.lt_trichotomy (reg p) k) as [L|[E|L]]; [|assumption|].
  - pose proof (base_lt _ _ R' R L). lia.
  - pose proof (base_lt _ _ R R' L). lia.
Qed.

(** Logarithmic coordinate of the positive pattern [p], in steps of 2^-(N-3-es). *)
Definition pdec (p : Z) : Z := reg p * 2 ^ (N - 3) + (p - base (reg p)) * 2 ^ sft (reg p).

Lemma sft_bound k : inreg k -> 0 <= sft k /\ (k <> N - 2 -> sft k <= N - 3) /\ sft k <= N - 2.
Proof using HN. unfold inreg, sft. intros. destruct (Z.leb_spec 0 k); lia. Qed.

Lemma rem_bound k r : inreg k -> 0 <= r < cnt k -> 0 <= r * 2 ^ sft k < 2 ^ (N - 3).
Proof using HN.
  intros R B. destruct (sft_bound k R) as [S0 [S1 S2]].
  pow_pos 2 (sft k). unfold cnt in B.
  destruct (Z.eqb_spec k (N - 2)) as [E|E].
  - assert (r = 0) by lia. subst r. pow_pos 2 (N - 3). lia.
  - specialize (S1 E). split; [nia|].
    replace (N - 3) with ((N - 3 - sft k) + sft k) at 1 by lia.
    rewrite Z.pow_add_r by lia. nia.
Qed.

(** Pattern selected by a coordinate (truncation). *)
Definition ppk (y : Z) : Z :=
  base (y / 2 ^ (N - 3)) + (y mod 2 ^ (N - 3)) / 2 ^ sft (y / 2 ^ (N - 3)).

Definition yrange (y : Z) : Prop := inreg (y / 2 ^ (N - 3)).

Lemma kt_div k t : 0 <= t < 2 ^ (N - 3) -> (k * 2 ^ (N - 3) + t) / 2 ^ (N - 3) = k.
Proof using HN. intros. rewrite Z.add_comm, Z.div_add by lia. rewrite Z.div_small; lia. Qed.
Lemma kt_mod k t : 0 <= t < 2 ^ (N - 3) -> (k * 2 ^ (N - 3) + t) mod 2 ^ (N - 3) = t.
Proof using HN. intros. rewrite Z.add_comm, Z.mod_add by lia. rewrite Z.mod_small; lia. Qed.

Lemma tdiv_cnt k t : inreg k -> 0 <= t < 2 ^ (N - 3) -> 0 <= t / 2 ^ sft k < cnt k.
Proof using HN.
  intros R T. destruct (sft_bound k R) as [S0 [S1 S2]]. pow_pos 2 (sft k).
  split; [apply Z.div_pos; lia|].
  unfold cnt. destruct (Z.eqb_spec k (N - 2)) as [E|E].
  - subst k. rewrite Z.div_small; [lia|]. unfold sft. destruct (Z.leb_spec 0 (N - 2)); [|lia].
    pose proof (pow2_mono (N - 3) (N - 2) ltac:(lia)). lia.
  - apply Z.div_lt_upper_bound; [lia|]. rewrite <- Z.pow_add_r by (specialize (S1 E); lia).
    replace (sft k + (N - 3 - sft k)) with (N - 3) by lia. lia.
Qed.

Lemma ppk_bounds y : yrange y -> 1 <= ppk y < 2 ^ (N - 1).
Proof using HN.
  unfold yrange, ppk. intros R. pow_pos 2 (N - 3).
  pose proof (Z.mod_pos_bound y (2 ^ (N - 3)) ltac:(lia)) as M.
  pose proof (tdiv_cnt _ _ R M). pose proof (base_bounds _ R). lia.
Qed.

Lemma ppk_reg y : yrange y -> reg (ppk y) = y / 2 ^ (N - 3).
Proof using HN.
  intros R. unfold ppk. pow_pos 2 (N - 3).
  pose proof (Z.mod_pos_bound y (2 ^ (N - 3)) ltac:(lia)) as M.
  pose proof (tdiv_cnt _ _ R M).
  apply reg_unique; [exact R|lia].
Qed.

Lemma pdec_range p : 1 <= p < 2 ^ (N - 1) -> yrange (pdec p) /\ pdec p / 2 ^ (N - 3) = reg p.
Proof using HN.
  intros P. destruct (reg_spec p P) as [R B]. unfold yrange, pdec.
  rewrite kt_div by (apply rem_bound; [assumption|lia]). auto.
Qed.

Lemma ppk_pdec p : 1 <= p < 2 ^ (N - 1) -> ppk (pdec p) = p.
Proof using HN.
  intros P. destruct (reg_spec p P) as [R B].
  pose proof (rem_bound _ (p - base (reg p)) R ltac:(lia)) as T.
  unfold ppk, pdec. rewrite kt_div, kt_mod by assumption.
  pose proof (sft_bound _ R). rewrite Z.div_mul; [lia|].
  pow_pos 2 (sft (reg p)). lia.
Qed.

(** Galois connection between coordinates and patterns. *)
Lemma galois p y : 1 <= p < 2 ^ (N - 1) -> yrange y -> (p <= ppk y <-> pdec p <= y).
Proof using HN.
  intros P R. destruct (reg_spec p P) as [R' B].
  pose proof (rem_bound _ (p - base (reg p)) R' ltac:(lia)) as T.
  pow_pos 2 (N - 3).
  pose proof (Z.mod_pos_bound y (2 ^ (N - 3)) ltac:(lia)) as M.
  pose proof (Z.div_mod y (2 ^ (N - 3)) ltac:(lia)) as D.
  pose proof (tdiv_cnt _ _ R M) as C.
  unfold yrange in R. unfold ppk, pdec.
  set (k := y / 2 ^ (N - 3)) in *. set (t := y mod 2 ^ (N - 3)) in *.
  destruct (Z.lt_trichotomy k (reg p)) as [L|[E|L]].
  - pose proof (base_lt _ _ R R' L). split; intros; nia.
  - rewrite <- E in *. pose proof (sft_bound _ R).
    pow_pos 2 (sft k).
    split; intros I.
    + assert (p - base k <= t / 2 ^ sft k) by lia.
      pose proof (Z.mul_div_le t (2 ^ sft k) ltac:(lia)). nia.
    + assert ((p - base k) * 2 ^ sft k <= t) by nia.
      assert (p - base k <= t / 2 ^ sft k) by (apply Z.div_le_lower_bound; lia). lia.
  - pose proof (base_lt _ _ R' R L). split; intros; nia.
Qed.

Lemma pdec_lt p q : 1 <= p -> p < q -> q < 2 ^ (N - 1) -> pdec p < pdec q.
Proof using HN.
  intros A B C.
  destruct (Z_lt_le_dec (pdec p) (pdec q)) as [|L]; [assumption|exfalso].
  destruct (pdec_range p ltac:(lia)) as [R _].
  apply galois in L; [|lia|assumption]. rewrite ppk_pdec in L by lia. lia.
Qed.
Lemma pdec_le p q : 1 <= p -> p <= q -> q < 2 ^ (N - 1) -> pdec p <= pdec q.
Proof using HN.
  intros. destruct (Z.eq_dec p q) as [->|]; [lia|]. pose proof (pdec_lt p q). lia.
Qed.
Lemma pdec_le_inv p q : 1 <= p < 2 ^ (N - 1) -> 1 <= q < 2 ^ (N - 1) -> pdec p <= pdec q -> p <= q.
Proof using HN.
  intros. destruct (Z_le_gt_dec p q) as [|L]; [assumption|]. pose proof (pdec_lt q p). lia.
Qed.

Lemma pdec_first : pdec 1 = - (N - 2) * 2 ^ (N - 3).
Proof using HN.
  assert (E : reg 1 = - (N - 2)).
  { apply reg_unique; [unfold inreg; lia|]. rewrite base_first.
    pose proof (cnt_pos (- (N - 2)) ltac:(unfold inreg; lia)). lia. }
  unfold pdec. rewrite E, base_first. lia.
Qed.
Lemma pdec_last : pdec (2 ^ (N - 1) - 1) = (N - 2) * 2 ^ (N - 3).
Proof using HN.
  assert (E : reg (2 ^ (N - 1) - 1) = N - 2).
  { apply reg_unique; [unfold inreg; lia|]. rewrite base_last. unfold cnt. rewrite Z.eqb_refl. lia. }
  unfold pdec. rewrite E, base_last. lia.
Qed.
Lemma pdec_last2 : pdec (2 ^ (N - 1) - 2) = (N - 3) * 2 ^ (N - 3).
Proof using HN.
  assert (E : reg (2 ^ (N - 1) - 2) = N - 3).
  { apply reg_unique; [unfold inreg; lia|]. rewrite base_last2.
    pose proof (cnt_pos (N - 3) ltac:(unfold inreg; lia)). lia. }
  unfold pdec. rewrite E, base_last2. lia.
Qed.
End Core.
