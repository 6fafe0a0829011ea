(** The textbook value of a pattern in terms of its logarithmic coordinate. *)
From Coq Require Import ZArith QArith Lia Lqa Bool List.
From Verif Require Import Cfg Spec QPow Core.
Import ListNotations.
Open Scope Z_scope.

Lemma bits_of_len n z : length (bits_of n z) = n.
Proof. induction n; cbn; auto. Qed.

Lemma bits_of_low b x y : 0 <= y < 2 ^ Z.of_nat b ->
  forall n, (n <= b)%nat -> bits_of n (x * 2 ^ Z.of_nat b + y) = bits_of n y.
Proof.
  intros Y n. induction n as [|n IH]; intros H; [reflexivity|].
  cbn [bits_of]. rewrite IH by lia. f_equal.
  rewrite <- (Z.mod_pow2_bits_low (x * 2 ^ Z.of_nat b + y) (Z.of_nat b)) by lia.
  rewrite Z.add_comm, Z.mod_add by lia. rewrite Z.mod_small by lia. reflexivity.
Qed.

Lemma bits_of_app a b x y : 0 <= y < 2 ^ Z.of_nat b ->
  bits_of (a + b) (x * 2 ^ Z.of_nat b + y) = bits_of a x ++ bits_of b y.
Proof.
  intros Y. induction a as [|a IH].
  - apply bits_of_low; [assumption|lia].
  - cbn [bits_of Nat.add app]. rewrite IH. f_equal.
    replace (Z.of_nat (a + b)) with (Z.of_nat a + Z.of_nat b) by lia.
    rewrite <- Z.div_pow2_bits by lia.
    rewrite Z.add_comm, Z.div_add by lia. rewrite Z.div_small by lia. reflexivity.
Qed.

Lemma bits_of_zero n : bits_of n 0 = repeat false n.
Proof. induction n; cbn [bits_of repeat]; [reflexivity|]. rewrite Z.testbit_0_l. now f_equal. Qed.

Lemma bits_of_ones n : bits_of n (2 ^ Z.of_nat n - 1) = repeat true n.
Proof.
  induction n as [|n IH]; [reflexivity|].
  assert (E : 2 ^ Z.of_nat (S n) - 1 = 1 * 2 ^ Z.of_nat n + (2 ^ Z.of_nat n - 1)).
  { replace (Z.of_nat (S n)) with (Z.of_nat n + 1) by lia. rewrite pow2_S by lia. lia. }
  rewrite E. change (S n) with (1 + n)%nat.
  pose proof (Z.pow_pos_nonneg 2 (Z.of_nat n) ltac:(lia) ltac:(lia)).
  rewrite bits_of_app by lia. rewrite IH. reflexivity.
Qed.

Lemma num_bits n : forall acc z, 0 <= z < 2 ^ Z.of_nat n ->
  num acc (bits_of n z) = acc * 2 ^ Z.of_nat n + z.
Proof.
  induction n as [|n IH]; intros acc z H.
  - cbn in *. lia.
  - replace (Z.of_nat (S n)) with (Z.of_nat n + 1) in H by lia. rewrite pow2_S in H by lia.
    pose proof (Z.pow_pos_nonneg 2 (Z.of_nat n) ltac:(lia) ltac:(lia)) as P.
    set (h := z / 2 ^ Z.of_nat n). set (l := z mod 2 ^ Z.of_nat n).
    pose proof (Z.mod_pos_bound z (2 ^ Z.of_nat n) P) as L. fold l in L.
    pose proof (Z.div_mod z (2 ^ Z.of_nat n) ltac:(lia)) as D. fold h l in D.
    assert (Hh : 0 <= h < 2).
    { unfold h. split; [apply Z.div_pos; lia|apply Z.div_lt_upper_bound; lia]. }
    replace z with (h * 2 ^ Z.of_nat n + l) at 1 by lia.
    change (S n) with (1 + n)%nat. rewrite bits_of_app by lia.
    cbn [bits_of app num]. rewrite IH by lia.
    replace (Z.of_nat (1 + n)) with (Z.of_nat n + 1) by lia. rewrite pow2_S by lia.
    assert (C : h = 0 \/ h = 1) by lia.
    destruct C as [C|C]; rewrite C in *.
    + change (Z.testbit 0 (Z.of_nat 0)) with false. cbv iota. nia.
    + change (Z.testbit 1 (Z.of_nat 0)) with true. cbv iota. nia.
Qed.

Lemma run_repeat b n l : run b (repeat b n ++ negb b :: l) = n.
Proof.
  induction n; cbn [repeat app run].
  - destruct b; reflexivity.
  - rewrite Bool.eqb_reflx. now f_equal.
Qed.
Lemma run_repeat_end b n : run b (repeat b n) = n.
Proof. induction n; cbn [repeat run]; [reflexivity|]. rewrite Bool.eqb_reflx. now f_equal. Qed.

Lemma skipn_repeat_app {A} (b x : A) n l : skipn (S n) (repeat b n ++ x :: l) = l.
Proof. induction n; cbn [repeat app]; [reflexivity|]. exact IHn. Qed.

(** Exponent and fraction fields read from the [m] bits after the regime. *)
Lemma fields_val (es m : nat) r k : 0 <= r < 2 ^ Z.of_nat m ->
  let rest := bits_of m r in
  let e := num 0 (firstn es (rest ++ repeat false es)) in
  let fb := skipn es rest in
  (pow2 (k + e) * (1 + inject_Z (num 0 fb) / pow2 (Z.of_nat (length fb))) ==
   dy (2 ^ Z.of_nat (m - es) + r mod 2 ^ Z.of_nat (m - es))
      (k + (r * 2 ^ Z.of_nat es) / 2 ^ Z.of_nat m - Z.of_nat (m - es)))%Q.
Proof.
  intros R rest e fb.
  pose proof (Z.pow_pos_nonneg 2 (Z.of_nat m) ltac:(lia) ltac:(lia)) as Pm.
  pose proof (Z.pow_pos_nonneg 2 (Z.of_nat es) ltac:(lia) ltac:(lia)) as Pe.
  assert (He : e = (r * 2 ^ Z.of_nat es) / 2 ^ Z.of_nat m).
  { unfold e, rest.
    rewrite <- bits_of_zero, <- bits_of_app by lia.
    set (X := r * 2 ^ Z.of_nat es + 0).
    pose proof (Z.mod_pos_bound X _ Pm). pose proof (Z.div_mod X (2 ^ Z.of_nat m) ltac:(lia)) as D.
    replace (bits_of (m + es) X) with
        (bits_of es (X / 2 ^ Z.of_nat m) ++ bits_of m (X mod 2 ^ Z.of_nat m)).
    2:{ rewrite <- bits_of_app by lia. f_equal; lia. }
    rewrite firstn_app, bits_of_len, Nat.sub_diag, firstn_O, app_nil_r.
    rewrite firstn_all2 by (rewrite bits_of_len; lia).
    rewrite num_bits.
    - unfold X. rewrite Z.add_0_r. lia.
    - unfold X. rewrite Z.add_0_r. split; [apply Z.div_pos; nia|apply Z.div_lt_upper_bound; nia]. }
  assert (Hf : fb = bits_of (m - es) (r mod 2 ^ Z.of_nat (m - es))).
  { unfold fb, rest. destruct (le_lt_dec es m) as [L|L].
    - set (j := (m - es)%nat).
      pose proof (Z.pow_pos_nonneg 2 (Z.of_nat j) ltac:(lia) ltac:(lia)) as Pj.
      pose proof (Z.mod_pos_bound r _ Pj). pose proof (Z.div_mod r (2 ^ Z.of_nat j) ltac:(lia)).
      replace (bits_of m r) with
        (bits_of es (r / 2 ^ Z.of_nat j) ++ bits_of j (r mod 2 ^ Z.of_nat j)).
      2:{ rewrite <- bits_of_app by lia. unfold j. f_equal; [lia|]. unfold j in *. lia. }
      rewrite skipn_app, bits_of_len, Nat.sub_diag, skipn_O.
      rewrite skipn_all2 by (rewrite bits_of_len; lia). reflexivity.
    - replace (m - es)%nat with 0%nat by lia.
      rewrite skipn_all2 by (rewrite bits_of_len; lia). reflexivity. }
  rewrite He. rewrite Hf. rewrite bits_of_len.
  set (j := (m - es)%nat).
  pose proof (Z.pow_pos_nonneg 2 (Z.of_nat j) ltac:(lia) ltac:(lia)) as Pj.
  rewrite num_bits by (apply Z.mod_pos_bound; lia). rewrite Z.mul_0_l, Z.add_0_l.
  unfold dy. rewrite pow2_sub. rewrite inject_Z_plus, <- pow2_Z by lia.
  field. apply pow2_nz.
Qed.

Section Value.
Variable c : cfg.
Hypothesis HN : 3 <= cN c.
Hypothesis Hes : 0 <= ces c <= cN c - 3.

Notation N := (cN c).
Notation es := (ces c).
Definition gran : Z := N - 3 - es.

Lemma fields_lval k r : inreg N k -> 0 <= r < cnt N k ->
  forall m, m = Z.to_nat (N - 3 - sft k) -> 0 <= r < 2 ^ Z.of_nat m ->
  (dy (2 ^ Z.of_nat (m - Z.to_nat es) + r mod 2 ^ Z.of_nat (m - Z.to_nat es))
      (k * 2 ^ es + (r * 2 ^ es) / 2 ^ Z.of_nat m - Z.of_nat (m - Z.to_nat es)) ==
   lval gran (k * 2 ^ (N - 3) + r * 2 ^ sft k))%Q.
Proof using HN Hes.
  intros R B m Hm Rm.
  destruct (sft_bound N HN k R) as [S0 [S1 S2]].
  pose proof (rem_bound N HN k r R B) as T.
  unfold gran. unfold lval.
  assert (E3 : 2 ^ (N - 3) = 2 ^ es * 2 ^ (N - 3 - es))
    by (rewrite <- Z.pow_add_r by lia; f_equal; lia).
  rewrite E3. set (G := N - 3 - es) in *.
  pow_pos 2 G. pow_pos 2 (ces c). pow_pos 2 (sft k).
  rewrite Z.mul_assoc, (Z.add_comm (k * 2 ^ es * 2 ^ G)), Z.div_add, Z.mod_add by lia.
  destruct (Z_le_gt_dec (sft k) G) as [L|L].
  - (* all exponent bits present *)
    assert (Ej : Z.of_nat (m - Z.to_nat es) = G - sft k) by lia.
    assert (Em : Z.of_nat m = es + (G - sft k)) by lia.
    rewrite Ej, Em. rewrite (Z.pow_add_r 2 es (G - sft k)) by lia.
    rewrite (Z.mul_comm (2 ^ es) (2 ^ (G - sft k))).
    rewrite Z.div_mul_cancel_r by (pow_pos 2 (G - sft k); lia).
    replace (2 ^ G) with (2 ^ (G - sft k) * 2 ^ sft k)
      by (rewrite <- Z.pow_add_r by lia; f_equal; lia).
    pow_pos 2 (G - sft k).
    rewrite Z.div_mul_cancel_r, Z.mul_mod_distr_r by lia.
    rewrite <- Z.mul_add_distr_r, dy_pow by lia.
    replace (r / 2 ^ (G - sft k) + k * 2 ^ es - G + sft k)
      with (k * 2 ^ es + r / 2 ^ (G - sft k) - (G - sft k)) by lia.
    reflexivity.
  - assert (Ej : (m - Z.to_nat es)%nat = 0%nat) by lia.
    rewrite Ej. cbn [Z.of_nat]. rewrite Z.pow_0_r, Z.mod_1_r.
    replace (2 ^ sft k) with (2 ^ (sft k - G) * 2 ^ G)
      by (rewrite <- Z.pow_add_r by lia; f_equal; lia).
    rewrite Z.mul_assoc, Z.mod_mul, Z.div_mul by lia.
    assert (E : r * 2 ^ es / 2 ^ Z.of_nat m = r * 2 ^ (sft k - G)).
    { destruct (Z.eq_dec k (N - 2)) as [K|K].
      - assert (r = 0) by (unfold cnt in B; destruct (Z.eqb_spec k (N - 2)); lia). subst r.
        reflexivity.
      - replace (2 ^ es) with (2 ^ (sft k - G) * 2 ^ Z.of_nat m).
        + rewrite Z.mul_assoc, Z.div_mul; [reflexivity|]. pow_pos 2 (Z.of_nat m). lia.
        + rewrite <- Z.pow_add_r by lia. f_equal. specialize (S1 K). lia. }
    rewrite E. rewrite Z.add_0_r. rewrite Z.add_0_r.
    rewrite <- (Z.mul_1_l (2 ^ G)), dy_pow by lia.
    replace (r * 2 ^ (sft k - G) + k * 2 ^ es - G + G)
      with (k * 2 ^ es + r * 2 ^ (sft k - G) - 0) by lia. reflexivity.
Qed.

Lemma body_lval p : 1 <= p < 2 ^ (N - 1) ->
  (body_value (Z.to_nat es) (bits_of (Z.to_nat (N - 1)) p) == lval gran (pdec N p))%Q.
Proof using HN Hes.
  intros P. destruct (reg_spec N HN p P) as [R B].
  unfold pdec. set (k := reg N p) in *. set (r := p - base N k).
  assert (Rb : 0 <= r < cnt N k) by (unfold r; lia).
  assert (Ep : p = base N k + r) by (unfold r; lia). clearbody r k. rewrite Ep.
  set (m := Z.to_nat (N - 3 - sft k)).
  assert (Rm : 0 <= r < 2 ^ Z.of_nat m).
  { unfold cnt in Rb. destruct (Z.eqb_spec k (N - 2)).
    - pose proof (Z.pow_pos_nonneg 2 (Z.of_nat m) ltac:(lia) ltac:(lia)). lia.
    - destruct (sft_bound N HN k R) as [S0 [S1 S2]]. unfold m. rewrite Z2Nat.id; lia. }
  rewrite <- (fields_lval k r R Rb m eq_refl Rm).
  pose proof (fields_val (Z.to_nat es) m r (k * 2 ^ Z.of_nat (Z.to_nat es)) Rm) as FV.
  cbv zeta in FV. rewrite Z2Nat.id in FV by lia. rewrite <- FV. clear FV.
  unfold inreg in R.
  destruct (Z_lt_le_dec k 0) as [K|K].
  - (* k < 0 *)
    assert (Hb : base N k = 2 ^ (N - 2 + k)) by (unfold base; destruct (Z.leb_spec 0 k); lia).
    assert (Hm : Z.of_nat m = N - 2 + k)
      by (unfold m, sft; destruct (Z.leb_spec 0 k); rewrite ?Z2Nat.id; lia).
    assert (BL : bits_of (Z.to_nat (N - 1)) (base N k + r) =
                 repeat false (Z.to_nat (- k)) ++ true :: bits_of m r).
    { replace (Z.to_nat (N - 1)) with (Z.to_nat (- k) + (1 + m))%nat by lia.
      rewrite Hb, <- Hm.
      replace (2 ^ Z.of_nat m + r) with (0 * 2 ^ Z.of_nat (1 + m) + (1 * 2 ^ Z.of_nat m + r)) by lia.
      rewrite bits_of_app.
      - rewrite bits_of_zero. f_equal. rewrite bits_of_app by lia. reflexivity.
      - replace (Z.of_nat (1 + m)) with (Z.of_nat m + 1) by lia. rewrite pow2_S by lia. lia. }
    rewrite BL.
    assert (HF : exists l, repeat false (Z.to_nat (- k)) ++ true :: bits_of m r = false :: l).
    { destruct (Z.to_nat (- k)) as [|n] eqn:En; [lia|]. cbn [repeat app]. eauto. }
    unfold body_value. destruct HF as [l Hl]. rewrite Hl. rewrite <- Hl.
    change true with (negb false). rewrite run_repeat.
    rewrite skipn_repeat_app.
    replace (- Z.of_nat (Z.to_nat (- k))) with k by lia.
    rewrite !Z2Nat.id by lia. reflexivity.
  - (* k >= 0 *)
    assert (Hb : base N k = 2 ^ (N - 1) - 2 ^ (N - 2 - k))
      by (unfold base; destruct (Z.leb_spec 0 k); lia).
    destruct (Z.eq_dec k (N - 2)) as [E|E].
    + assert (r = 0) by (unfold cnt in Rb; destruct (Z.eqb_spec k (N - 2)); lia). subst r.
      assert (m = 0%nat) by (unfold m, sft; destruct (Z.leb_spec 0 k); lia).
      assert (BL : bits_of (Z.to_nat (N - 1)) (base N k + 0) = repeat true (Z.to_nat (N - 1))).
      { rewrite Hb, E. replace (N - 2 - (N - 2)) with 0 by lia. rewrite Z.pow_0_r, Z.add_0_r.
        replace (2 ^ (N - 1)) with (2 ^ Z.of_nat (Z.to_nat (N - 1))) by (rewrite Z2Nat.id; lia).
        apply bits_of_ones. }
      rewrite BL.
      assert (HF : exists l, repeat true (Z.to_nat (N - 1)) = true :: l).
      { destruct (Z.to_nat (N - 1)) as [|n] eqn:En; [lia|]. cbn [repeat]. eauto. }
      unfold body_value. destruct HF as [l Hl]. rewrite Hl. rewrite <- Hl.
      rewrite run_repeat_end.
      rewrite (skipn_all2 (repeat true (Z.to_nat (N - 1)))) by (rewrite repeat_length; lia).
      replace (Z.of_nat (Z.to_nat (N - 1)) - 1) with k by lia.
      rewrite !Z2Nat.id by lia. rewrite H. cbn [bits_of]. reflexivity.
    + assert (Hm : Z.of_nat m = N - 3 - k)
        by (unfold m, sft; destruct (Z.leb_spec 0 k); rewrite ?Z2Nat.id; lia).
      assert (BL : bits_of (Z.to_nat (N - 1)) (base N k + r) =
                 repeat true (Z.to_nat (k + 1)) ++ false :: bits_of m r).
      { replace (Z.to_nat (N - 1)) with (Z.to_nat (k + 1) + (1 + m))%nat by lia.
        assert (EB : base N k + r =
           (2 ^ Z.of_nat (Z.to_nat (k + 1)) - 1) * 2 ^ Z.of_nat (1 + m) + (0 * 2 ^ Z.of_nat m + r)).
        { rewrite Hb. replace (N - 1) with (Z.of_nat (Z.to_nat (k + 1)) + Z.of_nat (1 + m)) by lia.
          rewrite Z.pow_add_r by lia. replace (N - 2 - k) with (Z.of_nat (1 + m)) by lia. lia. }
        rewrite EB. rewrite bits_of_app.
        - rewrite bits_of_ones. f_equal. rewrite bits_of_app by lia. reflexivity.
        - replace (Z.of_nat (1 + m)) with (Z.of_nat m + 1) by lia. rewrite pow2_S by lia. lia. }
      rewrite BL.
      assert (HF : exists l, repeat true (Z.to_nat (k + 1)) ++ false :: bits_of m r = true :: l).
      { destruct (Z.to_nat (k + 1)) as [|n] eqn:En; [lia|]. cbn [repeat app]. eauto. }
      unfold body_value. destruct HF as [l Hl]. rewrite Hl. rewrite <- Hl.
      change false with (negb true). rewrite run_repeat.
      rewrite skipn_repeat_app.
      replace (Z.of_nat (Z.to_nat (k + 1)) - 1) with k by lia.
      rewrite !Z2Nat.id by lia. reflexivity.
Qed.

Lemma value_pos_lval p : 1 <= p < 2 ^ (N - 1) -> (value c p == lval gran (pdec N p))%Q.
Proof using HN Hes.
  intros P. unfold value. destruct (Z.eqb_spec p 0); [lia|].
  destruct (Z.ltb_spec p 0); [lia|]. apply body_lval; assumption.
Qed.

Lemma value_opp v : (value c (- v) == - value c v)%Q.
Proof using HN Hes.
  unfold value.
  destruct (Z.eqb_spec v 0) as [->|]; [reflexivity|].
  destruct (Z.eqb_spec (- v) 0); [lia|].
  destruct (Z.ltb_spec v 0), (Z.ltb_spec (- v) 0); try lia.
  - ring.
  - rewrite Z.opp_involutive. reflexivity.
Qed.

Lemma value_0 : (value c 0 == 0)%Q.
Proof using HN Hes. reflexivity. Qed.

Lemma gran_nonneg : 0 <= gran.
Proof using HN Hes. unfold gran. lia. Qed.

Lemma value_pos p : 1 <= p < 2 ^ (N - 1) -> (0 < value c p)%Q.
Proof using HN Hes. intros P. rewrite value_pos_lval by assumption. apply lval_pos, gran_nonneg. Qed.

Lemma value_lt v w : - 2 ^ (N - 1) < v -> v < w -> w < 2 ^ (N - 1) -> (value c v < value c w)%Q.
Proof using HN Hes.
  intros A B C. pose proof gran_nonneg as G.
  assert (POS : forall a b, 1 <= a -> a < b -> b < 2 ^ (N - 1) -> (value c a < value c b)%Q).
  { intros a b Ha Hab Hb. rewrite !value_pos_lval by lia. apply lval_lt; [assumption|].
    apply pdec_lt; lia. }
  destruct (Z_lt_le_dec v 0) as [V|V], (Z_lt_le_dec w 0) as [W|W]; try lia.
  - pose proof (POS (- w) (- v) ltac:(lia) ltac:(lia) ltac:(lia)) as Q.
    rewrite !value_opp in Q. lra.
  - pose proof (value_pos (- v) ltac:(lia)) as Q. rewrite value_opp in Q.
    destruct (Z.eq_dec w 0) as [->|]; [rewrite value_0; lra|].
    pose proof (value_pos w ltac:(lia)). lra.
  - destruct (Z.eq_dec v 0) as [->|]; [rewrite value_0; apply value_pos; lia|].
    apply POS; lia.
Qed.

Lemma value_lt_inv v w : - 2 ^ (N - 1) < v < 2 ^ (N - 1) -> - 2 ^ (N - 1) < w < 2 ^ (N - 1) ->
  (value c v < value c w)%Q -> v < w.
Proof using HN Hes.
  intros A B C. destruct (Z_lt_le_dec v w) as [|L]; [assumption|].
  destruct (Z.eq_dec v w) as [->|]; [lra|].
  pose proof (value_lt w v). assert (value c w < value c v)%Q by (apply H; lia). lra.
Qed.
Lemma value_le_inv v w : - 2 ^ (N - 1) < v < 2 ^ (N - 1) -> - 2 ^ (N - 1) < w < 2 ^ (N - 1) ->
  (value c v <= value c w)%Q -> v <= w.
Proof using HN Hes.
  intros A B C. destruct (Z_le_gt_dec v w) as [|L]; [assumption|].
  pose proof (value_lt w v ltac:(lia) ltac:(lia) ltac:(lia)). lra.
Qed.
Lemma value_inj v w : - 2 ^ (N - 1) < v < 2 ^ (N - 1) -> - 2 ^ (N - 1) < w < 2 ^ (N - 1) ->
  (value c v == value c w)%Q -> v = w.
Proof using HN Hes.
  intros A B C. apply Z.le_antisymm; apply value_le_inv; try assumption; lra.
Qed.
Lemma value_le v w : - 2 ^ (N - 1) < v -> v <= w -> w < 2 ^ (N - 1) -> (value c v <= value c w)%Q.
Proof using HN Hes.
  intros. destruct (Z.eq_dec v w) as [->|]; [lra|]. apply Qlt_le_weak, value_lt; lia.
Qed.
Lemma value_pos_inv v : - 2 ^ (N - 1) < v < 2 ^ (N - 1) -> (0 < value c v)%Q -> 1 <= v.
Proof using HN Hes.
  intros A B. assert (0 < v); [|lia]. apply value_lt_inv; [|assumption|rewrite value_0; assumption].
  pow_pos 2 (N - 1). lia.
Qed.

Lemma maxreal_bounds : 1 <= maxreal c < 2 ^ (N - 1).
Proof using HN Hes.
  assert (2 ^ 2 <= 2 ^ (N - 1)) by (apply pow2_mono; lia).
  unfold maxreal. destruct (csp c); lia.
Qed.

Lemma real_bounds v : real c v -> - 2 ^ (N - 1) < v < 2 ^ (N - 1).
Proof using HN Hes. unfold real. pose proof maxreal_bounds. lia. Qed.

Lemma real_opp v : real c v -> real c (- v).
Proof using HN Hes. unfold real. lia. Qed.

(** Characterisation of truncation on positive numbers by patterns. *)
Lemma down_pos_intro x v : 1 <= v <= maxreal c ->
  ((value c v <= x)%Q \/ v = 1) ->
  (v = maxreal c \/ (x < value c (v + 1))%Q) -> down_pos c x v.
Proof using HN Hes.
  intros V L U. pose proof maxreal_bounds as MB.
  unfold down_pos. split; [unfold real; lia|]. split; [apply value_pos; lia|]. split.
  - intros w Rw Pw Hw. pose proof (real_bounds w Rw) as Bw.
    apply value_le; try lia. unfold real in Rw.
    destruct U as [->|U]; [lia|].
    assert (w < v + 1); [|lia].
    destruct (Z_lt_le_dec w (v + 1)) as [|I]; [assumption|exfalso].
    pose proof (value_le (v + 1) w ltac:(lia) I ltac:(lia)). lra.
  - destruct L as [L| ->]; [left; assumption|right].
    intros w Rw Pw. pose proof (real_bounds w Rw). apply value_le; try lia.
    apply value_pos_inv; assumption.
Qed.

Lemma down_pos_elim x v : down_pos c x v ->
  1 <= v <= maxreal c /\ ((value c v <= x)%Q \/ v = 1) /\
  (v = maxreal c \/ (x < value c (v + 1))%Q).
Proof using HN Hes.
  intros [R [P [M L]]]. pose proof maxreal_bounds as MB. pose proof (real_bounds v R) as B.
  pose proof (value_pos_inv v B P) as V. unfold real in R.
  split; [lia|]. split.
  - destruct L as [L|L]; [left; assumption|right].
    specialize (L 1 ltac:(unfold real; lia) (value_pos 1 ltac:(lia))).
    apply value_le_inv in L; lia.
  - destruct (Z.eq_dec v (maxreal c)) as [E|E]; [left; assumption|right].
    destruct (Qlt_le_dec x (value c (v + 1))) as [|I]; [assumption|exfalso].
    pose proof (M (v + 1) ltac:(unfold real; lia) (value_pos (v + 1) ltac:(lia)) I) as Q.
    apply value_le_inv in Q; lia.
Qed.

Lemma down_pos_unique x v w : down_pos c x v -> down_pos c x w -> v = w.
Proof using HN Hes.
  intros A B. apply down_pos_elim in A, B.
  destruct A as [A1 [A2 A3]], B as [B1 [B2 B3]].
  pose proof maxreal_bounds as MB.
  assert (HH : forall v w, 1 <= v <= maxreal c -> 1 <= w <= maxreal c ->
     ((value c w <= x)%Q \/ w = 1) -> (v = maxreal c \/ (x < value c (v + 1))%Q) -> w <= v).
  { intros a b Ha Hb Q1 Q2. destruct Q1 as [Q1| ->]; [|lia]. destruct Q2 as [->|Q2]; [lia|].
    destruct (Z_le_gt_dec b a) as [|I]; [assumption|].
    pose proof (value_le (a + 1) b ltac:(lia) ltac:(lia) ltac:(lia)). lra. }
  apply Z.le_antisymm; apply HH; assumption.
Qed.

Lemma rounds_tz_unique x v w : rounds_tz c x v -> rounds_tz c x w -> v = w.
Proof using HN Hes.
  intros [[A A']|[[A A']|[A A']]] [[B B']|[[B B']|[B B']]]; try lra; try lia.
  - eapply down_pos_unique; eassumption.
  - pose proof (down_pos_unique _ _ _ A' B'). lia.
Qed.

Lemma down_pos_comp x y v : (x == y)%Q -> down_pos c x v -> down_pos c y v.
Proof using HN Hes.
  intros E D. apply down_pos_elim in D. destruct D as [A [B C]].
  apply down_pos_intro; [assumption| |].
  - destruct B; [left; lra|right; assumption].
  - destruct C; [left; assumption|right; lra].
Qed.

Lemma rounds_tz_comp x y v : (x == y)%Q -> rounds_tz c x v -> rounds_tz c y v.
Proof using HN Hes.
  intros E [[A A']|[[A A']|[A A']]].
  - left; split; [lra|assumption].
  - right; left. split; [lra|]. eapply down_pos_comp; eassumption.
  - right; right. split; [lra|]. eapply down_pos_comp; [|eassumption]. lra.
Qed.

Lemma rounds_tz_opp x v : rounds_tz c x v -> rounds_tz c (- x) (- v).
Proof using HN Hes.
  intros [[A A']|[[A A']|[A A']]].
  - left; split; [lra|lia].
  - right; right. split; [lra|]. rewrite Z.opp_involutive. eapply down_pos_comp; [|eassumption]. lra.
  - right; left. split; [lra|assumption].
Qed.

Lemma rounds_tz_real x v : rounds_tz c x v -> real c v.
Proof using HN Hes.
  pose proof maxreal_bounds.
  intros [[A A']|[[A A']|[A A']]].
  - subst. unfold real. lia.
  - apply A'.
  - destruct A' as [R _]. unfold real in *. lia.
Qed.

(** A representable number rounds to itself. *)
Lemma rounds_tz_exact v : real c v -> rounds_tz c (value c v) v.
Proof using HN Hes.
  intros R. pose proof (real_bounds v R) as B. unfold real in R.
  pose proof maxreal_bounds as MB.
  assert (POS : forall v, 1 <= v <= maxreal c -> down_pos c (value c v) v).
  { intros w W. apply down_pos_intro; [assumption|left; lra|].
    destruct (Z.eq_dec w (maxreal c)); [left; assumption|right]. apply value_lt; lia. }
  destruct (Z.lt_trichotomy v 0) as [L|[->|L]].
  - right; right. pose proof (value_pos (- v) ltac:(lia)) as P. rewrite value_opp in P.
    split; [lra|]. eapply down_pos_comp; [|apply POS; lia]. rewrite value_opp. reflexivity.
  - left. split; [reflexivity|reflexivity].
  - right; left. split; [apply value_pos; lia|]. apply POS; lia.
Qed.

(** Truncation of a number known up to its coordinate. *)
Lemma trunc_coord x y :
  (lval gran y <= x)%Q -> (x < lval gran (y + 1))%Q ->
  forall v, 1 <= v <= maxreal c ->
  (pdec N v <= y \/ v = 1) -> (v = maxreal c \/ y < pdec N (v + 1)) ->
  down_pos c x v.
Proof using HN Hes.
  intros L U v V A B. pose proof maxreal_bounds as MB. pose proof gran_nonneg as G.
  apply down_pos_intro; [assumption| |].
  - destruct A as [A|A]; [left|right; assumption].
    rewrite value_pos_lval by lia. pose proof (lval_le gran _ _ G A). lra.
  - destruct (Z.eq_dec v (maxreal c)) as [|NE]; [left; assumption|right].
    destruct B as [B|B]; [contradiction|].
    rewrite value_pos_lval by lia.
    pose proof (lval_le gran (y + 1) (pdec N (v + 1)) G ltac:(lia)). lra.
Qed.
End Value.
