(** Lemmas on the C++ integer operators of the model, inside the ranges where they are
    ordinary integer operations. *)
From Coq Require Import ZArith Znumtheory Lia Bool.
From Verif Require Import Res CInt Bits Cfg Core.
Open Scope Z_scope.

Lemma is_width_cases w : is_width w -> w = 8 \/ w = 16 \/ w = 32 \/ w = 64.
Proof. exact (fun x => x). Qed.

(** Width of the promoted type. *)
Definition pw (w : Z) : Z := Z.max 32 w.

Lemma prom_sint w : is_width w -> prom (sint w) = sint (pw w).
Proof. intros [->|[->|[->| ->]]]; reflexivity. Qed.
Lemma iw_prom_uint w : is_width w -> iw (prom (uint w)) = pw w.
Proof. intros [->|[->|[->| ->]]]; reflexivity. Qed.

Lemma is_width_pos w : is_width w -> 8 <= w <= 64.
Proof. unfold is_width. lia. Qed.

Lemma wraps_small w z : 0 < w -> - 2 ^ (w - 1) <= z < 2 ^ (w - 1) -> wraps w z = z.
Proof.
  intros W Z. unfold wraps. replace w with ((w - 1) + 1) at 2 by lia.
  rewrite pow2_S by lia. rewrite Z.mod_small by lia. lia.
Qed.
Lemma cast_s_small w z : 0 < w -> - 2 ^ (w - 1) <= z < 2 ^ (w - 1) -> cast (sint w) z = z.
Proof. intros. unfold cast. cbn [isg iw sint]. now apply wraps_small. Qed.
Lemma cast_u w z : cast (uint w) z = z mod 2 ^ w.
Proof. reflexivity. Qed.
Lemma cast_u_small w z : 0 <= z < 2 ^ w -> cast (uint w) z = z.
Proof. intros. rewrite cast_u. now apply Z.mod_small. Qed.

Lemma wraps_mod_le W w z : 0 <= w <= W -> 0 < W -> (wraps W z) mod 2 ^ w = z mod 2 ^ w.
Proof.
  intros L P. unfold wraps. pow_pos 2 w. pow_pos 2 W.
  rewrite (Z.mod_eq (z + 2 ^ (W - 1)) (2 ^ W)) by lia.
  set (q := (z + 2 ^ (W - 1)) / 2 ^ W).
  replace (z + 2 ^ (W - 1) - 2 ^ W * q - 2 ^ (W - 1)) with (z + (- q * 2 ^ (W - w)) * 2 ^ w).
  - apply Z.mod_add. lia.
  - rewrite <- Z.mul_assoc, <- Z.pow_add_r by lia. replace (W - w + w) with W by lia. lia.
Qed.
Lemma wraps_mod w z : 0 < w -> (wraps w z) mod 2 ^ w = z mod 2 ^ w.
Proof. intros. apply wraps_mod_le; lia. Qed.
Lemma mod_mod_le W w z : 0 <= w <= W -> (z mod 2 ^ W) mod 2 ^ w = z mod 2 ^ w.
Proof.
  intros L. pow_pos 2 w. pow_pos 2 W. symmetry. apply Zmod_div_mod; try lia.
  exists (2 ^ (W - w)). rewrite <- Z.pow_add_r by lia. f_equal. lia.
Qed.
Lemma cast_us w z : 0 < w -> cast (uint w) (cast (sint w) z) = cast (uint w) z.
Proof. intros. apply wraps_mod. assumption. Qed.

Lemma wraps_mod_eq w a b : 0 < w -> a mod 2 ^ w = b mod 2 ^ w -> wraps w a = wraps w b.
Proof.
  intros W E. unfold wraps. f_equal.
  rewrite Z.add_mod, E, <- Z.add_mod; [reflexivity| |]; pow_pos 2 w; lia.
Qed.

Lemma arith_s w z : 0 < w -> - 2 ^ (w - 1) <= z < 2 ^ (w - 1) -> arith (sint w) z = Ok z.
Proof.
  intros W Z. unfold arith, fits, min_of, max_of. cbn [isg iw sint].
  destruct (Z.leb_spec (- 2 ^ (w - 1)) z), (Z.leb_spec z (2 ^ (w - 1) - 1)); try lia. reflexivity.
Qed.
Lemma arith_s_ub w z : 0 < w -> z < - 2 ^ (w - 1) \/ 2 ^ (w - 1) <= z ->
  arith (sint w) z = UB SignedOverflow.
Proof.
  intros W Z. unfold arith, fits, min_of, max_of. cbn [isg iw sint].
  destruct (Z.leb_spec (- 2 ^ (w - 1)) z), (Z.leb_spec z (2 ^ (w - 1) - 1)); try lia; reflexivity.
Qed.
Lemma arith_ps w z : is_width w -> - 2 ^ (pw w - 1) <= z < 2 ^ (pw w - 1) ->
  arith (prom (sint w)) z = Ok z.
Proof. intros W Z. rewrite prom_sint by assumption. apply arith_s; [unfold pw; lia|assumption]. Qed.

(** 31 bit slack of the promoted types. *)
Lemma pw_ge w : 2 ^ 31 <= 2 ^ (pw w - 1).
Proof. apply pow2_mono. unfold pw. lia. Qed.
Lemma pw_ge_w w : is_width w -> 2 ^ (w - 1) <= 2 ^ (pw w - 1).
Proof. intros W. apply is_width_pos in W. apply pow2_mono. unfold pw. lia. Qed.

Lemma cshr_ok t a n : 0 <= n < iw t -> cshr t a n = Ok (a / 2 ^ n).
Proof.
  intros H. unfold cshr. destruct (Z.ltb_spec n 0), (Z.leb_spec (iw t) n); try lia. reflexivity.
Qed.
Lemma cshr_ub t a n : n < 0 \/ iw t <= n -> cshr t a n = UB ShiftCount.
Proof.
  intros H. unfold cshr. destruct (Z.ltb_spec n 0), (Z.leb_spec (iw t) n); try lia; reflexivity.
Qed.

(** Left shift of an unsigned value whose bits all fit in the promoted type. *)
Lemma cshl_u w a n : is_width w -> 0 <= a < 2 ^ w -> 0 <= n <= w -> n < pw w ->
  exists r, cshl (prom (uint w)) a n = Ok r /\ cast (uint w) r = (a * 2 ^ n) mod 2 ^ w.
Proof.
  intros W A Nn Np. unfold cshl. rewrite iw_prom_uint by assumption.
  destruct (Z.ltb_spec n 0); [lia|]. destruct (Z.leb_spec (pw w) n); [lia|]. cbn [orb].
  assert (P : 2 ^ n <= 2 ^ w) by (apply pow2_mono; lia).
  pow_pos 2 n.
  assert (C : isg (prom (uint w)) = true /\ pw w = 32 /\ 2 ^ w * 2 ^ w <= 2 ^ 32
              \/ isg (prom (uint w)) = false /\ pw w = w).
  { destruct W as [->|[->|[->| ->]]]; cbn; try (left; repeat split; lia); right; split; reflexivity. }
  pose proof (is_width_pos w W).
  destruct C as [[-> [-> C]]|[-> ->]].
  - destruct (Z.ltb_spec a 0); [lia|].
    destruct (Z.leb_spec (2 ^ 32) (a * 2 ^ n)); [nia|].
    eexists; split; [reflexivity|]. rewrite cast_u. apply wraps_mod_le; [|lia].
    destruct W as [->|[->|[->| ->]]]; lia.
  - eexists; split; [reflexivity|]. rewrite cast_u. apply mod_mod_le. lia.
Qed.

(** Same, the exact value when no bit is lost. *)
Lemma cshl_u_exact w a n : is_width w -> 0 <= a < 2 ^ w -> 0 <= n <= w -> n < pw w ->
  a * 2 ^ n < 2 ^ w ->
  exists r, cshl (prom (uint w)) a n = Ok r /\ cast (uint w) r = a * 2 ^ n.
Proof.
  intros W A Nn Np B. destruct (cshl_u w a n W A Nn Np) as [r [E1 E2]].
  exists r. split; [assumption|]. rewrite E2. apply Z.mod_small.
  pow_pos 2 n. nia.
Qed.

(** Left shift of a nonnegative signed value into the bits of the same width. *)
Lemma cshl_s w a n : is_width w -> 0 <= a -> 0 <= n <= w -> n < pw w -> a * 2 ^ n < 2 ^ w ->
  exists r, cshl (prom (sint w)) a n = Ok r /\ cast (uint w) r = a * 2 ^ n.
Proof.
  intros W A Nn Np B. pose proof (is_width_pos w W). rewrite prom_sint by assumption.
  unfold cshl. cbn [iw isg sint].
  destruct (Z.ltb_spec n 0); [lia|]. destruct (Z.leb_spec (pw w) n); [lia|]. cbn [orb].
  destruct (Z.ltb_spec a 0); [lia|].
  pose proof (pow2_mono w (pw w) ltac:(unfold pw; lia)).
  destruct (Z.leb_spec (2 ^ pw w) (a * 2 ^ n)); [lia|].
  eexists; split; [reflexivity|]. rewrite cast_u.
  rewrite wraps_mod_le by (unfold pw; lia). apply Z.mod_small. pow_pos 2 n. nia.
Qed.

Lemma land_pow2 a n : 0 <= n -> Z.land a (2 ^ n) = if Z.testbit a n then 2 ^ n else 0.
Proof.
  intros Hn. apply Z.bits_inj'. intros m Hm. rewrite Z.land_spec, Z.pow2_bits_eqb by lia.
  destruct (Z.eqb_spec n m) as [<-|E].
  - destruct (Z.testbit a n) eqn:T.
    + rewrite Z.pow2_bits_true by lia. reflexivity.
    + rewrite Z.testbit_0_l. reflexivity.
  - rewrite andb_false_r. destruct (Z.testbit a n).
    + rewrite Z.pow2_bits_eqb by lia. now apply Z.eqb_neq in E as ->.
    + now rewrite Z.testbit_0_l.
Qed.

Lemma land_pow2_nz a n : 0 <= n -> (Z.land a (2 ^ n) =? 0) = negb (Z.testbit a n).
Proof.
  intros Hn. rewrite land_pow2 by lia. pow_pos 2 n.
  destruct (Z.testbit a n); [apply Z.eqb_neq; lia|reflexivity].
Qed.

Lemma testbit_div a n : 0 <= n -> Z.testbit a n = ((a / 2 ^ n) mod 2 =? 1).
Proof. intros. rewrite Z.testbit_eqb by lia. reflexivity. Qed.

(** Top bit of a value below 2^(n+1). *)
Lemma testbit_top a n : 0 <= n -> 0 <= a < 2 ^ (n + 1) -> Z.testbit a n = (2 ^ n <=? a).
Proof.
  intros Hn A. rewrite testbit_div by lia. rewrite pow2_S in A by lia. pow_pos 2 n.
  destruct (Z.leb_spec (2 ^ n) a).
  - assert (E : a / 2 ^ n = 1) by (symmetry; apply (Z.div_unique a (2 ^ n) 1 (a - 2 ^ n)); lia).
    now rewrite E.
  - rewrite Z.div_small by lia. reflexivity.
Qed.

Lemma lor_add a b n : 0 <= n -> 0 <= a < 2 ^ n -> Z.lor a (b * 2 ^ n) = a + b * 2 ^ n.
Proof.
  intros Hn A. symmetry.
  assert (D : Z.land a (b * 2 ^ n) = 0).
  { apply Z.bits_inj'. intros m Hm. rewrite Z.land_spec, Z.testbit_0_l.
    destruct (Z_lt_le_dec m n).
    - rewrite Z.mul_pow2_bits_low by lia. apply andb_false_r.
    - rewrite <- (Z.mod_small a (2 ^ n)) by lia. rewrite Z.mod_pow2_bits_high by lia. reflexivity. }
  rewrite <- Z.lxor_lor by exact D. apply Z.add_nocarry_lxor. exact D.
Qed.

Lemma lor_div a b n : 0 <= n -> Z.lor a b / 2 ^ n = Z.lor (a / 2 ^ n) (b / 2 ^ n).
Proof. intros. rewrite <- !Z.shiftr_div_pow2 by lia. apply Z.shiftr_lor. Qed.

Lemma land_ones' a n : 0 <= n -> Z.land a (2 ^ n - 1) = a mod 2 ^ n.
Proof.
  intros. rewrite <- Z.land_ones by lia. f_equal. rewrite Z.ones_equiv. lia.
Qed.

Lemma clz32_spec x : 0 < x -> clz32 x = Ok (31 - Z.log2 x).
Proof. intros. unfold clz32. destruct (Z.eqb_spec x 0); [lia|reflexivity]. Qed.

Lemma clz_spec w x : is_width w -> 0 < x < 2 ^ w -> findbitleftmostC w x = Ok (w - 1 - Z.log2 x).
Proof.
  intros W X. unfold findbitleftmostC.
  destruct W as [->|[->|[->| ->]]]; cbn [Z.eqb Pos.eqb].
  - rewrite clz32_spec by lia. cbn [bind]. f_equal. lia.
  - rewrite clz32_spec by lia. cbn [bind]. f_equal. lia.
  - rewrite clz32_spec by lia. reflexivity.
  - unfold clz64. rewrite cshr_ok by (cbn; lia). cbn [bind].
    destruct (Z.eqb_spec (x / 2 ^ 32) 0) as [E|E]; cbn [negb].
    + assert (x < 2 ^ 32).
      { pose proof (Z.div_mod x (2 ^ 32) ltac:(lia)). pose proof (Z.mod_pos_bound x (2 ^ 32) ltac:(lia)). lia. }
      rewrite cast_u_small by lia. rewrite clz32_spec by lia. cbn [bind]. f_equal. lia.
    + assert (0 < x / 2 ^ 32 < 2 ^ 32).
      { split.
        - pose proof (Z.div_pos x (2 ^ 32)). lia.
        - apply Z.div_lt_upper_bound; [lia|]. change (2 ^ 32 * 2 ^ 32) with (2 ^ 64). lia. }
      rewrite cast_u_small by lia. rewrite clz32_spec by lia. f_equal.
      rewrite <- Z.shiftr_div_pow2, Z.log2_shiftr by lia.
      assert (32 <= Z.log2 x).
      { apply Z.log2_le_pow2; [lia|]. pose proof (Z.mul_div_le x (2 ^ 32) ltac:(lia)). lia. }
      lia.
Qed.

Lemma bitmask_spec w n : is_width w -> 0 < n <= w -> bitmask w n = Ok (2 ^ n - 1).
Proof.
  intros W Hn. unfold bitmask. destruct (Z.eqb_spec n 0); [lia|].
  assert (C1 : cast (uint w) (-1) = 2 ^ w - 1).
  { rewrite cast_u. pow_pos 2 w. pose proof (is_width_pos w W).
    symmetry. apply (Z.mod_unique _ _ (-1)). left. lia. lia. }
  pose proof (is_width_pos w W).
  rewrite cshr_ok by (rewrite iw_prom_uint by assumption; unfold pw; lia). cbn [bind].
  rewrite C1.
  assert (E : (2 ^ w - 1) / 2 ^ (w - n) = 2 ^ n - 1).
  { symmetry. pow_pos 2 (w - n).
    apply (Z.div_unique _ _ _ (2 ^ (w - n) - 1)); [lia|].
    replace w with ((w - n) + n) at 1 by lia. rewrite Z.pow_add_r by lia. lia. }
  rewrite E. f_equal. unfold cand. rewrite land_ones' by lia.
  pose proof (pow2_mono n w ltac:(lia)). pow_pos 2 n.
  assert (M : (2 ^ w - 1) mod 2 ^ n = 2 ^ n - 1).
  { symmetry. apply (Z.mod_unique _ _ (2 ^ (w - n) - 1)); [lia|].
    replace w with ((w - n) + n) at 1 by lia. rewrite Z.pow_add_r by lia. lia. }
  rewrite M. apply cast_u_small. lia.
Qed.

Lemma bitset_get_spec w x off n : is_width w -> 0 <= x < 2 ^ w -> 0 < n <= w ->
  0 <= off < pw w -> bitset_get w x off n = Ok ((x / 2 ^ off) mod 2 ^ n).
Proof.
  intros W X Hn Ho. pose proof (is_width_pos w W). unfold bitset_get.
  rewrite cshr_ok by (rewrite iw_prom_uint by assumption; lia). cbn [bind].
  rewrite bitmask_spec by (assumption || lia). cbn [bind]. f_equal.
  unfold cand. rewrite land_ones' by lia. apply cast_u_small.
  pow_pos 2 n. pose proof (Z.mod_pos_bound (x / 2 ^ off) (2 ^ n) ltac:(lia)).
  pose proof (pow2_mono n w ltac:(lia)). lia.
Qed.

(** MSB aligned change of width: floor or exact scaling. *)
Lemma cast_msb_spec a b v : is_width a -> is_width b -> 0 <= v < 2 ^ a ->
  exists r, cast_msb a b v = Ok r /\ r = (v * 2 ^ b) / 2 ^ a /\ 0 <= r < 2 ^ b.
Proof.
  intros A B V. unfold cast_msb. pose proof (is_width_pos a A). pose proof (is_width_pos b B).
  pow_pos 2 a. pow_pos 2 b.
  assert (R : 0 <= v * 2 ^ b / 2 ^ a < 2 ^ b).
  { split; [apply Z.div_pos; nia|apply Z.div_lt_upper_bound; nia]. }
  destruct (Z.gtb_spec a b) as [G|G].
  - rewrite cshr_ok by (rewrite iw_prom_uint by assumption; unfold pw; lia). cbn [bind].
    assert (E : v * 2 ^ b / 2 ^ a = v / 2 ^ (a - b)).
    { replace a with ((a - b) + b) at 1 by lia. rewrite Z.pow_add_r by lia.
      apply Z.div_mul_cancel_r; [pow_pos 2 (a - b)|]; lia. }
    exists (v / 2 ^ (a - b)). rewrite E in *. split; [|split; [reflexivity|assumption]].
    f_equal. apply cast_u_small. assumption.
  - assert (v < 2 ^ b) by (pose proof (pow2_mono a b ltac:(lia)); lia).
    rewrite (cast_u_small b v) by lia.
    assert (E : v * 2 ^ b / 2 ^ a = v * 2 ^ (b - a)).
    { replace b with ((b - a) + a) at 1 by lia. rewrite Z.pow_add_r, Z.mul_assoc by lia.
      apply Z.div_mul. lia. }
    destruct (cshl_u_exact b v (b - a)) as [r [E1 E2]];
      [assumption|lia|lia|unfold pw; lia|rewrite <- E; lia|].
    rewrite E1. cbn [bind]. rewrite E2. eexists. split; [reflexivity|]. rewrite E in *. split; [lia|assumption].
Qed.
