(** Proofs about the struct unsigned128 and the unpacked operators that use it. *)
From Coq Require Import ZArith QArith Qabs Bool Lia Lqa.
From Verif Require Import Res CInt Unpacked Spec SpecWide Wide QPow.
Open Scope Z_scope.

Definition wok (a : u128) : Prop := word (whi a) /\ word (wlo a).
Definition wval (a : u128) : Z := wide (whi a) (wlo a).
Local Notation B := 18446744073709551616.
Ltac u := unfold wok, wval, word, wide in *; change (2 ^ 64) with B in *; cbn [whi wlo] in *.
Lemma mod_eq x m r q : 0 <= r < m -> x = q * m + r -> x mod m = r.
Proof. intros H ->. rewrite Z.add_comm, Z.mod_add, Z.mod_small by lia. reflexivity. Qed.

Lemma w_add_ok a b : wok a -> wok b -> exists r, w_add a b = Ok r /\ wok r /\ wval r = (wval a + wval b) mod 2 ^ 128.
Proof.
  intros [HA LA] [HB LB]. unfold w_add, cadd, arith, u64. cbn [isg uint bind iw]. unfold wrapu. u.
  assert (L : wlo a + wlo b < B /\ (wlo a + wlo b) mod B = wlo a + wlo b \/ B <= wlo a + wlo b /\ (wlo a + wlo b) mod B = wlo a + wlo b - B).
  { destruct (Z_lt_le_dec (wlo a + wlo b) B); [left; split; [assumption|apply Z.mod_small; lia]|right; split; [assumption|apply (mod_eq _ _ _ 1); lia]]. }
  assert (H : whi a + whi b < B /\ (whi a + whi b) mod B = whi a + whi b \/ B <= whi a + whi b /\ (whi a + whi b) mod B = whi a + whi b - B).
  { destruct (Z_lt_le_dec (whi a + whi b) B); [left; split; [assumption|apply Z.mod_small; lia]|right; split; [assumption|apply (mod_eq _ _ _ 1); lia]]. }
  change (2 ^ 128) with (B * B).
  set (l := (wlo a + wlo b) mod B) in *. set (h := (whi a + whi b) mod B) in *. clearbody l h.
  destruct (Z.ltb_spec l (wlo a)) as [C|C].
  - assert (H1 : h + 1 < B /\ (h + 1) mod B = h + 1 \/ h + 1 = B /\ (h + 1) mod B = 0).
    { destruct (Z.eq_dec (h + 1) B) as [E|E]; [right; split; [assumption|rewrite E; reflexivity]|left; split; [lia|apply Z.mod_small; lia]]. }
    set (h1 := (h + 1) mod B) in *. clearbody h1. exists (W h1 l). split; [reflexivity|]. cbn [whi wlo]. split; [lia|]. symmetry.
    destruct H as [[H E]|[H E]], H1 as [[H1 E1]|[H1 E1]]; (apply (mod_eq _ _ _ 0); nia) || (apply (mod_eq _ _ _ 1); nia).
  - exists (W h l). split; [reflexivity|]. cbn [whi wlo]. split; [lia|]. symmetry.
    destruct H as [[H E]|[H E]]; [apply (mod_eq _ _ _ 0); nia|apply (mod_eq _ _ _ 1); nia].
Qed.
Lemma w_sub_ok a b : wok a -> wok b -> exists r, w_sub a b = Ok r /\ wok r /\ wval r = (wval a - wval b) mod 2 ^ 128.
Proof.
  intros [HA LA] [HB LB]. unfold w_sub, csub, arith, u64. cbn [isg uint bind iw]. unfold wrapu. u.
  assert (L : wlo b <= wlo a /\ (wlo a - wlo b) mod B = wlo a - wlo b \/ wlo a < wlo b /\ (wlo a - wlo b) mod B = wlo a - wlo b + B).
  { destruct (Z_lt_le_dec (wlo a) (wlo b)); [right; split; [assumption|apply (mod_eq _ _ _ (-1)); lia]|left; split; [assumption|apply Z.mod_small; lia]]. }
  assert (H : whi b <= whi a /\ (whi a - whi b) mod B = whi a - whi b \/ whi a < whi b /\ (whi a - whi b) mod B = whi a - whi b + B).
  { destruct (Z_lt_le_dec (whi a) (whi b)); [right; split; [assumption|apply (mod_eq _ _ _ (-1)); lia]|left; split; [assumption|apply Z.mod_small; lia]]. }
  change (2 ^ 128) with (B * B).
  set (l := (wlo a - wlo b) mod B) in *. set (h := (whi a - whi b) mod B) in *. clearbody l h.
  destruct (Z.ltb_spec (wlo a) (wlo b)) as [C|C].
  - assert (H1 : 0 <= h - 1 /\ (h - 1) mod B = h - 1 \/ h = 0 /\ (h - 1) mod B = B - 1).
    { destruct (Z.eq_dec h 0) as [->|E]; [right; split; reflexivity|left; split; [lia|apply Z.mod_small; lia]]. }
    set (h1 := (h - 1) mod B) in *. clearbody h1. exists (W h1 l). split; [reflexivity|]. cbn [whi wlo]. split; [lia|]. symmetry.
    destruct H as [[H E]|[H E]], H1 as [[H1 E1]|[H1 E1]]; (apply (mod_eq _ _ _ 0); nia) || (apply (mod_eq _ _ _ (-1)); nia).
  - exists (W h l). split; [reflexivity|]. cbn [whi wlo]. split; [lia|]. symmetry.
    destruct H as [[H E]|[H E]]; [apply (mod_eq _ _ _ 0); nia|apply (mod_eq _ _ _ (-1)); nia].
Qed.
(** Or of two words without a common bit. *)
Lemma lor_split n x y : 0 <= n -> 0 <= y < 2 ^ n -> Z.lor (x * 2 ^ n) y = x * 2 ^ n + y.
Proof.
  intros N Y. symmetry. rewrite <- Z.lxor_lor; [apply Z.add_nocarry_lxor|]; apply Z.bits_inj'; intros i I; rewrite Z.land_spec, Z.bits_0; destruct (Z_lt_le_dec i n) as [C|C].
  1,3: rewrite Z.mul_pow2_bits_low by lia; reflexivity.
  1,2: rewrite <- (Z.mod_small y (2 ^ n)) by lia; rewrite Z.mod_pow2_bits_high by lia; apply andb_false_r.
Qed.
Lemma w_shl_ok a n : wok a -> 1 <= n < 128 -> exists r, w_shl a n = Ok r /\ wok r /\ wval r = (wval a * 2 ^ n) mod 2 ^ 128.
Proof.
  intros [HA LA] N. unfold w_shl. assert (PN : 0 < 2 ^ n) by (apply Z.pow_pos_nonneg; lia).
  destruct (Z.geb_spec n 64) as [C|C]; unfold cshl, cshr, u64; cbn [isg uint iw].
  - destruct (Z.ltb_spec (n - 64) 0); [lia|]. destruct (Z.leb_spec 64 (n - 64)); [lia|]. cbn [orb bind]. eexists. split; [reflexivity|]. unfold wrapu. u.
    assert (P : 2 ^ n = 2 ^ (n - 64) * B) by (change B with (2 ^ 64); rewrite <- Z.pow_add_r by lia; f_equal; lia).
    pose proof (Z.mod_pos_bound (wlo a * 2 ^ (n - 64)) B ltac:(lia)). split; [lia|]. symmetry. change (2 ^ 128) with (B * B). rewrite P.
    pose proof (Z.div_mod (wlo a * 2 ^ (n - 64)) B ltac:(lia)). set (k := 2 ^ (n - 64)) in *. clearbody k.
    apply (mod_eq _ _ _ (whi a * k + wlo a * k / B)); nia.
  - destruct (Z.ltb_spec n 0); [lia|]. destruct (Z.leb_spec 64 n); [lia|]. destruct (Z.ltb_spec (64 - n) 0); [lia|]. destruct (Z.leb_spec 64 (64 - n)); [lia|]. cbn [orb bind].
    eexists. split; [reflexivity|]. unfold wrapu, cor. u.
    assert (P : B = 2 ^ n * 2 ^ (64 - n)) by (change B with (2 ^ 64); rewrite <- Z.pow_add_r by lia; f_equal; lia).
    assert (PM : 0 < 2 ^ (64 - n)) by (apply Z.pow_pos_nonneg; lia). set (k := 2 ^ (64 - n)) in *.
    assert (D : 0 <= wlo a / k < 2 ^ n) by (split; [apply Z.div_pos; lia|apply Z.div_lt_upper_bound; lia]).
    assert (E1 : (whi a * 2 ^ n) mod B = (whi a mod k) * 2 ^ n) by (rewrite P, (Z.mul_comm (2 ^ n) k), Z.mul_mod_distr_r by lia; reflexivity).
    assert (E2 : (wlo a * 2 ^ n) mod B = (wlo a mod k) * 2 ^ n) by (rewrite P, (Z.mul_comm (2 ^ n) k), Z.mul_mod_distr_r by lia; reflexivity).
    rewrite E1, E2, lor_split by lia. pose proof (Z.mod_pos_bound (whi a) k PM). pose proof (Z.mod_pos_bound (wlo a) k PM).
    pose proof (Z.div_mod (whi a) k ltac:(lia)) as DH. pose proof (Z.div_mod (wlo a) k ltac:(lia)) as DL.
    clearbody k. set (p := 2 ^ n) in *. clearbody p. set (hd := whi a / k) in *. set (hm := whi a mod k) in *. set (ld := wlo a / k) in *. set (lm := wlo a mod k) in *. clearbody hd hm ld lm.
    assert (lm * p < B) by (rewrite P; nia). assert (hm * p + p <= B) by (rewrite P; nia). assert (0 <= hd) by nia.
    split; [split; nia|]. symmetry. change (2 ^ 128) with (B * B). apply (mod_eq _ _ _ hd); [nia|]. rewrite DH, DL. transitivity (hd * (p * k) * B + hm * p * B + ld * (p * k) + lm * p); [|rewrite <- P]; ring.
Qed.
Lemma w_shr_ok a n : wok a -> 1 <= n < 128 -> exists r, w_shr a n = Ok r /\ wok r /\ wval r = wval a / 2 ^ n.
Proof.
  intros [HA LA] N. unfold w_shr. assert (PN : 0 < 2 ^ n) by (apply Z.pow_pos_nonneg; lia).
  destruct (Z.geb_spec n 64) as [C|C]; unfold cshl, cshr, u64; cbn [isg uint iw].
  - destruct (Z.ltb_spec (n - 64) 0); [lia|]. destruct (Z.leb_spec 64 (n - 64)); [lia|]. cbn [orb bind]. eexists. split; [reflexivity|]. unfold wrapu. u.
    assert (P : 2 ^ n = B * 2 ^ (n - 64)) by (change B with (2 ^ 64); rewrite <- Z.pow_add_r by lia; f_equal; lia).
    assert (PK : 0 < 2 ^ (n - 64)) by (apply Z.pow_pos_nonneg; lia).
    assert (D : 0 <= whi a / 2 ^ (n - 64) < B) by (split; [apply Z.div_pos; lia|apply Z.div_lt_upper_bound; nia]). split; [lia|].
    rewrite P, <- Z.div_div by lia. rewrite Z.div_add_l by lia. rewrite (Z.div_small (wlo a) B) by lia. rewrite Z.add_0_r. reflexivity.
  - destruct (Z.ltb_spec n 0); [lia|]. destruct (Z.leb_spec 64 n); [lia|]. destruct (Z.ltb_spec (64 - n) 0); [lia|]. destruct (Z.leb_spec 64 (64 - n)); [lia|]. cbn [orb bind].
    eexists. split; [reflexivity|]. unfold wrapu, cor. u.
    assert (P : B = 2 ^ n * 2 ^ (64 - n)) by (change B with (2 ^ 64); rewrite <- Z.pow_add_r by lia; f_equal; lia).
    assert (PM : 0 < 2 ^ (64 - n)) by (apply Z.pow_pos_nonneg; lia). set (k := 2 ^ (64 - n)) in *. set (p := 2 ^ n) in *.
    assert (D : 0 <= wlo a / p < k) by (split; [apply Z.div_pos; lia|apply Z.div_lt_upper_bound; lia]).
    assert (E1 : (whi a * k) mod B = (whi a mod p) * k) by (rewrite P, Z.mul_mod_distr_r by lia; reflexivity).
    assert (E3 : Z.lor (wlo a / p) (whi a mod p * k) = whi a mod p * k + wlo a / p) by (rewrite Z.lor_comm; unfold k in *; apply lor_split; lia). rewrite E1, E3. clearbody k p.
    pose proof (Z.mod_pos_bound (whi a) p PN) as MB. pose proof (Z.div_mod (whi a) p ltac:(lia)) as DH. assert (0 <= whi a / p < B) by (split; [apply Z.div_pos; lia|apply Z.div_lt_upper_bound; nia]).
    assert (LT : 0 <= whi a mod p * k + wlo a / p < p * k) by (clear - D PM PN MB; set (m := whi a mod p) in *; set (w := wlo a / p) in *; clearbody m w; nia). rewrite <- P in LT.
    split; [split; [lia|exact LT]|]. replace (whi a * B + wlo a) with ((whi a * k) * p + wlo a) by (rewrite P; ring). rewrite Z.div_add_l by lia.
    set (q := whi a / p) in *. set (m := whi a mod p) in *. set (w := wlo a / p) in *. clearbody q m w. transitivity ((p * q + m) * k + w); [rewrite P; ring|rewrite <- DH; ring].
Qed.
Lemma w_shift_undefined a n : wok a -> n <= 0 \/ 128 <= n -> w_shl a n = UB ShiftCount /\ w_shr a n = UB ShiftCount.
Proof.
  intros _ N. unfold w_shl, w_shr, cshl, cshr, u64. cbn [isg uint iw].
  destruct (Z.geb_spec n 64) as [C|C].
  - destruct (Z.ltb_spec (n - 64) 0); [lia|]. destruct (Z.leb_spec 64 (n - 64)); [|lia]. split; reflexivity.
  - destruct (Z.ltb_spec n 0); [split; reflexivity|]. destruct (Z.leb_spec 64 n); [lia|]. cbn [orb bind]. destruct (Z.ltb_spec (64 - n) 0); [lia|]. destruct (Z.leb_spec 64 (64 - n)); [|lia]. split; reflexivity.
Qed.
Lemma w_lt_sound a b : wok a -> wok b -> w_lt a b = true -> wval a < wval b.
Proof. intros HA HB. unfold w_lt. rewrite andb_true_iff, !Z.ltb_lt. u. intros [H1 H2]. nia. Qed.
Lemma w_lt_bad : exists a b, wok a /\ wok b /\ wval a < wval b /\ w_lt a b = false.
Proof. exists (w_of 100), (w_of 700). vm_compute. intuition discriminate. Qed.
Lemma w_conv a x : wok a -> word x -> wval (w_of x) = x /\ wok (w_of x) /\ w_to a = wval a mod 2 ^ 64.
Proof. intros [HA LA] X. unfold w_of, w_to. u. split; [lia|]. split; [lia|]. symmetry. apply (mod_eq _ _ _ (whi a)); lia. Qed.
