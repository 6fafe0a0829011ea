(** Proofs about the hardware bit field helper and the texts of bits. *)
From Coq Require Import ZArith Bool Ascii String Lia.
From Verif Require Import Res CInt Cfg Bits Print Arith BitsProof PrintProof BitHw.
Open Scope Z_scope.

Lemma hw_value w x off n : is_width w -> 0 <= x < 2 ^ w -> 0 <= off < 256 -> 0 <= n < 256 ->
  bitset_gethw w x off n = (x / 2 ^ off) mod 2 ^ n.
Proof.
  intros W X O N. unfold bitset_gethw, bextr. rewrite (Z.mod_small off), (Z.mod_small n) by lia.
  assert (WP : 8 <= w <= 64) by (destruct W as [->|[->|[->| ->]]]; lia).
  assert (I : cast (uint (if w =? 64 then 64 else 32)) x = x).
  { unfold cast, uint. cbn [isg iw]. unfold wrapu. apply Z.mod_small. split; [lia|].
    destruct (Z.eqb_spec w 64) as [->|E]; [lia|].
    pose proof (Z.pow_le_mono_r 2 w 32 ltac:(lia) ltac:(destruct W as [->|[->|[->| ->]]]; lia)). lia. }
  rewrite I. unfold cast, uint. cbn [isg iw]. unfold wrapu.
  pose proof (Z.pow_pos_nonneg 2 off ltac:(lia) ltac:(lia)). pose proof (Z.pow_pos_nonneg 2 n ltac:(lia) ltac:(lia)).
  assert (D : 0 <= x / 2 ^ off <= x).
  { split; [apply Z.div_pos; lia|]. apply Z.div_le_upper_bound; nia. }
  apply Z.mod_small. split; [apply Z.mod_pos_bound; lia|]. pose proof (Z.mod_le (x / 2 ^ off) (2 ^ n) ltac:(lia) ltac:(lia)). lia.
Qed.

Lemma hw_field w x off n : is_width w -> 0 <= x < 2 ^ w -> 0 <= off < 256 -> 0 <= n < 256 ->
  0 <= bitset_gethw w x off n /\
  forall i, 0 <= i -> Z.testbit (bitset_gethw w x off n) i = (i <? n) && Z.testbit x (i + off).
Proof.
  intros W X O N. rewrite hw_value by assumption. split; [apply Z.mod_pos_bound; apply Z.pow_pos_nonneg; lia|].
  intros i I. rewrite mod_bits, div_bits by lia. reflexivity.
Qed.

Lemma hw_same w x off n : is_width w -> 0 <= x < 2 ^ w -> 0 < n <= w -> 0 <= off < w ->
  bitset_get w x off n = Ok (bitset_gethw w x off n).
Proof.
  intros W X N O. assert (WP : 8 <= w <= 64) by (destruct W as [->|[->|[->| ->]]]; lia).
  rewrite hw_value by (try assumption; lia). apply bitset_get_spec; try assumption. unfold pw. lia.
Qed.

Lemma hw_zero w x off : is_width w -> 32 <= w -> 0 <= x < 2 ^ w -> 0 <= off < w ->
  bitset_get w x off 0 = UB ShiftCount /\ bitset_gethw w x off 0 = 0.
Proof.
  intros W L X O. assert (WP : 8 <= w <= 64) by (destruct W as [->|[->|[->| ->]]]; lia).
  split; [|rewrite hw_value by (try assumption; lia); apply Z.mod_1_r].
  unfold bitset_get, cshr, bitmask, cshr, prom, uint. cbn [iw isg]. destruct (Z.ltb_spec w 32); [lia|]. cbn [iw isg].
  destruct (Z.ltb_spec off 0); [lia|]. destruct (Z.leb_spec w off); [lia|]. cbn [orb bind].
  replace (w - 0) with w by lia. destruct (Z.ltb_spec w 0); [lia|]. rewrite Z.leb_refl. reflexivity.
Qed.

Lemma bits_get n : forall z k, (k < n)%nat ->
  String.get k (bits_text n z) = Some (if Z.testbit z (Z.of_nat (n - 1 - k)) then "1" else "0")%char.
Proof.
  induction n as [|n IH]; intros z k K; [lia|]. cbn [bits_text]. destruct k as [|k].
  - cbn [String.get]. replace (S n - 1 - 0)%nat with n by lia. reflexivity.
  - cbn [String.get]. rewrite IH by lia. replace (S n - 1 - S k)%nat with (n - 1 - k)%nat by lia. reflexivity.
Qed.

Lemma bits_ext n : forall z z', (forall i, (i < n)%nat -> Z.testbit z (Z.of_nat i) = Z.testbit z' (Z.of_nat i)) ->
  bits_text n z = bits_text n z'.
Proof.
  induction n as [|n IH]; intros z z' H; [reflexivity|]. cbn [bits_text]. rewrite (H n) by lia. f_equal. apply IH.
  intros i I. apply H. lia.
Qed.

Lemma bits_app n m : forall z, bits_text (n + m) z = (bits_text n (z / 2 ^ Z.of_nat m) ++ bits_text m z)%string.
Proof.
  induction n as [|n IH]; intros z; [reflexivity|]. cbn [Nat.add bits_text String.append]. rewrite IH.
  rewrite div_bits by lia. rewrite Nat2Z.inj_add. reflexivity.
Qed.

Lemma wrap64_bit z i : 0 <= i < 64 -> Z.testbit (wrapu 64 z) i = Z.testbit z i.
Proof. intros I. unfold wrapu. rewrite mod_bits by lia. destruct (Z.ltb_spec i 64); [reflexivity|lia]. Qed.

Lemma all_text t x : is_width (iw t) ->
  Z.of_nat (String.length (bitset_all t x)) = iw t /\
  forall k, 0 <= k < iw t ->
    String.get (Z.to_nat k) (bitset_all t x) = Some (if Z.testbit x (iw t - 1 - k) then "1" else "0")%char.
Proof.
  intros W. assert (WP : 8 <= iw t <= 64) by (destruct W as [H|[H|[H|H]]]; rewrite H; lia).
  unfold bitset_all. rewrite bits_length. split; [lia|].
  intros k K. rewrite bits_get by lia. replace (Z.of_nat (Z.to_nat (iw t) - 1 - Z.to_nat k)) with (iw t - 1 - k) by lia.
  rewrite wrap64_bit by lia. reflexivity.
Qed.

Lemma lsb_text t n x : is_width (iw t) -> 0 <= n <= iw t ->
  Z.of_nat (String.length (bitset_lsb t n x)) = n /\
  forall k, 0 <= k < n -> String.get (Z.to_nat k) (bitset_lsb t n x) = Some (if Z.testbit x (n - 1 - k) then "1" else "0")%char.
Proof.
  intros W N. assert (WP : 8 <= iw t <= 64) by (destruct W as [H|[H|[H|H]]]; rewrite H; lia).
  unfold bitset_lsb. rewrite bits_length. split; [lia|].
  intros k K. rewrite bits_get by lia. replace (Z.of_nat (Z.to_nat n - 1 - Z.to_nat k)) with (n - 1 - k) by lia.
  rewrite wrap64_bit by lia. reflexivity.
Qed.

Lemma msb_shift t n x : is_width (iw t) -> 0 < n <= iw t ->
  bitset_msb t n x = Ok (bits_text (Z.to_nat n) (wrapu 64 (x / 2 ^ (iw t - n)))).
Proof.
  intros W N. assert (WP : 8 <= iw t <= 64) by (destruct W as [H|[H|[H|H]]]; rewrite H; lia).
  unfold bitset_msb, cshr.
  assert (P : iw t <= iw (prom t)) by (unfold prom; destruct (Z.ltb_spec (iw t) 32); cbn [iw c_int sint]; lia).
  destruct (Z.ltb_spec (iw t - n) 0); [lia|]. destruct (Z.leb_spec (iw (prom t)) (iw t - n)); [lia|]. reflexivity.
Qed.

Lemma msb_text t n x : is_width (iw t) -> 0 < n <= iw t ->
  exists s, bitset_msb t n x = Ok s /\ Z.of_nat (String.length s) = n /\
  forall k, 0 <= k < n -> String.get (Z.to_nat k) s = Some (if Z.testbit x (iw t - 1 - k) then "1" else "0")%char.
Proof.
  intros W N. assert (WP : 8 <= iw t <= 64) by (destruct W as [H|[H|[H|H]]]; rewrite H; lia).
  eexists. split; [apply msb_shift; assumption|]. rewrite bits_length. split; [lia|].
  intros k K. rewrite bits_get by lia. replace (Z.of_nat (Z.to_nat n - 1 - Z.to_nat k)) with (n - 1 - k) by lia.
  rewrite wrap64_bit, div_bits by lia. replace (n - 1 - k + (iw t - n)) with (iw t - 1 - k) by lia. reflexivity.
Qed.

Lemma text_split t n x : is_width (iw t) -> 0 < n <= iw t ->
  exists s, bitset_msb t n x = Ok s /\ bitset_all t x = (s ++ bitset_lsb t (iw t - n) x)%string.
Proof.
  intros W N. assert (WP : 8 <= iw t <= 64) by (destruct W as [H|[H|[H|H]]]; rewrite H; lia).
  eexists. split; [apply msb_shift; assumption|]. unfold bitset_all, bitset_lsb.
  replace (Z.to_nat (iw t)) with (Z.to_nat n + Z.to_nat (iw t - n))%nat by lia. rewrite bits_app. f_equal.
  apply bits_ext. intros i I. rewrite div_bits by lia. rewrite !wrap64_bit by lia. rewrite div_bits by lia.
  rewrite Z2Nat.id by lia. reflexivity.
Qed.

Lemma msb_none t x : 32 <= iw t -> bitset_msb t 0 x = UB ShiftCount.
Proof.
  intros W. unfold bitset_msb, cshr, prom. destruct (Z.ltb_spec (iw t) 32); [lia|].
  replace (iw t - 0) with (iw t) by lia. destruct (Z.ltb_spec (iw t) 0); [lia|]. rewrite Z.leb_refl. reflexivity.
Qed.
