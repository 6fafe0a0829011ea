(** Lanes of registers. *)
From Coq Require Import ZArith QArith Bool List Lia.
From Verif Require Import Res CInt Spec Core Arith Asimd.
Import ListNotations.
Open Scope Z_scope.

Lemma le_bytes_length k : forall z, length (le_bytes k z) = k.
Proof. induction k as [|k IH]; intros z; cbn [le_bytes length]; [reflexivity|now rewrite IH]. Qed.
Lemma pow8 k : 2 ^ bits_of_lane (S k) = 256 * 2 ^ bits_of_lane k.
Proof.
  unfold bits_of_lane. replace (8 * Z.of_nat (S k)) with (8 + 8 * Z.of_nat k) by lia.
  rewrite Z.pow_add_r by lia. reflexivity.
Qed.
Lemma pow8_pos k : 0 < 2 ^ bits_of_lane k.
Proof. apply Z.pow_pos_nonneg; unfold bits_of_lane; lia. Qed.
Lemma le_num_bytes k : forall z, le_num (le_bytes k z) = z mod 2 ^ bits_of_lane k.
Proof.
  induction k as [|k IH]; intros z; cbn [le_bytes le_num].
  - change (2 ^ bits_of_lane 0) with 1. now rewrite Z.mod_1_r.
  - rewrite IH, pow8. symmetry. pose proof (pow8_pos k). rewrite Z.rem_mul_r by lia. reflexivity.
Qed.
Lemma le_bytes_mod k : forall z, le_bytes k (z mod 2 ^ bits_of_lane k) = le_bytes k z.
Proof.
  induction k as [|k IH]; intros z; cbn [le_bytes]; [reflexivity|]. pose proof (pow8_pos k). rewrite pow8. f_equal.
  - rewrite Z.rem_mul_r by lia. rewrite (Z.mul_comm 256), Z.mod_add, Z.mod_mod by lia. reflexivity.
  - rewrite <- (IH (z / 256)). f_equal. rewrite Z.rem_mul_r by lia.
    rewrite Z.mul_comm, Z.div_add by lia. rewrite Z.div_small by (apply Z.mod_pos_bound; lia). reflexivity.
Qed.
Lemma of_lanes_cons k z ls : of_lanes k (z :: ls) = le_bytes k z ++ of_lanes k ls.
Proof. reflexivity. Qed.
Lemma of_lanes_app k a b : of_lanes k (a ++ b) = of_lanes k a ++ of_lanes k b.
Proof. unfold of_lanes. apply flat_map_app. Qed.
Lemma of_lanes_length k ls : length (of_lanes k ls) = (k * length ls)%nat.
Proof.
  induction ls as [|z ls IH]; [cbn; lia|]. rewrite of_lanes_cons, app_length, le_bytes_length, IH. cbn [length]. lia.
Qed.
Lemma firstn_exact {A} (a b : list A) n : length a = n -> firstn n (a ++ b) = a.
Proof. intros <-. rewrite firstn_app, Nat.sub_diag, firstn_all. cbn [firstn]. apply app_nil_r. Qed.
Lemma skipn_exact {A} (a b : list A) n : length a = n -> skipn n (a ++ b) = b.
Proof. intros <-. rewrite skipn_app, Nat.sub_diag, skipn_all. reflexivity. Qed.
Lemma lanes_app k ls : forall r, lanes (length ls) k (of_lanes k ls ++ r) = map (fun z => z mod 2 ^ bits_of_lane k) ls.
Proof.
  induction ls as [|z ls IH]; intros r; [reflexivity|]. cbn [length lanes map].
  rewrite of_lanes_cons, <- app_assoc. rewrite firstn_exact, skipn_exact by apply le_bytes_length.
  rewrite le_num_bytes, IH. reflexivity.
Qed.
Lemma lanes_of n k ls : length ls = n -> lanes n k (of_lanes k ls) = map (fun z => z mod 2 ^ bits_of_lane k) ls.
Proof. intros <-. rewrite <- (app_nil_r (of_lanes k ls)). apply lanes_app. Qed.
Lemma of_lanes_mod k ls : of_lanes k (map (fun z => z mod 2 ^ bits_of_lane k) ls) = of_lanes k ls.
Proof. induction ls as [|z ls IH]; [reflexivity|]. cbn [map]. rewrite !of_lanes_cons, le_bytes_mod, IH. reflexivity. Qed.

Lemma map2_length {A B C} (f : A -> B -> C) xs : forall ys, length ys = length xs -> length (map2 f xs ys) = length xs.
Proof. induction xs as [|x xs IH]; intros [|y ys] L; cbn in *; try lia. rewrite IH; lia. Qed.
Lemma map3_length {A B C D} (f : A -> B -> C -> D) xs : forall ys zs, length ys = length xs -> length zs = length xs -> length (map3 f xs ys zs) = length xs.
Proof. induction xs as [|x xs IH]; intros [|y ys] [|z zs] L M; cbn in *; try lia. rewrite IH; lia. Qed.
Lemma map2_map {A B C A' B'} (f : A -> B -> C) (g : A' -> A) (h : B' -> B) xs : forall ys, map2 f (map g xs) (map h ys) = map2 (fun a b => f (g a) (h b)) xs ys.
Proof. induction xs as [|x xs IH]; intros [|y ys]; cbn; try reflexivity. now rewrite IH. Qed.
Lemma map_map2 {A B C D} (g : C -> D) (f : A -> B -> C) xs : forall ys, map g (map2 f xs ys) = map2 (fun a b => g (f a b)) xs ys.
Proof. induction xs as [|x xs IH]; intros [|y ys]; cbn; try reflexivity. now rewrite IH. Qed.
Lemma map3_map {A B C D A' B' C'} (f : A -> B -> C -> D) (g : A' -> A) (h : B' -> B) (i : C' -> C) xs : forall ys zs,
  map3 f (map g xs) (map h ys) (map i zs) = map3 (fun a b c => f (g a) (h b) (i c)) xs ys zs.
Proof. induction xs as [|x xs IH]; intros [|y ys] [|z zs]; cbn; try reflexivity. now rewrite IH. Qed.
Lemma map_map3 {A B C D E} (g : D -> E) (f : A -> B -> C -> D) xs : forall ys zs, map g (map3 f xs ys zs) = map3 (fun a b c => g (f a b c)) xs ys zs.
Proof. induction xs as [|x xs IH]; intros [|y ys] [|z zs]; cbn; try reflexivity. now rewrite IH. Qed.
Lemma map2_app {A B C} (f : A -> B -> C) a1 a2 : forall b1 b2, length b1 = length a1 -> map2 f (a1 ++ a2) (b1 ++ b2) = map2 f a1 b1 ++ map2 f a2 b2.
Proof. induction a1 as [|x xs IH]; intros [|y ys] b2 L; cbn in *; try lia; [reflexivity|]. rewrite IH by lia. reflexivity. Qed.
Lemma map3_app {A B C D} (f : A -> B -> C -> D) a1 a2 : forall b1 b2 c1 c2, length b1 = length a1 -> length c1 = length a1 ->
  map3 f (a1 ++ a2) (b1 ++ b2) (c1 ++ c2) = map3 f a1 b1 c1 ++ map3 f a2 b2 c2.
Proof. induction a1 as [|x xs IH]; intros [|y ys] b2 [|z zs] c2 L M; cbn in *; try lia; [reflexivity|]. rewrite IH by lia. reflexivity. Qed.
Lemma map2_ext {A B C} (f g : A -> B -> C) (P : A -> Prop) (Q : B -> Prop) xs : forall ys, Forall P xs -> Forall Q ys ->
  (forall a b, P a -> Q b -> f a b = g a b) -> map2 f xs ys = map2 g xs ys.
Proof.
  induction xs as [|x xs IH]; intros [|y ys] X Y E; cbn; try reflexivity. inversion X; inversion Y; subst.
  rewrite E, IH by assumption. reflexivity.
Qed.
Lemma map3_ext {A B C D} (f g : A -> B -> C -> D) (P : A -> Prop) (Q : B -> Prop) xs : forall ys zs, Forall P xs -> Forall Q ys ->
  (forall a b c, P a -> Q b -> f a b c = g a b c) -> map3 f xs ys zs = map3 g xs ys zs.
Proof.
  induction xs as [|x xs IH]; intros [|y ys] [|z zs] X Y E; cbn; try reflexivity. inversion X; inversion Y; subst.
  rewrite E, IH by assumption. reflexivity.
Qed.
(** Lanewise operations on packed lists. *)
Lemma lanewise_of n k f xs ys : length xs = n -> length ys = n ->
  lanewise n k f (of_lanes k xs) (of_lanes k ys) = of_lanes k (map2 (fun x y => f (x mod 2 ^ bits_of_lane k) (y mod 2 ^ bits_of_lane k)) xs ys).
Proof. intros X Y. unfold lanewise. rewrite !lanes_of by assumption. rewrite map2_map. reflexivity. Qed.

(** Masks. *)
Definition mk (k : nat) (bs : list bool) : reg := of_lanes k (map (all_ones k) bs).
Lemma bytes_zero k : le_bytes k 0 = repeat 0 k.
Proof. induction k as [|k IH]; [reflexivity|]. cbn [le_bytes repeat]. rewrite Z.mod_0_l, Z.div_0_l, IH by lia. reflexivity. Qed.
Lemma bytes_ones k : le_bytes k (2 ^ bits_of_lane k - 1) = repeat 255 k.
Proof.
  induction k as [|k IH]; [reflexivity|]. cbn [le_bytes repeat]. rewrite pow8. pose proof (pow8_pos k). f_equal.
  - symmetry. apply (Z.mod_unique _ _ (2 ^ bits_of_lane k - 1)); lia.
  - rewrite <- IH. f_equal. symmetry. apply (Z.div_unique _ _ _ 255); lia.
Qed.
Lemma bytes_mask k b : le_bytes k (all_ones k b) = repeat (if b then 255 else 0) k.
Proof. destruct b; [apply bytes_ones|apply bytes_zero]. Qed.
Lemma mk_cons k b bs : mk k (b :: bs) = repeat (if b then 255 else 0) k ++ mk k bs.
Proof. unfold mk. cbn [map]. rewrite of_lanes_cons, bytes_mask. reflexivity. Qed.
Lemma mk_length k bs : length (mk k bs) = (k * length bs)%nat.
Proof. unfold mk. now rewrite of_lanes_length, map_length. Qed.
Lemma map2_repeat {A B C} (f : A -> B -> C) a b n : map2 f (repeat a n) (repeat b n) = repeat (f a b) n.
Proof. induction n as [|n IH]; cbn; [reflexivity|now rewrite IH]. Qed.
Lemma andnot_mk k xs : forall ys, length ys = length xs -> i_andnot (mk k xs) (mk k ys) = mk k (map2 (fun a b => negb a && b) xs ys).
Proof.
  induction xs as [|x xs IH]; intros [|y ys] L; cbn in L; try lia; [reflexivity|].
  cbn [map2]. rewrite !mk_cons. unfold i_andnot. rewrite map2_app by now rewrite !repeat_length.
  rewrite map2_repeat. fold (i_andnot (mk k xs) (mk k ys)). rewrite IH by lia. f_equal. destruct x, y; reflexivity.
Qed.
Lemma blend8_bytes (x y : list Z) : forall (b : bool) n, length x = n -> length y = n ->
  map3 (fun x y s => if 128 <=? s then y else x) x y (repeat (if b then 255 else 0) n) = if b then y else x.
Proof.
  revert y. induction x as [|a x IH]; intros [|c y] b n X Y; cbn in *; subst n; try discriminate; [now destruct b|].
  cbn [repeat map3]. rewrite (IH y b (length x)) by lia. destruct b; reflexivity.
Qed.
Lemma blend8_mk k xs : forall ys bs, length ys = length xs -> length bs = length xs ->
  i_blendv_epi8 (of_lanes k xs) (of_lanes k ys) (mk k bs) = of_lanes k (map3 (fun x y (b : bool) => if b then y else x) xs ys bs).
Proof.
  induction xs as [|x xs IH]; intros [|y ys] [|b bs] L M; cbn in L, M; try lia; [reflexivity|].
  cbn [map3]. rewrite mk_cons, !of_lanes_cons. unfold i_blendv_epi8.
  rewrite map3_app by (rewrite ?repeat_length, ?le_bytes_length; reflexivity).
  rewrite blend8_bytes by apply le_bytes_length. fold (i_blendv_epi8 (of_lanes k xs) (of_lanes k ys) (mk k bs)). rewrite IH by lia.
  destruct b; reflexivity.
Qed.
Lemma ones_sel k b : (0 < k)%nat -> (2 ^ (bits_of_lane k - 1) <=? all_ones k b mod 2 ^ bits_of_lane k) = b.
Proof.
  intros K. pose proof (pow8_pos k). assert (P : 2 ^ bits_of_lane k = 2 * 2 ^ (bits_of_lane k - 1)).
  { rewrite <- Z.pow_succ_r by (unfold bits_of_lane; lia). f_equal. lia. }
  destruct b; cbn [all_ones]; rewrite Z.mod_small by lia; [apply Z.leb_le|apply Z.leb_gt]; lia.
Qed.
Lemma blendv_mk n k xs ys bs : (0 < k)%nat -> length xs = n -> length ys = n -> length bs = n ->
  i_blendv n k (of_lanes k xs) (of_lanes k ys) (mk k bs) = of_lanes k (map3 (fun x y (b : bool) => if b then y else x) xs ys bs).
Proof.
  intros K X Y B. unfold i_blendv, mk. rewrite !lanes_of by (rewrite ?map_length; assumption). rewrite map_map, map3_map.
  transitivity (of_lanes k (map (fun z => z mod 2 ^ bits_of_lane k) (map3 (fun x y (b : bool) => if b then y else x) xs ys bs)));
    [|apply of_lanes_mod]. rewrite map_map3. f_equal. clear X Y B. revert ys bs.
  induction xs as [|x xs IH]; intros [|y ys] [|b bs]; cbn [map3]; try reflexivity. rewrite IH, ones_sel by assumption.
  f_equal. destruct b; reflexivity.
Qed.
