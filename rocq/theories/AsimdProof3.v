(** blendindex. *)
From Coq Require Import ZArith QArith Bool List Lia.
From Verif Require Import Res CInt Spec SpecFloat SpecSimd Core Arith Asimd AsimdProof AsimdProof2.
Import ListNotations.
Open Scope Z_scope.

Lemma mk_app k a b : mk k (a ++ b) = mk k a ++ mk k b.
Proof. unfold mk. now rewrite map_app, of_lanes_app. Qed.
Lemma firstn_mk k n bs : (n <= length bs)%nat -> firstn (k * n) (mk k bs) = mk k (firstn n bs).
Proof.
  intros L. rewrite <- (firstn_skipn n bs) at 1. rewrite mk_app. apply firstn_exact. rewrite mk_length, firstn_length. f_equal. lia.
Qed.
Lemma skipn_mk k n bs : (n <= length bs)%nat -> skipn (k * n) (mk k bs) = mk k (skipn n bs).
Proof.
  intros L. rewrite <- (firstn_skipn n bs) at 1. rewrite mk_app. apply skipn_exact. rewrite mk_length, firstn_length. f_equal. lia.
Qed.
Lemma signed_ones k b : (0 < k)%nat -> signed k (all_ones k b mod 2 ^ bits_of_lane k) = if b then -1 else 0.
Proof.
  intros K. unfold signed, cast, sint. cbn [isg iw]. assert (W : 0 < bits_of_lane k) by (unfold bits_of_lane; lia).
  pose proof (pow8_pos k). assert (P : 2 ^ bits_of_lane k = 2 * 2 ^ (bits_of_lane k - 1)).
  { rewrite <- Z.pow_succ_r by lia. f_equal. lia. }
  assert (E : (all_ones k b mod 2 ^ bits_of_lane k) mod 2 ^ bits_of_lane k = (if b then -1 else 0) mod 2 ^ bits_of_lane k).
  { rewrite Zmod_mod. destruct b; cbn [all_ones]; [|reflexivity]. rewrite Z.mod_small by lia. apply (Z.mod_unique (-1) _ (-1)); lia. }
  rewrite (wraps_mod_eq _ _ _ W E).
  apply wraps_small; destruct b; lia.
Qed.
Lemma cvt_mk k bs r : (0 < k)%nat -> (4 <= length bs)%nat -> i_cvtepi_epi32 k (mk k bs ++ r) = mk 4 (firstn 4 bs).
Proof.
  intros K L. unfold i_cvtepi_epi32. rewrite <- (firstn_skipn 4 bs) at 1. rewrite mk_app, <- app_assoc.
  assert (LF : length (firstn 4 bs) = 4%nat) by (rewrite firstn_length; lia).
  set (fs := firstn 4 bs) in *. unfold mk at 1.
  replace 4%nat with (length (map (all_ones k) fs)) at 2 by (rewrite map_length; assumption).
  rewrite lanes_app, !map_map. unfold mk. rewrite <- (of_lanes_mod 4 (map (all_ones 4) fs)).
  rewrite <- (of_lanes_mod 4 (map _ fs)). f_equal. rewrite !map_map. apply map_ext. intros b. rewrite signed_ones by assumption.
  destruct b; reflexivity.
Qed.
Lemma srl_mk k n m bs : n = (k * m)%nat -> (m <= length bs)%nat -> i_srli_si128 (mk k bs) n = mk k (skipn m bs) ++ repeat 0 n.
Proof. intros -> L. unfold i_srli_si128. now rewrite skipn_mk. Qed.
Lemma low_mk k n bs : 16%nat = (k * n)%nat -> (n <= length bs)%nat -> i_cast_si128 (mk k bs) = mk k (firstn n bs).
Proof. intros E L. unfold i_cast_si128. rewrite E. now apply firstn_mk. Qed.
Lemma high_mk k n bs : 16%nat = (k * n)%nat -> (n + n = length bs)%nat -> gethigh (mk k bs) = mk k (skipn n bs).
Proof.
  intros E L. unfold gethigh, i_permute2f128_1, i_cast_si128. rewrite E. rewrite skipn_mk by lia.
  apply firstn_exact. rewrite mk_length, skipn_length. f_equal. lia.
Qed.
Lemma merge_mk a b : mergelowhigh (mk 4 a) (mk 4 b) = mk 4 (a ++ b).
Proof. unfold mergelowhigh, i_insertf128_1. now rewrite mk_app. Qed.
Lemma cvt_mk0 k bs : (0 < k)%nat -> (4 <= length bs)%nat -> i_cvtepi_epi32 k (mk k bs) = mk 4 (firstn 4 bs).
Proof. intros. rewrite <- (app_nil_r (mk k bs)). now apply cvt_mk. Qed.

Lemma masks8_mk bs : length bs = 32%nat -> masks8 (mk 1 bs) = mks 4 8 bs.
Proof.
  intros L. unfold masks8. cbv zeta. rewrite (low_mk 1 16), (high_mk 1 16) by lia.
  assert (L1 : length (firstn 16 bs) = 16%nat) by (rewrite firstn_length; lia).
  assert (L2 : length (skipn 16 bs) = 16%nat) by (rewrite skipn_length; lia).
  rewrite !(srl_mk 1 4 4), !(srl_mk 1 8 8), !(srl_mk 1 12 12) by lia.
  rewrite !cvt_mk0 by lia. rewrite !cvt_mk by (rewrite ?skipn_length; lia). rewrite !merge_mk.
  clear L1 L2. cbn [mks]. do 32 (destruct bs as [|? bs]; [discriminate L|]). destruct bs; [|discriminate L]. reflexivity.
Qed.
(** What simd_i16_16 and simd_u16_16 make of the mask. *)
Definition shift16 (bs : list bool) : list bool :=
  map (fun i => nth i bs false) [0; 1; 2; 3; 3; 4; 5; 6; 8; 9; 10; 11; 11; 12; 13; 14]%nat.
Lemma masks16_mk bs : length bs = 16%nat -> masks16 (mk 2 bs) = mks 2 8 (shift16 bs).
Proof.
  intros L. unfold masks16. cbv zeta. rewrite (low_mk 2 8), (high_mk 2 8) by lia.
  assert (L1 : length (firstn 8 bs) = 8%nat) by (rewrite firstn_length; lia).
  assert (L2 : length (skipn 8 bs) = 8%nat) by (rewrite skipn_length; lia).
  rewrite !(srl_mk 2 6 3) by lia.
  rewrite !cvt_mk0 by lia. rewrite !cvt_mk by (rewrite ?skipn_length; lia). rewrite !merge_mk.
  clear L1 L2. cbn [mks]. do 16 (destruct bs as [|? bs]; [discriminate L|]). destruct bs; [|discriminate L]. reflexivity.
Qed.

Definition index_ok (c : vclass) : bool := match c with I8_32 | U8_32 | I32_4 | I32_8 | U32_8 | F_4 | F_8 | D_4 => true | _ => false end.
Lemma index_len c : index_ok c = true -> (x_regs c * x_n c = v_n c)%nat.
Proof. destruct c; intros H; try discriminate H; reflexivity. Qed.
Lemma mks1 l bs : length bs = l -> [mk 4 bs] = mks 1 l bs.
Proof. intros L. cbn [mks]. rewrite firstn_all2 by lia. reflexivity. Qed.
Lemma d4_mask bs : length bs = 4%nat -> i_cast_si128 (i_permutevar8x32 (mk 8 bs) [0; 2; 4; 6; 0; 2; 4; 6]%nat) = mk 4 bs.
Proof.
  intros L. do 4 (destruct bs as [|? bs]; [discriminate L|]). destruct bs; [|discriminate L].
  destruct b, b0, b1, b2; vm_compute; reflexivity.
Qed.
Lemma blendindex_load c xs ys bs : index_ok c = true -> length xs = v_n c -> length ys = v_n c -> length bs = v_n c ->
  v_blendindex c (x_load c xs) (x_load c ys) (mk (v_k c) bs) = Some (x_load c (map3 sel xs ys bs)).
Proof.
  intros I X Y B. pose proof (index_len c I) as N. rewrite <- N in *. unfold x_load.
  destruct c; try discriminate I; cbn [v_blendindex v_k x_regs x_n] in *;
    rewrite ?masks8_mk by assumption; rewrite ?d4_mask by assumption;
    try rewrite (mks1 8) by assumption; try rewrite (mks1 4) by assumption; rewrite x_blend_regs by assumption; reflexivity.
Qed.
Lemma blendindex16_load c xs ys bs : c = I16_16 \/ c = U16_16 -> length xs = v_n c -> length ys = v_n c -> length bs = v_n c ->
  v_blendindex c (x_load c xs) (x_load c ys) (mk (v_k c) bs) = Some (x_load c (map3 sel xs ys (shift16 bs))).
Proof.
  intros C X Y B. unfold x_load. destruct C as [-> | ->]; cbn [v_blendindex v_k v_n x_regs x_n] in *;
    rewrite masks16_mk, x_blend_regs by (assumption || reflexivity); reflexivity.
Qed.
Lemma d2_mask bs : length bs = 2%nat -> i_shuffle_epi32 (mk 8 bs) 0x44 = mk 4 (repeat (nth 0 bs false) 4).
Proof.
  intros L. do 2 (destruct bs as [|? bs]; [discriminate L|]). destruct bs; [|discriminate L].
  destruct b, b0; vm_compute; reflexivity.
Qed.
Lemma blendindex_d2_load xs ys bs : length xs = 4%nat -> length ys = 4%nat -> length bs = 2%nat ->
  v_blendindex D_2 (x_load D_2 xs) (x_load D_2 ys) (mk 8 bs) = Some (x_load D_2 (map3 sel xs ys (repeat (nth 0 bs false) 4))).
Proof.
  intros X Y B. unfold x_load. cbn [v_blendindex x_regs x_n]. rewrite d2_mask by assumption.
  rewrite (mks1 4), x_blend_regs by (assumption || reflexivity). reflexivity.
Qed.
