(** The operations of the vector classes, element by element. *)
From Coq Require Import ZArith QArith Qabs Bool List Lia Lqa.
From Verif Require Import Res CInt Spec SpecFloat SpecSimd Core Arith Asimd AsimdProof.
Import ListNotations.
Open Scope Z_scope.

(** The order as a function. *)
Definition ltb (e : elem) (x y : Z) : bool := match e with EFloat eb fb => f_lt eb fb x y | _ => x <? y end.
Lemma ltb_less e x y : ltb e x y = true <-> less e x y.
Proof.
  destruct e as [w|w|eb fb]; cbn [ltb less]; try apply Z.ltb_lt. unfold f_lt.
  destruct (ieee_val eb fb x) as [a|[]|], (ieee_val eb fb y) as [b|[]|]; cbn [ext_le]; try (split; [discriminate|tauto]); try tauto.
  rewrite negb_true_iff. split.
  - intros L. assert (~ (b <= a)%Q) by (intros H; apply Qle_bool_iff in H; congruence). split; [lra|assumption].
  - intros [_ N]. destruct (Qle_bool b a) eqn:E; [apply Qle_bool_iff in E; contradiction|reflexivity].
Qed.
Lemma ltb_not e x y : ltb e x y = false <-> ~ less e x y.
Proof. rewrite <- ltb_less. destruct (ltb e x y); intuition congruence. Qed.

Lemma k_pos c : (0 < v_k c)%nat.
Proof. destruct c; cbn; lia. Qed.
Lemma elem_mod c z : elem_ok (v_type c) z -> v_elem c (z mod 2 ^ bits_of_lane (v_k c)) = z.
Proof.
  intros B. destruct c; cbn [v_type elem_ok] in B; unfold v_elem; cbn [v_type];
    match goal with |- context [bits_of_lane ?k] => let v := eval vm_compute in (bits_of_lane k) in change (bits_of_lane k) with v end;
    try (apply Z.mod_small; assumption).
  all: unfold cast, sint; cbn [isg iw];
    match goal with |- wraps ?w _ = _ => rewrite (wraps_mod_eq w _ z) by (try apply Zmod_mod; lia) end;
    apply wraps_small; lia.
Qed.
Lemma uns_mod c z w : v_type c = EUnsigned w -> elem_ok (v_type c) z -> z mod 2 ^ bits_of_lane (v_k c) = z.
Proof. intros T B. pose proof (elem_mod c z B) as M. unfold v_elem in M. rewrite T in M. assumption. Qed.
Lemma flt_mod c z eb fb : v_type c = EFloat eb fb -> elem_ok (v_type c) z -> z mod 2 ^ bits_of_lane (v_k c) = z.
Proof. intros T B. pose proof (elem_mod c z B) as M. unfold v_elem in M. rewrite T in M. assumption. Qed.
Lemma sgn_mod c z w : v_type c = ESigned w -> elem_ok (v_type c) z -> signed (v_k c) (z mod 2 ^ bits_of_lane (v_k c)) = z.
Proof.
  intros T B. pose proof (elem_mod c z B) as M. unfold v_elem in M. rewrite T in M.
  replace (signed (v_k c)) with (cast (sint w)); [assumption|]. destruct c; try discriminate T; injection T as <-; reflexivity.
Qed.

Lemma load_store c xs : vector (v_type c) (v_n c) xs -> v_store c (v_load c xs) = xs.
Proof.
  intros [L F]. unfold v_store, v_load. rewrite lanes_of by assumption. rewrite map_map.
  rewrite <- (map_id xs) at 2. apply map_ext_in. intros z Z0. apply elem_mod. rewrite Forall_forall in F. now apply F.
Qed.

Lemma max_load c xs ys : vector (v_type c) (v_n c) xs -> vector (v_type c) (v_n c) ys ->
  v_max c (v_load c xs) (v_load c ys) = v_load c (map2 (fun x y => if ltb (v_type c) y x then x else y) xs ys).
Proof.
  intros [Lx Fx] [Ly Fy]. unfold v_load.
  destruct (v_type c) as [w|w|eb fb] eqn:T.
  - assert (v_max c = i_max_epi (v_n c) (v_k c)) as -> by (destruct c; try discriminate T; reflexivity).
    unfold i_max_epi. rewrite lanewise_of by assumption. f_equal. rewrite <- T in Fx, Fy.
    eapply map2_ext; [exact Fx|exact Fy|]. intros a b A B. rewrite !(sgn_mod c _ w T) by assumption. cbn [ltb].
    destruct (Z.ltb_spec b a); lia.
  - assert (v_max c = i_max_epu (v_n c) (v_k c)) as -> by (destruct c; try discriminate T; reflexivity).
    unfold i_max_epu. rewrite lanewise_of by assumption. f_equal. rewrite <- T in Fx, Fy.
    eapply map2_ext; [exact Fx|exact Fy|]. intros a b A B. rewrite !(uns_mod c _ w T) by assumption. cbn [ltb].
    destruct (Z.ltb_spec b a); lia.
  - assert (v_max c = i_max_p (v_n c) (v_k c)) as -> by (destruct c; try discriminate T; reflexivity).
    unfold i_max_p. rewrite lanewise_of by assumption. f_equal. rewrite <- T in Fx, Fy.
    eapply map2_ext; [exact Fx|exact Fy|]. intros a b A B. rewrite !(flt_mod c _ eb fb T) by assumption. cbn [ltb].
    assert (f_lt_of (v_k c) = f_lt eb fb) as -> by (destruct c; try discriminate T; injection T as <- <-; reflexivity). reflexivity.
Qed.

Lemma all_ones_mk k (f : Z -> Z -> bool) xs ys : of_lanes k (map2 (fun x y => all_ones k (f x y)) xs ys) = mk k (map2 f xs ys).
Proof. unfold mk. now rewrite map_map2. Qed.

Lemma cmplt_load c xs ys : vector (v_type c) (v_n c) xs -> vector (v_type c) (v_n c) ys ->
  v_cmplt c (v_load c xs) (v_load c ys) = mk (v_k c) (map2 (ltb (v_type c)) xs ys).
Proof.
  intros [Lx Fx] [Ly Fy]. unfold v_load.
  assert (SWAP : forall (f : Z -> Z -> bool), map2 f ys xs = map2 (fun x y => f y x) xs ys).
  { intros f. clear Fx Fy. revert ys xs Lx Ly. induction (v_n c) as [|n IH]; intros [|y ys] [|x xs] X Y; cbn in *; try lia; try reflexivity.
    now rewrite IH by lia. }
  assert (GEN : forall w, v_type c = EUnsigned w ->
    cmpgt_epu (v_n c) (v_k c) (of_lanes (v_k c) ys) (of_lanes (v_k c) xs) = mk (v_k c) (map2 (ltb (v_type c)) xs ys)).
  { intros w T. unfold cmpgt_epu, i_cmpeq, i_max_epu. rewrite (lanewise_of _ _ Z.max) by assumption.
    rewrite !lanewise_of by (rewrite ?map2_length; congruence).
    rewrite (all_ones_mk (v_k c) (fun x y => x mod 2 ^ bits_of_lane (v_k c) =? y mod 2 ^ bits_of_lane (v_k c))).
    rewrite (all_ones_mk (v_k c) (fun x y => x mod 2 ^ bits_of_lane (v_k c) =? y mod 2 ^ bits_of_lane (v_k c))).
    rewrite andnot_mk by (rewrite !map2_length; rewrite ?map2_length; congruence).
    f_equal. rewrite T. cbn [ltb]. rewrite <- T in *. clear SWAP. revert xs ys Lx Ly Fx Fy. induction (v_n c) as [|n IH]; intros [|x xs] [|y ys] X Y Fx Fy; cbn in X, Y; try lia; [reflexivity|].
    inversion Fx; inversion Fy; subst. cbn [map2]. f_equal; [|apply IH; try assumption; lia].
    assert (EM : forall z, elem_ok (v_type c) z -> z mod 2 ^ bits_of_lane (v_k c) = z) by (intros; now apply (uns_mod c _ w)).
    rewrite (EM x), (EM y) by assumption. rewrite (EM (Z.max y x)) by (destruct (Z.max_spec y x) as [[_ ->]|[_ ->]]; assumption).
    rewrite T. cbn [ltb]. destruct (Z.eqb_spec y x), (Z.eqb_spec (Z.max y x) y), (Z.ltb_spec x y); try reflexivity; lia. }
  destruct (v_type c) as [w|w|eb fb] eqn:T.
  - assert (v_cmplt c = fun x y => i_cmpgt_epi (v_n c) (v_k c) y x) as -> by (destruct c; try discriminate T; reflexivity).
    unfold i_cmpgt_epi. rewrite lanewise_of by assumption.
    rewrite (all_ones_mk (v_k c) (fun x y => signed (v_k c) (y mod 2 ^ bits_of_lane (v_k c)) <? signed (v_k c) (x mod 2 ^ bits_of_lane (v_k c)))).
    f_equal. rewrite SWAP. rewrite <- T in Fx, Fy. eapply map2_ext; [exact Fx|exact Fy|]. intros a b A B.
    rewrite !(sgn_mod c _ w T) by assumption. reflexivity.
  - destruct c; try discriminate T; cbn [v_cmplt]; try exact (GEN w eq_refl).
    (* simd_u16_8 *)
    injection T as <-. unfold cmplt_epu16, cmpgt_epu16, cmple_epu16, i_subs_epu16, i_cmpeq. cbn [v_n v_k] in *.
    change (repeat 0 16) with (of_lanes 2 (repeat 0 8)).
    rewrite !(lanewise_of 8 2) by (rewrite ?map2_length, ?repeat_length; congruence).
    rewrite (all_ones_mk 2 (fun x y => x mod 2 ^ bits_of_lane 2 =? y mod 2 ^ bits_of_lane 2)).
    rewrite (all_ones_mk 2 (fun x y => x mod 2 ^ bits_of_lane 2 =? y mod 2 ^ bits_of_lane 2)).
    rewrite andnot_mk by (rewrite !map2_length; rewrite ?map2_length, ?repeat_length; congruence).
    f_equal. cbn [ltb]. clear SWAP GEN. change (bits_of_lane 2) with 16.
    cbn [elem_ok] in Fx, Fy. revert xs ys Lx Ly Fx Fy. generalize 8%nat as n.
    induction n as [|n IH]; intros [|x xs] [|y ys] X Y Fx Fy; cbn in X, Y; try lia; [reflexivity|].
    inversion Fx; inversion Fy; subst. cbn [map2 repeat]. f_equal; [|apply IH; try assumption; lia].
    assert (BX : 0 <= x < 2 ^ 16) by assumption. assert (BY : 0 <= y < 2 ^ 16) by assumption.
    rewrite (Z.mod_small x), (Z.mod_small y) by assumption. rewrite (Z.mod_small 0) by lia. rewrite (Z.mod_small (Z.max 0 (x - y))) by lia.
    cbv beta delta [ltb] iota. destruct (Z.eqb_spec y x), (Z.eqb_spec (Z.max 0 (x - y)) 0), (Z.ltb_spec x y); try reflexivity; lia.
  - assert (v_cmplt c = i_cmplt_p (v_n c) (v_k c)) as -> by (destruct c; try discriminate T; reflexivity).
    unfold i_cmplt_p. rewrite lanewise_of by assumption.
    rewrite (all_ones_mk (v_k c) (fun x y => f_lt_of (v_k c) (x mod 2 ^ bits_of_lane (v_k c)) (y mod 2 ^ bits_of_lane (v_k c)))).
    f_equal. rewrite <- T in Fx, Fy. eapply map2_ext; [exact Fx|exact Fy|]. intros a b A B.
    rewrite !(flt_mod c _ eb fb T) by assumption. cbn [ltb].
    assert (f_lt_of (v_k c) = f_lt eb fb) as -> by (destruct c; try discriminate T; injection T as <- <-; reflexivity). reflexivity.
Qed.

Definition sel (x y : Z) (b : bool) : Z := if b then y else x.
Lemma blend_load c xs ys bs : length xs = v_n c -> length ys = v_n c -> length bs = v_n c ->
  v_blend c (v_load c xs) (v_load c ys) (mk (v_k c) bs) = v_load c (map3 sel xs ys bs).
Proof.
  intros X Y B. unfold v_load.
  destruct c; cbn [v_blend]; first [exact (blend8_mk _ xs ys bs ltac:(congruence) ltac:(congruence))|apply (blendv_mk _ _ xs ys bs); try assumption; cbn; lia].
Qed.

(** Indices. *)
Definition int32 := elem_ok (ESigned 32).
Lemma i32_mod z : int32 z -> signed 4 (z mod 2 ^ bits_of_lane 4) = z.
Proof. intros B. exact (sgn_mod I32_4 z 32 eq_refl B). Qed.
Lemma x_blend_reg n xs ys bs : length xs = n -> length ys = n -> length bs = n ->
  i_blendv n 4 (of_lanes 4 xs) (of_lanes 4 ys) (mk 4 bs) = of_lanes 4 (map3 sel xs ys bs).
Proof. intros. apply (blendv_mk n 4 xs ys bs); try assumption; lia. Qed.
Lemma x_load_length m l xs : length (x_load_regs m l xs) = m.
Proof. revert xs. induction m as [|m IH]; intros xs; cbn; [reflexivity|now rewrite IH]. Qed.
Lemma map3_firstn n xs : forall ys bs, firstn n (map3 sel xs ys bs) = map3 sel (firstn n xs) (firstn n ys) (firstn n bs).
Proof. induction n as [|n IH] in xs |- *; intros ys bs; [reflexivity|]. destruct xs, ys, bs; cbn; try reflexivity. now rewrite IH. Qed.
Lemma map3_nil2 xs bs : map3 sel xs [] bs = [].
Proof. destruct xs, bs; reflexivity. Qed.
Lemma map3_nil3 xs ys : map3 sel xs ys [] = [].
Proof. destruct xs, ys; reflexivity. Qed.
Lemma map3_skipn n xs : forall ys bs, skipn n (map3 sel xs ys bs) = map3 sel (skipn n xs) (skipn n ys) (skipn n bs).
Proof.
  induction n as [|n IH] in xs |- *; intros ys bs; [reflexivity|].
  destruct xs, ys, bs; cbn [map3 skipn]; rewrite ?map3_nil2, ?map3_nil3; try reflexivity. apply IH.
Qed.
Fixpoint mks (m l : nat) (bs : list bool) : list reg := match m with O => [] | S m' => mk 4 (firstn l bs) :: mks m' l (skipn l bs) end.
Lemma x_blend_regs m l : forall xs ys bs, length xs = (m * l)%nat -> length ys = (m * l)%nat -> length bs = (m * l)%nat ->
  map3 (i_blendv l 4) (x_load_regs m l xs) (x_load_regs m l ys) (mks m l bs) = x_load_regs m l (map3 sel xs ys bs).
Proof.
  induction m as [|m IH]; intros xs ys bs X Y B; [reflexivity|]. cbn [x_load_regs mks map3].
  rewrite x_blend_reg by (rewrite firstn_length; lia). rewrite IH by (rewrite skipn_length; lia).
  now rewrite map3_firstn, map3_skipn.
Qed.
Lemma x_load_store c xs : length xs = (x_regs c * x_n c)%nat -> Forall int32 xs -> x_store c (x_load c xs) = xs.
Proof.
  unfold x_store, x_load. generalize (x_n c) as l. generalize (x_regs c) as m. intros m l.
  induction m as [|m IH] in xs |- *; intros L F.
  - destruct xs; [reflexivity|discriminate].
  - cbn [x_load_regs flat_map]. rewrite lanes_of by (rewrite firstn_length; lia). rewrite map_map.
    rewrite IH; [|rewrite skipn_length; lia|].
    + rewrite <- (firstn_skipn l xs) at 3. f_equal. rewrite <- (map_id (firstn l xs)) at 2. apply map_ext_in. intros z Z0.
      apply i32_mod. rewrite Forall_forall in F. apply F. rewrite <- (firstn_skipn l xs). apply in_or_app. now left.
    + rewrite Forall_forall in *. intros z Z0. apply F. rewrite <- (firstn_skipn l xs). apply in_or_app. now right.
Qed.
