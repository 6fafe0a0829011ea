(** The AVX-512 vector classes, element by element. *)
From Coq Require Import ZArith QArith Bool List Lia.
From Verif Require Import Res CInt Spec SpecFloat SpecSimd Core Arith Asimd AsimdProof AsimdProof2 AsimdProof4 AsimdProof5 Asimd512.
Import ListNotations.
Open Scope Z_scope.

Lemma mask_bits_of bs : mask_bits (length bs) (mask_of bs) = bs.
Proof.
  unfold mask_bits. induction bs as [|b r IH]; [reflexivity|]. cbn [length seq map mask_of]. f_equal.
  - change (Z.of_nat 0) with 0. rewrite Z.bit0_odd, Z.odd_add, Z.odd_mul. destruct b; reflexivity.
  - rewrite <- seq_shift, map_map. transitivity (map (fun i => Z.testbit (mask_of r) (Z.of_nat i)) (seq 0 (length r))); [|exact IH].
    apply map_ext. intros i. rewrite Nat2Z.inj_succ. rewrite (Z.add_comm (Z.b2z b)). apply Z.testbit_succ_r. lia.
Qed.
Lemma blend_mask n k xs ys bs : length xs = n -> length ys = n -> length bs = n ->
  i_mask_blend n k (mask_of bs) (of_lanes k xs) (of_lanes k ys) = of_lanes k (map3 sel xs ys bs).
Proof.
  intros X Y B. unfold i_mask_blend. rewrite !lanes_of by assumption. rewrite <- B, mask_bits_of. clear X Y B.
  transitivity (of_lanes k (map (fun z => z mod 2 ^ bits_of_lane k) (map3 sel xs ys bs))); [|apply of_lanes_mod]. rewrite map_map3. f_equal.
  revert ys bs. induction xs as [|x xs IH]; intros [|y ys] [|b bs]; cbn [map map3]; try reflexivity. rewrite IH. f_equal. destruct b; reflexivity.
Qed.
Lemma k_elem_mod c z : elem_ok (k_type c) z -> k_elem c (z mod 2 ^ bits_of_lane (k_k c)) = z.
Proof.
  destruct c; intros B; [exact (elem_mod I32_4 z B)|exact (elem_mod F_4 z B)|exact (elem_mod D_2 z B)].
Qed.
Lemma k_load_store c xs : vector (k_type c) (k_n c) xs -> k_store c (k_load c xs) = xs.
Proof.
  intros [L F]. unfold k_store, k_load. rewrite lanes_of by assumption. rewrite map_map.
  rewrite <- (map_id xs) at 2. apply map_ext_in. intros z Z0. apply k_elem_mod. rewrite Forall_forall in F. now apply F.
Qed.
Lemma k_max_load c xs ys : vector (k_type c) (k_n c) xs -> vector (k_type c) (k_n c) ys ->
  k_max c (k_load c xs) (k_load c ys) = k_load c (map2 (fun x y => if ltb (k_type c) y x then x else y) xs ys).
Proof.
  intros [Lx Fx] [Ly Fy]. unfold k_load. destruct c; cbn [k_max]; unfold i_max_epi, i_max_p; rewrite lanewise_of by assumption; f_equal;
    (eapply map2_ext; [exact Fx|exact Fy|]); intros a b A B; cbn [k_type ltb k_k] in *.
  - rewrite !(sgn_mod I32_4 _ 32 eq_refl) by assumption. destruct (Z.ltb_spec b a); lia.
  - rewrite !(flt_mod F_4 _ 8 23 eq_refl) by assumption. reflexivity.
  - rewrite !(flt_mod D_2 _ 11 52 eq_refl) by assumption. reflexivity.
Qed.
Lemma k_cmplt_load c xs ys : vector (k_type c) (k_n c) xs -> vector (k_type c) (k_n c) ys ->
  k_cmplt c (k_load c xs) (k_load c ys) = mask_of (map2 (ltb (k_type c)) xs ys).
Proof.
  intros [Lx Fx] [Ly Fy]. unfold k_load. destruct c; cbn [k_cmplt]; unfold i_cmplt_epi_mask, i_cmplt_p_mask; rewrite !lanes_of by assumption; rewrite map2_map; f_equal;
    (eapply map2_ext; [exact Fx|exact Fy|]); intros a b A B; cbn [k_type ltb k_k] in *.
  - rewrite !(sgn_mod I32_4 _ 32 eq_refl) by assumption. reflexivity.
  - rewrite !(flt_mod F_4 _ 8 23 eq_refl) by assumption. reflexivity.
  - rewrite !(flt_mod D_2 _ 11 52 eq_refl) by assumption. reflexivity.
Qed.
Lemma kx_load_store c xs : vector (ESigned 32) (k_n c) xs -> kx_store c (kx_load xs) = xs.
Proof.
  intros [L F]. unfold kx_store, kx_load. rewrite lanes_of by assumption. rewrite map_map. rewrite <- (map_id xs) at 2. apply map_ext_in. intros z Z0.
  apply i32_mod. rewrite Forall_forall in F. now apply F.
Qed.
Lemma lt_len c xs ys : vector (k_type c) (k_n c) xs -> vector (k_type c) (k_n c) ys -> length (map2 (ltb (k_type c)) xs ys) = k_n c.
Proof. intros [X _] [Y _]. rewrite map2_length; congruence. Qed.

Lemma k_max_ok c xs ys i : vector (k_type c) (k_n c) xs -> vector (k_type c) (k_n c) ys -> (i < k_n c)%nat ->
  let r := nth i (k_store c (k_max c (k_load c xs) (k_load c ys))) 0 in
  (less (k_type c) (nth i ys 0) (nth i xs 0) -> r = nth i xs 0) /\ (~ less (k_type c) (nth i ys 0) (nth i xs 0) -> r = nth i ys 0).
Proof.
  intros X Y I. cbv zeta. rewrite k_max_load by assumption. destruct X as [X FX], Y as [Y FY]. rewrite k_load_store.
  - rewrite (nth_map2 _ 0 0) by congruence. split; intros L.
    + apply ltb_less in L. now rewrite L.
    + apply ltb_not in L. now rewrite L.
  - split; [rewrite map2_length; congruence|]. clear I. revert X Y FX FY. generalize (k_n c) as n. intros n. revert n ys.
    induction xs as [|x xs IH]; intros n [|y ys] X Y FX FY; cbn [map2]; try constructor; inversion FX; inversion FY; subst.
    + destruct (ltb _ y x); assumption.
    + apply (IH (length xs)); try assumption; [reflexivity|cbn in Y; lia].
Qed.
Lemma sel_less e n xs ys us vs i : length xs = n -> length ys = n -> length us = n -> length vs = n -> (i < n)%nat ->
  let r := nth i (map3 sel us vs (map2 (ltb e) xs ys)) 0 in
  (less e (nth i xs 0) (nth i ys 0) -> r = nth i vs 0) /\ (~ less e (nth i xs 0) (nth i ys 0) -> r = nth i us 0).
Proof.
  intros X Y U W I. cbv zeta. rewrite (nth_map3 _ 0 0 false) by (rewrite ?map2_length; congruence). rewrite (nth_map2 _ 0 0) by congruence. unfold sel. split; intros L.
  - apply ltb_less in L. now rewrite L.
  - apply ltb_not in L. now rewrite L.
Qed.
Lemma k_blend_ok c xs ys us vs i : vector (k_type c) (k_n c) xs -> vector (k_type c) (k_n c) ys ->
  vector (k_type c) (k_n c) us -> vector (k_type c) (k_n c) vs -> (i < k_n c)%nat ->
  let r := nth i (k_store c (k_blend c (k_load c us) (k_load c vs) (k_cmplt c (k_load c xs) (k_load c ys)))) 0 in
  (less (k_type c) (nth i xs 0) (nth i ys 0) -> r = nth i vs 0) /\ (~ less (k_type c) (nth i xs 0) (nth i ys 0) -> r = nth i us 0).
Proof.
  intros X Y U W I. cbv zeta. rewrite k_cmplt_load by assumption. unfold k_blend, k_load. rewrite blend_mask by (try apply U; try apply W; now apply lt_len).
  fold (k_load c (map3 sel us vs (map2 (ltb (k_type c)) xs ys))). rewrite k_load_store by (apply vector_sel; try assumption; now apply lt_len).
  apply (sel_less _ (k_n c)); try assumption; [apply X|apply Y|apply U|apply W].
Qed.
Lemma k_blendindex_ok c xs ys us vs i : vector (k_type c) (k_n c) xs -> vector (k_type c) (k_n c) ys ->
  vector (ESigned 32) (k_n c) us -> vector (ESigned 32) (k_n c) vs -> (i < k_n c)%nat ->
  let r := nth i (kx_store c (k_blendindex c (kx_load us) (kx_load vs) (k_cmplt c (k_load c xs) (k_load c ys)))) 0 in
  (less (k_type c) (nth i xs 0) (nth i ys 0) -> r = nth i vs 0) /\ (~ less (k_type c) (nth i xs 0) (nth i ys 0) -> r = nth i us 0).
Proof.
  intros X Y U W I. cbv zeta. rewrite k_cmplt_load by assumption. unfold k_blendindex, kx_load. rewrite blend_mask by (try apply U; try apply W; now apply lt_len).
  fold (kx_load (map3 sel us vs (map2 (ltb (k_type c)) xs ys))). rewrite kx_load_store by (apply vector_sel; try assumption; now apply lt_len).
  apply (sel_less _ (k_n c)); try assumption; [apply X|apply Y|apply U|apply W].
Qed.

Definition k_regs (c : kclass) (p : list Z * list Z) : reg * reg := (k_load c (fst p), kx_load (snd p)).
Definition k_step (c : kclass) (p : list Z * list Z) : Prop :=
  vector (k_type c) (k_n c) (fst p) /\ vector (ESigned 32) (k_n c) (snd p) /\ Forall (not_nan (k_type c)) (fst p).
Lemma k_argmax_gen c : forall steps p h, k_step c p -> Forall (k_step c) h -> Forall (k_step c) steps ->
  (forall j, (j < k_n c)%nat -> first_max (k_type c) (lane_history j h) (nth j (fst p) 0) (nth j (snd p) 0)) ->
  exists q, k_argmax c (k_regs c p) (map (k_regs c) steps) = k_regs c q /\ k_step c q /\
  forall j, (j < k_n c)%nat -> first_max (k_type c) (lane_history j (h ++ steps)) (nth j (fst q) 0) (nth j (snd q) 0).
Proof.
  induction steps as [|s steps IH]; intros p h P Hh S I.
  - exists p. rewrite app_nil_r. repeat split; try apply P. assumption.
  - inversion S as [|? ? S1 S2]; subst. cbn [map k_argmax]. unfold k_regs at 1 2.
    destruct P as (PV & PX & PN), S1 as (SV & SX & SN). rewrite k_cmplt_load by assumption.
    unfold k_blend, k_blendindex, k_load at 1 2, kx_load at 1 2. rewrite !blend_mask by (try apply PX; try apply SX; try apply PV; try apply SV; now apply lt_len).
    set (bs := map2 _ _ _) in *. set (q := (map3 sel (fst p) (fst s) bs, map3 sel (snd p) (snd s) bs)).
    change (exists q0, k_argmax c (k_regs c q) (map (k_regs c) steps) = k_regs c q0 /\ k_step c q0 /\
      forall j, (j < k_n c)%nat -> first_max (k_type c) (lane_history j (h ++ s :: steps)) (nth j (fst q0) 0) (nth j (snd q0) 0)).
    replace (h ++ s :: steps) with ((h ++ [s]) ++ steps) by (rewrite <- app_assoc; reflexivity).
    assert (LM : length bs = k_n c) by now apply lt_len.
    apply IH.
    + unfold q. split; [|split]; cbn [fst snd]; [apply vector_sel; assumption|apply vector_sel; assumption|]. now apply Forall_map3.
    + apply Forall_app. split; [assumption|]. constructor; [|constructor]. now split; [|split].
    + assumption.
    + intros j J. unfold lane_history. rewrite map_app. cbn [map]. fold (lane_history j h). unfold q. cbn [fst snd].
      assert (LL : length (fst p) = k_n c /\ length (fst s) = k_n c /\ length (snd p) = k_n c /\ length (snd s) = k_n c)
        by (repeat split; try apply PV; try apply SV; try apply PX; apply SX).
      destruct LL as (L1 & L2 & L3 & L4).
      rewrite !(nth_map3 _ 0 0 false) by congruence. unfold bs. rewrite (nth_map2 _ 0 0) by congruence.
      destruct (ltb (k_type c) (nth j (fst p) 0) (nth j (fst s) 0)) eqn:E; unfold sel.
      * apply ltb_less in E. apply (first_max_new _ _ (nth j (fst p) 0) (nth j (snd p) 0)); [now apply I| |assumption].
        intros u k H. unfold lane_history in H. apply in_map_iff in H. destruct H as (r & R & RI). injection R as <- _.
        rewrite Forall_forall in Hh. destruct (Hh r RI) as ((LR & _) & _ & NR). rewrite Forall_forall in NR. apply NR, nth_In. lia.
      * apply ltb_not in E. apply first_max_keep; [now apply I|assumption].
Qed.
Lemma k_argmax_ok c p steps : (forall q, In q (p :: steps) ->
    vector (k_type c) (k_n c) (fst q) /\ vector (ESigned 32) (k_n c) (snd q) /\ Forall (not_nan (k_type c)) (fst q)) ->
  let r := k_argmax c (k_load c (fst p), kx_load (snd p)) (map (fun q => (k_load c (fst q), kx_load (snd q))) steps) in
  forall j, (j < k_n c)%nat -> first_max (k_type c) (lane_history j (p :: steps)) (nth j (k_store c (fst r)) 0) (nth j (kx_store c (snd r)) 0).
Proof.
  intros S. assert (P : k_step c p) by (apply S; now left). assert (SS : Forall (k_step c) steps) by (apply Forall_forall; intros q Q; apply S; now right).
  destruct (k_argmax_gen c steps p [p] P) as (q & E & Q & F).
  - now constructor.
  - assumption.
  - intros j J. apply first_max_one.
  - cbv zeta. change (k_argmax c (k_load c (fst p), kx_load (snd p)) (map (fun q => (k_load c (fst q), kx_load (snd q))) steps)) with (k_argmax c (k_regs c p) (map (k_regs c) steps)).
    rewrite E. intros j J. unfold k_regs. cbn [fst snd]. destruct Q as (QV & QX & QN). rewrite k_load_store, kx_load_store by assumption. now apply F.
Qed.
Lemma kx_inc_ok c x : (forall j, (j < k_n c)%nat -> int32 (Z.of_nat j * x)) ->
  exists r, kx_initincrement c x = Ok r /\ kx_store c r = map (fun j => Z.of_nat j * x) (seq 0 (k_n c)).
Proof.
  intros H. unfold kx_initincrement. rewrite incs_ok by exact H. cbn [bind]. eexists. split; [reflexivity|].
  rewrite kx_load_store; [reflexivity|]. split; [now rewrite map_length, seq_length|]. apply Forall_forall. intros z Z0. apply in_map_iff in Z0.
  destruct Z0 as (j & <- & J). apply in_seq in J. apply H. lia.
Qed.
Lemma kx_add_nth c xs ys i : length xs = k_n c -> length ys = k_n c -> (i < k_n c)%nat ->
  let r := nth i (kx_store c (kx_add c (kx_load xs) (kx_load ys))) 0 in
  elem_ok (ESigned 32) r /\ exists q, r = nth i xs 0 + nth i ys 0 + q * 2 ^ 32.
Proof.
  intros X Y I. cbv zeta.
  assert (E : kx_store c (kx_add c (kx_load xs) (kx_load ys)) = map2 (fun a b => cast (sint 32) (a + b)) xs ys).
  { unfold kx_store, kx_add, kx_load, i_add_epi32. rewrite lanewise_of by assumption. rewrite lanes_of by (rewrite map2_length; congruence).
    rewrite map_map, map_map2. eapply (map2_ext _ _ (fun _ => True) (fun _ => True)); try (apply Forall_forall; trivial).
    intros a b _ _. unfold signed, cast, sint. cbn [isg iw]. change (bits_of_lane 4) with 32.
    apply wraps_mod_eq; [lia|]. rewrite Zmod_mod. now rewrite <- Zplus_mod. }
  rewrite E. rewrite (nth_map2 _ 0 0) by congruence.
  set (z := nth i xs 0 + nth i ys 0). unfold cast, sint, wraps. cbn [isg iw elem_ok].
  pose proof (Z.mod_pos_bound (z + 2 ^ (32 - 1)) (2 ^ 32) ltac:(lia)). split; [lia|].
  exists (- ((z + 2 ^ (32 - 1)) / 2 ^ 32)). pose proof (Z.div_mod (z + 2 ^ (32 - 1)) (2 ^ 32) ltac:(lia)). lia.
Qed.
Lemma k_strided_ok c m p stride xs : vector (k_type c) (k_n c) xs -> elem_ok (ESigned 32) stride ->
  (forall i, (i < k_n c)%nat -> holds m (p + Z.of_nat i * stride * Z.of_nat (k_k c)) (Z.of_nat (k_k c)) (nth i xs 0)) ->
  (forall i, (i < k_n c)%nat -> elem_ok (ESigned 32) (Z.of_nat i * stride * Z.of_nat (k_k c))) ->
  exists pre, k_initgather c stride = Ok pre /\ k_store c (k_loadstrided c m p stride pre) = xs.
Proof.
  intros V SB H G. pose proof V as [L F].
  assert (N : forall i, (i < length xs)%nat -> mem_num m (p + Z.of_nat i * stride * Z.of_nat (k_k c)) (k_k c) = nth i (map (fun z => z mod 2 ^ bits_of_lane (k_k c)) xs) 0).
  { intros i I. rewrite (nth_indep _ 0 (0 mod 2 ^ bits_of_lane (k_k c))) by (now rewrite map_length).
    rewrite (map_nth (fun z => z mod 2 ^ bits_of_lane (k_k c))). apply mem_num_holds, H. lia. }
  assert (D : forall a, (forall i, (i < length xs)%nat -> mem_num m (a i) (k_k c) = nth i (map (fun z => z mod 2 ^ bits_of_lane (k_k c)) xs) 0) ->
    k_store c (k_load c (map (fun i => mem_num m (a i) (k_k c)) (seq 0 (k_n c)))) = xs).
  { intros a A. rewrite <- L, <- (map_length (fun z => z mod 2 ^ bits_of_lane (k_k c)) xs). rewrite (map_seq_nth _ _ 0) by (rewrite map_length; exact A).
    unfold k_load. rewrite of_lanes_mod. now apply k_load_store. }
  assert (X1 : int32 (stride * Z.of_nat (k_k c))).
  { replace (stride * Z.of_nat (k_k c)) with (Z.of_nat 1 * stride * Z.of_nat (k_k c)) by lia. apply G. destruct c; cbn; lia. }
  assert (CE : cast c_int (cast (uint 64) (stride * Z.of_nat (k_k c))) = stride * Z.of_nat (k_k c)).
  { unfold cast, c_int, sint, uint. cbn [isg iw]. unfold wrapu. rewrite (wraps_mod_eq 32 _ (stride * Z.of_nat (k_k c))).
    - unfold int32, elem_ok in X1. apply wraps_small; lia.
    - lia.
    - symmetry. apply Znumtheory.Zmod_div_mod; try lia. now exists (2 ^ 32). }
  unfold k_initgather. rewrite CE. destruct (kx_inc_ok c (stride * Z.of_nat (k_k c))) as (r & R & S).
  { intros j J. rewrite Z.mul_assoc. now apply G. }
  exists r. split; [exact R|]. unfold k_loadstrided. destruct (Z.eqb_spec stride 1) as [->|].
  - apply (D (fun i => p + Z.of_nat i * Z.of_nat (k_k c))). intros i I. rewrite <- N by assumption. f_equal. lia.
  - unfold k_gather. rewrite S, map_map. apply (D (fun i => p + Z.of_nat i * (stride * Z.of_nat (k_k c)))). intros i I. rewrite <- N by assumption. f_equal. lia.
Qed.
Lemma bad_k_strided : exists m p stride xs, vector (ESigned 32) 16 xs /\ elem_ok (ESigned 32) stride /\
  (forall i, (i < 16)%nat -> holds m (p + Z.of_nat i * stride * 4) 4 (nth i xs 0)) /\
  exists pre, k_initgather I32_16 stride = Ok pre /\ k_store I32_16 (k_loadstrided I32_16 m p stride pre) <> xs.
Proof.
  exists (fun a => if a =? 2 ^ 32 then 1 else 0), 0, (2 ^ 30), [0; 1; 0; 0; 0; 0; 0; 0; 0; 0; 0; 0; 0; 0; 0; 0].
  split; [split; [reflexivity|]; repeat (apply Forall_cons; [cbn [elem_ok]; lia|]); constructor|]. split; [vm_compute; split; [discriminate|reflexivity]|].
  split.
  - intros i I k K. assert (C : k = 0 \/ k = 1 \/ k = 2 \/ k = 3) by lia.
    do 16 (destruct i as [|i]; [destruct C as [-> | [-> | [-> | ->]]]; reflexivity|]). lia.
  - eexists. split; [reflexivity|]. vm_compute. discriminate.
Qed.
Lemma k_size c xs : vector (k_type c) (k_n c) xs -> length (k_load c xs) = 64%nat.
Proof. intros [L _]. unfold k_load. rewrite of_lanes_length, L. destruct c; reflexivity. Qed.
