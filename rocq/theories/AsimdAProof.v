(** Arrays of vectors, element by element. *)
From Coq Require Import ZArith QArith Bool List Lia.
From Verif Require Import Res CInt Spec SpecFloat SpecSimd Core Arith Asimd AsimdProof AsimdProof2 AsimdProof3 AsimdProof4 AsimdProof5 Asimd512 Asimd512Proof AsimdA.
Import ListNotations.
Open Scope Z_scope.

Definition mx (e : elem) (x y : Z) : Z := if ltb e y x then x else y.
Lemma w_load_store c xs : vector (w_type c) (w_n c) xs -> w_store c (w_load c xs) = xs.
Proof. destruct c as [c|c]; [apply load_store|apply k_load_store]. Qed.
Lemma w_max_load c xs ys : vector (w_type c) (w_n c) xs -> vector (w_type c) (w_n c) ys ->
  w_max c (w_load c xs) (w_load c ys) = w_load c (map2 (mx (w_type c)) xs ys).
Proof. destruct c as [c|c]; [apply max_load|apply k_max_load]. Qed.
Lemma w_blend_load c xs ys us vs : vector (w_type c) (w_n c) xs -> vector (w_type c) (w_n c) ys -> length us = w_n c -> length vs = w_n c ->
  w_blend c (w_load c us) (w_load c vs) (w_cmplt c (w_load c xs) (w_load c ys)) = w_load c (map3 sel us vs (map2 (ltb (w_type c)) xs ys)).
Proof.
  destruct c as [c|c]; intros X Y U W; cbn [w_blend w_cmplt w_load w_type w_n] in *.
  - rewrite cmplt_load by assumption. apply blend_load; try assumption. destruct X as [X _], Y as [Y _]. rewrite map2_length; congruence.
  - rewrite k_cmplt_load by assumption. unfold k_blend, k_load. apply blend_mask; try assumption. now apply lt_len.
Qed.
Definition w_index_ok (c : wclass) : bool := match c with V c => index_ok c | K _ => true end.
Lemma wx_len_ok c : w_index_ok c = true -> wx_len c = w_n c.
Proof. destruct c as [c|c]; intros H; [now apply index_len|reflexivity]. Qed.
Lemma wx_load_store c xs : vector (ESigned 32) (wx_len c) xs -> wx_store c (wx_load c xs) = xs.
Proof.
  destruct c as [c|c]; intros [L F]; cbn [wx_store wx_load wx_len] in *.
  - now apply x_load_store.
  - cbn [flat_map]. rewrite app_nil_r. apply kx_load_store. now split.
Qed.
Lemma w_blendindex_load c xs ys us vs : w_index_ok c = true -> vector (w_type c) (w_n c) xs -> vector (w_type c) (w_n c) ys -> length us = w_n c -> length vs = w_n c ->
  w_blendindex c (wx_load c us) (wx_load c vs) (w_cmplt c (w_load c xs) (w_load c ys)) = Some (wx_load c (map3 sel us vs (map2 (ltb (w_type c)) xs ys))).
Proof.
  destruct c as [c|c]; intros I X Y U W; cbn [w_blendindex w_cmplt w_load wx_load w_type w_n] in *.
  - rewrite cmplt_load by assumption. apply blendindex_load; try assumption. destruct X as [X _], Y as [Y _]. rewrite map2_length; congruence.
  - rewrite k_cmplt_load by assumption. cbn [map2]. unfold k_blendindex, kx_load. rewrite blend_mask; try assumption; [reflexivity|]. now apply lt_len.
Qed.

(** Taking and dropping. *)
Lemma map2_firstn {A B C} (f : A -> B -> C) n : forall xs ys, firstn n (map2 f xs ys) = map2 f (firstn n xs) (firstn n ys).
Proof. induction n as [|n IH]; intros [|x xs] [|y ys]; cbn; try reflexivity. now rewrite IH. Qed.
Lemma map2_nil2 {A B C} (f : A -> B -> C) xs : map2 f xs [] = [].
Proof. destruct xs; reflexivity. Qed.
Lemma map2_skipn {A B C} (f : A -> B -> C) n : forall xs ys, skipn n (map2 f xs ys) = map2 f (skipn n xs) (skipn n ys).
Proof. induction n as [|n IH]; intros [|x xs] [|y ys]; cbn [skipn map2]; rewrite ?map2_nil2; try reflexivity. apply IH. Qed.
Lemma vector_cut e a b xs : vector e (a + b) xs -> vector e a (firstn a xs) /\ vector e b (skipn a xs).
Proof.
  intros [L F]. rewrite <- (firstn_skipn a xs) in F. apply Forall_app in F. destruct F. split; (split; [|assumption]);
    [rewrite firstn_length; lia|rewrite skipn_length; lia].
Qed.
Lemma vector_map2 e n f xs ys : (forall x y, elem_ok e x -> elem_ok e y -> elem_ok e (f x y)) -> vector e n xs -> vector e n ys -> vector e n (map2 f xs ys).
Proof.
  intros F [X FX] [Y FY]. split; [rewrite map2_length; congruence|]. clear X Y. revert ys FY. induction FX as [|x xs PX FX IH]; intros [|y ys] FY; cbn [map2]; try constructor; inversion FY; subst; auto.
Qed.
Lemma mx_ok e x y : elem_ok e x -> elem_ok e y -> elem_ok e (mx e x y).
Proof. unfold mx. destruct (ltb e y x); trivial. Qed.

Lemma a_load_store c : forall N xs, vector (w_type c) (N * w_n c) xs -> a_store c (a_load c N (w_n c) xs) = xs.
Proof.
  unfold a_store. induction N as [|N IH]; intros xs Vx.
  - destruct Vx as [L _]. destruct xs; [reflexivity|discriminate L].
  - apply (vector_cut _ (w_n c) (N * w_n c)) in Vx. destruct Vx as [A B]. cbn [a_load flat_map]. rewrite w_load_store by assumption. rewrite IH by assumption.
    apply firstn_skipn.
Qed.
Lemma skipn_skipn {A} n m (l : list A) : skipn n (skipn m l) = skipn (m + n) l.
Proof. revert l. induction m as [|m IH]; intros l; [reflexivity|]. destruct l; [now rewrite !skipn_nil|]. cbn. apply IH. Qed.
Lemma nth_skipn {A} n i (l : list A) d : nth i (skipn n l) d = nth (n + i) l d.
Proof. revert l. induction n as [|n IH]; intros l; [reflexivity|]. destruct l; [now destruct i|]. cbn. apply IH. Qed.
Lemma nth_firstn {A} n i (l : list A) d : (i < n)%nat -> nth i (firstn n l) d = nth i l d.
Proof. revert i l. induction n as [|n IH]; intros i l L; [lia|]. destruct l; [reflexivity|]. destruct i; cbn; [reflexivity|]. apply IH. lia. Qed.
Lemma a_load_nth c stride : forall N xs j i, Forall (elem_ok (w_type c)) xs -> (j < N)%nat -> (i < w_n c)%nat -> (forall t, (t < N)%nat -> t * stride + w_n c <= length xs)%nat ->
  nth (j * w_n c + i) (a_store c (a_load c N stride xs)) 0 = nth (j * stride + i) xs 0.
Proof.
  unfold a_store. induction N as [|N IH]; intros xs j i F J I L; [lia|]. cbn [a_load flat_map].
  assert (L0 : (w_n c <= length xs)%nat) by (specialize (L 0%nat); lia).
  assert (V0 : vector (w_type c) (w_n c) (firstn (w_n c) xs)).
  { split; [rewrite firstn_length; lia|]. rewrite <- (firstn_skipn (w_n c) xs) in F. now apply Forall_app in F. }
  rewrite w_load_store by assumption. destruct j as [|j].
  - cbn [Nat.mul Nat.add]. rewrite app_nth1 by (destruct V0; lia). now apply nth_firstn.
  - rewrite app_nth2 by (destruct V0 as [-> _]; cbn; lia). destruct V0 as [-> _]. replace (S j * w_n c + i - w_n c)%nat with (j * w_n c + i)%nat by (cbn; lia).
    rewrite IH; try assumption; try lia.
    + rewrite nth_skipn. f_equal. cbn. lia.
    + rewrite <- (firstn_skipn stride xs) in F. now apply Forall_app in F.
    + intros t T. rewrite skipn_length. specialize (L (S t)). cbn in L. lia.
Qed.
Lemma a_fill_ok c N v : elem_ok (w_type c) v -> a_store c (a_fill c N v) = repeat v (N * w_n c).
Proof.
  intros E. unfold a_store, a_fill. induction N as [|N IH]; [reflexivity|]. cbn [repeat flat_map]. rewrite IH.
  change (w_set1 c v) with (of_lanes (w_k c) (repeat v (w_n c))). replace (of_lanes (w_k c) (repeat v (w_n c))) with (w_load c (repeat v (w_n c))) by (destruct c; reflexivity).
  rewrite w_load_store.
  - rewrite <- repeat_app. reflexivity.
  - split; [apply repeat_length|]. apply Forall_forall. intros z Z0. apply repeat_spec in Z0. now subst.
Qed.
Lemma a_max_load c : forall N xs ys, vector (w_type c) (N * w_n c) xs -> vector (w_type c) (N * w_n c) ys ->
  a_max c (a_load c N (w_n c) xs) (a_load c N (w_n c) ys) = a_load c N (w_n c) (map2 (mx (w_type c)) xs ys).
Proof.
  unfold a_max. induction N as [|N IH]; intros xs ys X Y; [reflexivity|].
  apply (vector_cut _ (w_n c) (N * w_n c)) in X, Y. destruct X, Y. cbn [a_load map2]. rewrite w_max_load, IH by assumption. now rewrite map2_firstn, map2_skipn.
Qed.
Lemma a_blend_load c : forall N xs ys us vs, vector (w_type c) (N * w_n c) xs -> vector (w_type c) (N * w_n c) ys -> vector (w_type c) (N * w_n c) us -> vector (w_type c) (N * w_n c) vs ->
  a_blend c (a_load c N (w_n c) us) (a_load c N (w_n c) vs) (a_cmplt c (a_load c N (w_n c) xs) (a_load c N (w_n c) ys)) =
  a_load c N (w_n c) (map3 sel us vs (map2 (ltb (w_type c)) xs ys)).
Proof.
  unfold a_blend, a_cmplt. induction N as [|N IH]; intros xs ys us vs X Y U W; [reflexivity|].
  apply (vector_cut _ (w_n c) (N * w_n c)) in X, Y, U, W. destruct X as [X1 X2], Y as [Y1 Y2], U as [U1 U2], W as [W1 W2]. cbn [a_load map2 map3].
  rewrite w_blend_load by (try assumption; try apply U1; apply W1). rewrite IH by assumption. now rewrite map3_firstn, map3_skipn, map2_firstn, map2_skipn.
Qed.
Lemma ax_load_store c : forall N xs, vector (ESigned 32) (N * wx_len c) xs -> ax_store c (ax_load c N xs) = xs.
Proof.
  unfold ax_store. induction N as [|N IH]; intros xs Vx.
  - destruct Vx as [L _]. destruct xs; [reflexivity|discriminate L].
  - apply (vector_cut _ (wx_len c) (N * wx_len c)) in Vx. destruct Vx as [A B]. cbn [ax_load flat_map]. rewrite wx_load_store by assumption. rewrite IH by assumption.
    apply firstn_skipn.
Qed.
Lemma a_blendindex_load c : w_index_ok c = true -> forall N xs ys us vs, vector (w_type c) (N * w_n c) xs -> vector (w_type c) (N * w_n c) ys ->
  vector (ESigned 32) (N * w_n c) us -> vector (ESigned 32) (N * w_n c) vs ->
  a_blendindex c (ax_load c N us) (ax_load c N vs) (a_cmplt c (a_load c N (w_n c) xs) (a_load c N (w_n c) ys)) =
  Some (ax_load c N (map3 sel us vs (map2 (ltb (w_type c)) xs ys))).
Proof.
  intros I. pose proof (wx_len_ok c I) as WL. unfold a_cmplt. induction N as [|N IH]; intros xs ys us vs X Y U W; [reflexivity|].
  apply (vector_cut _ (w_n c) (N * w_n c)) in X, Y, U, W. destruct X as [X1 X2], Y as [Y1 Y2], U as [U1 U2], W as [W1 W2]. cbn [a_load ax_load map2 a_blendindex].
  rewrite WL. rewrite w_blendindex_load by (try assumption; try apply U1; apply W1). rewrite IH by assumption. now rewrite map3_firstn, map3_skipn, map2_firstn, map2_skipn.
Qed.
Lemma a_max_ok c N xs ys i : vector (w_type c) (N * w_n c) xs -> vector (w_type c) (N * w_n c) ys -> (i < N * w_n c)%nat ->
  let r := nth i (a_store c (a_max c (a_load c N (w_n c) xs) (a_load c N (w_n c) ys))) 0 in
  (less (w_type c) (nth i ys 0) (nth i xs 0) -> r = nth i xs 0) /\ (~ less (w_type c) (nth i ys 0) (nth i xs 0) -> r = nth i ys 0).
Proof.
  intros X Y I. cbv zeta. rewrite a_max_load by assumption. rewrite a_load_store by (apply vector_map2; try assumption; apply mx_ok).
  destruct X as [X _], Y as [Y _]. rewrite (nth_map2 _ 0 0) by congruence. unfold mx. split; intros L.
  - apply ltb_less in L. now rewrite L.
  - apply ltb_not in L. now rewrite L.
Qed.
Lemma a_blend_ok c N xs ys us vs i : vector (w_type c) (N * w_n c) xs -> vector (w_type c) (N * w_n c) ys ->
  vector (w_type c) (N * w_n c) us -> vector (w_type c) (N * w_n c) vs -> (i < N * w_n c)%nat ->
  let L := a_load c N (w_n c) in
  let r := nth i (a_store c (a_blend c (L us) (L vs) (a_cmplt c (L xs) (L ys)))) 0 in
  (less (w_type c) (nth i xs 0) (nth i ys 0) -> r = nth i vs 0) /\ (~ less (w_type c) (nth i xs 0) (nth i ys 0) -> r = nth i us 0).
Proof.
  intros X Y U W I. cbv zeta. rewrite a_blend_load by assumption. rewrite a_load_store.
  - apply (sel_less _ (N * w_n c)); try assumption; [apply X|apply Y|apply U|apply W].
  - apply vector_sel; try assumption. destruct X as [X _], Y as [Y _]. rewrite map2_length; congruence.
Qed.
Lemma a_blendindex_ok c N xs ys us vs : w_index_ok c = true -> vector (w_type c) (N * w_n c) xs -> vector (w_type c) (N * w_n c) ys ->
  vector (ESigned 32) (N * w_n c) us -> vector (ESigned 32) (N * w_n c) vs ->
  let L := a_load c N (w_n c) in
  exists r, a_blendindex c (ax_load c N us) (ax_load c N vs) (a_cmplt c (L xs) (L ys)) = Some r /\
  forall i, (i < N * w_n c)%nat ->
  (less (w_type c) (nth i xs 0) (nth i ys 0) -> nth i (ax_store c r) 0 = nth i vs 0) /\ (~ less (w_type c) (nth i xs 0) (nth i ys 0) -> nth i (ax_store c r) 0 = nth i us 0).
Proof.
  intros I X Y U W. cbv zeta. rewrite a_blendindex_load by assumption. eexists. split; [reflexivity|]. intros i J. rewrite ax_load_store.
  - apply (sel_less _ (N * w_n c)); try assumption; [apply X|apply Y|apply U|apply W].
  - rewrite (wx_len_ok c I). apply vector_sel; try assumption. destruct X as [X _], Y as [Y _]. rewrite map2_length; congruence.
Qed.

(** Index arrays. *)
Definition add32 (a b : Z) : Z := cast (sint 32) (a + b).
Lemma add32_ok a b : elem_ok (ESigned 32) (add32 a b) /\ exists q, add32 a b = a + b + q * 2 ^ 32.
Proof.
  unfold add32, cast, sint, wraps. cbn [isg iw elem_ok]. pose proof (Z.mod_pos_bound (a + b + 2 ^ (32 - 1)) (2 ^ 32) ltac:(lia)). split; [lia|].
  exists (- ((a + b + 2 ^ (32 - 1)) / 2 ^ 32)). pose proof (Z.div_mod (a + b + 2 ^ (32 - 1)) (2 ^ 32) ltac:(lia)). lia.
Qed.
Lemma add_reg n xs ys : length xs = n -> length ys = n -> i_add_epi32 n (of_lanes 4 xs) (of_lanes 4 ys) = of_lanes 4 (map2 add32 xs ys).
Proof.
  intros X Y. unfold i_add_epi32. rewrite lanewise_of by assumption.
  rewrite <- (of_lanes_mod 4 (map2 _ xs ys)), <- (of_lanes_mod 4 (map2 add32 xs ys)). f_equal. rewrite !map_map2.
  eapply (map2_ext _ _ (fun _ => True) (fun _ => True)); try (apply Forall_forall; trivial). intros a b _ _. change (bits_of_lane 4) with 32.
  destruct (add32_ok a b) as (_ & q & ->). rewrite Z_mod_plus_full. now rewrite <- Zplus_mod.
Qed.
Lemma x_add_regs m l : forall xs ys, length xs = (m * l)%nat -> length ys = (m * l)%nat ->
  map2 (i_add_epi32 l) (x_load_regs m l xs) (x_load_regs m l ys) = x_load_regs m l (map2 add32 xs ys).
Proof.
  induction m as [|m IH]; intros xs ys X Y; [reflexivity|]. cbn [x_load_regs map2]. cbn [Nat.mul] in X, Y.
  rewrite add_reg by (rewrite firstn_length; lia). rewrite IH by (rewrite skipn_length; lia). now rewrite map2_firstn, map2_skipn.
Qed.
Lemma wx_add_load c xs ys : length xs = wx_len c -> length ys = wx_len c -> wx_add c (wx_load c xs) (wx_load c ys) = wx_load c (map2 add32 xs ys).
Proof.
  destruct c as [c|c]; intros X Y; cbn [wx_add wx_load wx_len] in *.
  - now apply x_add_regs.
  - cbn [map2]. unfold kx_add, kx_load. now rewrite add_reg.
Qed.
Lemma ax_add_load c : forall N xs ys, length xs = (N * wx_len c)%nat -> length ys = (N * wx_len c)%nat ->
  ax_add c (ax_load c N xs) (ax_load c N ys) = ax_load c N (map2 add32 xs ys).
Proof.
  unfold ax_add. induction N as [|N IH]; intros xs ys X Y; [reflexivity|]. cbn [ax_load map2]. cbn [Nat.mul] in X, Y.
  rewrite wx_add_load by (rewrite firstn_length; lia). rewrite IH by (rewrite skipn_length; lia). now rewrite map2_firstn, map2_skipn.
Qed.
Lemma ax_add_ok c N xs ys i : length xs = (N * wx_len c)%nat -> length ys = (N * wx_len c)%nat -> (i < N * wx_len c)%nat ->
  let r := nth i (ax_store c (ax_add c (ax_load c N xs) (ax_load c N ys))) 0 in
  elem_ok (ESigned 32) r /\ exists q, r = nth i xs 0 + nth i ys 0 + q * 2 ^ 32.
Proof.
  intros X Y I. cbv zeta. rewrite ax_add_load by assumption. rewrite ax_load_store.
  - rewrite (nth_map2 _ 0 0) by congruence. apply add32_ok.
  - split; [rewrite map2_length; congruence|]. clear. revert ys. induction xs as [|x xs IH]; intros [|y ys]; cbn [map2]; constructor; [apply add32_ok|apply IH].
Qed.
Lemma ax_inc_ok c N x : (forall j, (j < N * wx_len c)%nat -> int32 (Z.of_nat j * x)) ->
  exists r, ax_initincrement c N x = Ok r /\ ax_store c r = map (fun j => Z.of_nat j * x) (seq 0 (N * wx_len c)).
Proof.
  intros H. unfold ax_initincrement. rewrite incs_ok by exact H. cbn [bind]. eexists. split; [reflexivity|].
  rewrite ax_load_store; [reflexivity|]. split; [now rewrite map_length, seq_length|]. apply Forall_forall. intros z Z0. apply in_map_iff in Z0.
  destruct Z0 as (j & <- & J). apply in_seq in J. apply H. lia.
Qed.
(** gather. *)
Lemma len_gather c : w_gather_mode c = true -> (w_n c <= wx_len c)%nat.
Proof. destruct c as [c|c]; destruct c; intros H; try discriminate H; cbn; lia. Qed.
Lemma w_gather_ok c m p xs zs : vector (ESigned 32) (wx_len c) xs -> w_gather_mode c = true -> vector (w_type c) (w_n c) zs ->
  (forall i, (i < w_n c)%nat -> holds m (p + nth i xs 0) (Z.of_nat (w_k c)) (nth i zs 0)) ->
  w_store c (w_gather c m p (wx_load c xs)) = zs.
Proof.
  intros X G [LZ FZ] H. pose proof (len_gather c G) as LG. destruct X as [LX FX].
  assert (E : w_gather c m p (wx_load c xs) = of_lanes (w_k c) (map (fun i => mem_num m (p + i) (w_k c)) (firstn (w_n c) xs))).
  { destruct c as [c|c]; cbn [w_gather wx_load w_k w_n wx_len] in *.
    - unfold v_gather. now rewrite x_load_store.
    - unfold k_gather. cbn [hd]. rewrite kx_load_store by (now split). now rewrite firstn_all2 by lia. }
  rewrite E. replace (map (fun i => mem_num m (p + i) (w_k c)) (firstn (w_n c) xs)) with (map (fun z => z mod 2 ^ bits_of_lane (w_k c)) zs).
  - rewrite of_lanes_mod. replace (of_lanes (w_k c) zs) with (w_load c zs) by (destruct c; reflexivity). now apply w_load_store.
  - apply (nth_ext _ _ 0 0); [rewrite !map_length, firstn_length; lia|]. intros i I. rewrite map_length in I.
    rewrite (nth_indep _ 0 (0 mod 2 ^ bits_of_lane (w_k c))) by (now rewrite map_length). rewrite (map_nth (fun z => z mod 2 ^ bits_of_lane (w_k c))).
    rewrite (nth_indep (map _ (firstn _ _)) 0 (mem_num m (p + 0) (w_k c))) by (rewrite map_length, firstn_length; lia).
    rewrite (map_nth (fun i => mem_num m (p + i) (w_k c))). rewrite nth_firstn by lia. symmetry. apply mem_num_holds, H. lia.
Qed.
Lemma a_gather_ok c m stride : w_gather_mode c = true -> forall N p xs zs, vector (ESigned 32) (N * wx_len c) xs -> vector (w_type c) (N * w_n c) zs ->
  (forall j i, (j < N)%nat -> (i < w_n c)%nat ->
    holds m (p + Z.of_nat j * stride * Z.of_nat (w_k c) + nth (j * wx_len c + i) xs 0) (Z.of_nat (w_k c)) (nth (j * w_n c + i) zs 0)) ->
  a_store c (a_gather c m p (ax_load c N xs) stride) = zs.
Proof.
  intros G. unfold a_store. induction N as [|N IH]; intros p xs zs X Y H.
  - destruct Y as [L _]. destruct zs; [reflexivity|discriminate L].
  - pose proof (len_gather c G) as LG. apply (vector_cut _ (wx_len c) (N * wx_len c)) in X. apply (vector_cut _ (w_n c) (N * w_n c)) in Y. destruct X as [X1 X2], Y as [Y1 Y2].
    cbn [ax_load a_gather flat_map]. rewrite (w_gather_ok c m p _ (firstn (w_n c) zs)); try assumption.
    + rewrite (IH _ _ (skipn (w_n c) zs)); try assumption; [apply firstn_skipn|]. intros j i J I. rewrite !nth_skipn.
      specialize (H (S j) i ltac:(lia) I). rewrite Nat2Z.inj_succ in H.
      replace (wx_len c + (j * wx_len c + i))%nat with (S j * wx_len c + i)%nat by (cbn; lia). replace (w_n c + (j * w_n c + i))%nat with (S j * w_n c + i)%nat by (cbn; lia).
      replace (p + stride * Z.of_nat (w_k c) + Z.of_nat j * stride * Z.of_nat (w_k c)) with (p + Z.succ (Z.of_nat j) * stride * Z.of_nat (w_k c)) by lia. exact H.
    + intros i I. specialize (H 0%nat i ltac:(lia) I). rewrite !nth_firstn by lia. cbn [Nat.mul Nat.add] in H.
      replace (p + Z.of_nat 0 * stride * Z.of_nat (w_k c)) with p in H by lia. exact H.
Qed.
Lemma a_index_in c : In c [V I8_32; V U8_32; V I32_4; V I32_8; V U32_8; V F_4; V F_8; V D_4; K I32_16; K F_16; K D_8] -> w_index_ok c = true.
Proof. intros H. repeat (destruct H as [<-|H]; [reflexivity|]). destruct H. Qed.
Lemma bad_a_blendindex c : In c [I16_16; U16_16; D_2] -> exists xs ys us vs r i,
  vector (v_type c) (v_n c) xs /\ vector (v_type c) (v_n c) ys /\ vector (ESigned 32) (wx_len (V c)) us /\ vector (ESigned 32) (wx_len (V c)) vs /\ (i < v_n c)%nat /\
  a_blendindex (V c) (ax_load (V c) 1 us) (ax_load (V c) 1 vs) (a_cmplt (V c) (a_load (V c) 1 (v_n c) xs) (a_load (V c) 1 (v_n c) ys)) = Some r /\
  less (v_type c) (nth i xs 0) (nth i ys 0) /\ nth i (ax_store (V c) r) 0 <> nth i vs 0.
Proof.
  intros H. destruct (bad_blendindex c H) as (xs & ys & us & vs & r & i & X & Y & U & W & I & B & L & D).
  exists xs, ys, us, vs, [r], i. split; [exact X|]. split; [exact Y|]. split; [exact U|]. split; [exact W|]. split; [exact I|]. split.
  - destruct X as [X _], Y as [Y _], U as [U _], W as [W _]. cbn [ax_load a_load a_cmplt map2 a_blendindex w_n w_load wx_len wx_load w_cmplt w_blendindex].
    rewrite !firstn_all2 by lia. cbn [v_blendindex]. unfold a_cmplt. cbn [map2 w_cmplt a_blendindex w_blendindex]. now rewrite B.
  - split; [exact L|]. unfold ax_store. cbn [flat_map wx_store]. rewrite app_nil_r. exact D.
Qed.
