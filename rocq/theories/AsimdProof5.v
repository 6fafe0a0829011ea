(** Strided loads and index vectors. *)
From Coq Require Import ZArith QArith Bool List Lia.
From Verif Require Import Res CInt Spec SpecFloat SpecSimd Core Arith Asimd AsimdProof AsimdProof2 AsimdProof3 AsimdProof4.
Import ListNotations.
Open Scope Z_scope.

Lemma le_bytes_nth k : forall z, le_bytes k z = map (fun i => (z / 2 ^ (8 * Z.of_nat i)) mod 256) (seq 0 k).
Proof.
  induction k as [|k IH]; intros z; [reflexivity|]. cbn [le_bytes seq map]. f_equal.
  - change (2 ^ (8 * Z.of_nat 0)) with 1. now rewrite Z.div_1_r.
  - rewrite IH, <- seq_shift, map_map. apply map_ext. intros i. f_equal. rewrite Z.div_div by (try apply Z.pow_pos_nonneg; lia).
    f_equal. change 256 with (2 ^ 8). rewrite <- Z.pow_add_r by lia. f_equal. lia.
Qed.
Lemma mem_num_holds m a k z : holds m a (Z.of_nat k) z -> mem_num m a k = z mod 2 ^ bits_of_lane k.
Proof.
  intros H. unfold mem_num. rewrite <- le_num_bytes, le_bytes_nth. f_equal. apply map_ext_in. intros i I. apply in_seq in I.
  apply H. lia.
Qed.
Lemma map_seq_nth {A} (f : nat -> A) (xs : list A) d : (forall i, (i < length xs)%nat -> f i = nth i xs d) -> map f (seq 0 (length xs)) = xs.
Proof.
  intros H. apply (nth_ext _ _ (f 0%nat) d); [now rewrite map_length, seq_length|]. intros n N. rewrite map_length, seq_length in N.
  rewrite map_nth, seq_nth by assumption. now apply H.
Qed.
Lemma load_mod c (xs : list Z) : v_load c (map (fun z => z mod 2 ^ bits_of_lane (v_k c)) xs) = v_load c xs.
Proof. apply of_lanes_mod. Qed.
Lemma incs_ok n : forall i x, (forall j, (j < n)%nat -> int32 ((i + Z.of_nat j) * x)) ->
  incs n i x = Ok (map (fun j => (i + Z.of_nat j) * x) (seq 0 n)).
Proof.
  induction n as [|n IH]; intros i x H; [reflexivity|]. cbn [incs seq map].
  assert (H0 := H 0%nat ltac:(lia)). unfold int32, elem_ok in H0. rewrite Z.add_0_r in *.
  assert (M : cmul c_int i x = Ok (i * x)).
  { unfold cmul, arith, CInt.fits, min_of, max_of, c_int, sint. cbn [isg iw].
    destruct (Z.leb_spec (- 2 ^ (32 - 1)) (i * x)), (Z.leb_spec (i * x) (2 ^ (32 - 1) - 1)); try lia; reflexivity. }
  rewrite M. cbn [bind].
  rewrite IH.
  - rewrite <- seq_shift, map_map.
    replace (map (fun j => (i + 1 + Z.of_nat j) * x) (seq 0 n)) with (map (fun x0 => (i + Z.of_nat (S x0)) * x) (seq 0 n))
      by (apply map_ext; intros; f_equal; lia).
    reflexivity.
  - intros j J. replace (i + 1 + Z.of_nat j) with (i + Z.of_nat (S j)) by lia. apply H. lia.
Qed.
Lemma initincrement_ok c x : (forall j, (j < x_regs c * x_n c)%nat -> int32 (Z.of_nat j * x)) ->
  exists r, x_initincrement c x = Ok r /\ x_store c r = map (fun j => Z.of_nat j * x) (seq 0 (x_regs c * x_n c)).
Proof.
  intros H. unfold x_initincrement. rewrite incs_ok by exact H. cbn [bind]. eexists. split; [reflexivity|].
  rewrite x_load_store; [reflexivity|now rewrite map_length, seq_length|]. apply Forall_forall. intros z Z0. apply in_map_iff in Z0.
  destruct Z0 as (j & <- & J). apply in_seq in J. apply H. lia.
Qed.
Lemma x_add_ok c xs ys : length xs = (x_regs c * x_n c)%nat -> length ys = (x_regs c * x_n c)%nat ->
  x_store c (x_add c (x_load c xs) (x_load c ys)) = map2 (fun a b => cast (sint 32) (a + b)) xs ys.
Proof.
  unfold x_store, x_load, x_add. generalize (x_n c) as l. generalize (x_regs c) as m. intros m l.
  induction m as [|m IH] in xs, ys |- *; intros X Y.
  - destruct xs; [|discriminate]. reflexivity.
  - cbn [x_load_regs map2 flat_map]. rewrite IH by (rewrite skipn_length; lia).
    transitivity (map2 (fun a b => cast (sint 32) (a + b)) (firstn l xs ++ skipn l xs) (firstn l ys ++ skipn l ys));
      [|now rewrite !firstn_skipn].
    rewrite map2_app by (rewrite !firstn_length; lia). f_equal.
    unfold i_add_epi32. rewrite lanewise_of by (rewrite firstn_length; lia). rewrite lanes_of by (rewrite map2_length; rewrite !firstn_length; lia).
    rewrite map_map, map_map2. eapply (map2_ext _ _ (fun _ => True) (fun _ => True)); try (apply Forall_forall; trivial).
    intros a b _ _. unfold signed, cast, sint. cbn [isg iw]. change (bits_of_lane 4) with 32.
    apply wraps_mod_eq; [lia|]. rewrite Zmod_mod. now rewrite <- Zplus_mod.
Qed.
Lemma strided_ok c m p stride xs pre0 : vector (v_type c) (v_n c) xs -> elem_ok (ESigned 32) stride ->
  (forall i, (i < v_n c)%nat -> holds m (p + Z.of_nat i * stride * Z.of_nat (v_k c)) (Z.of_nat (v_k c)) (nth i xs 0)) ->
  (v_gather_mode c = true -> forall i, (i < x_regs c * x_n c)%nat -> elem_ok (ESigned 32) (Z.of_nat i * stride * Z.of_nat (v_k c))) ->
  exists pre, initgather c stride pre0 = Ok pre /\ v_store c (loadstrided c m p stride pre) = xs.
Proof.
  intros V SB H G. pose proof V as [L F].
  assert (N : forall i, (i < length xs)%nat -> mem_num m (p + Z.of_nat i * stride * Z.of_nat (v_k c)) (v_k c) = nth i (map (fun z => z mod 2 ^ bits_of_lane (v_k c)) xs) 0).
  { intros i I. rewrite (nth_indep _ 0 (0 mod 2 ^ bits_of_lane (v_k c))) by (now rewrite map_length).
    rewrite (map_nth (fun z => z mod 2 ^ bits_of_lane (v_k c))). apply mem_num_holds, H. lia. }
  assert (D : forall a, (forall i, (i < length xs)%nat -> mem_num m (a i) (v_k c) = nth i (map (fun z => z mod 2 ^ bits_of_lane (v_k c)) xs) 0) ->
    v_store c (v_load c (map (fun i => mem_num m (a i) (v_k c)) (seq 0 (v_n c)))) = xs).
  { intros a A. rewrite <- L, <- (map_length (fun z => z mod 2 ^ bits_of_lane (v_k c)) xs). rewrite (map_seq_nth _ _ 0) by (rewrite map_length; exact A).
    rewrite load_mod. now apply load_store. }
  unfold initgather. destruct (v_gather_mode c) eqn:GM.
  - specialize (G eq_refl).
    assert (X1 : int32 (stride * Z.of_nat (v_k c))).
    { replace (stride * Z.of_nat (v_k c)) with (Z.of_nat 1 * stride * Z.of_nat (v_k c)) by lia. apply G. destruct c; cbn; lia. }
    assert (CE : cast c_int (cast (uint 64) (stride * Z.of_nat (v_k c))) = stride * Z.of_nat (v_k c)).
    { unfold cast, c_int, sint, uint. cbn [isg iw]. unfold wrapu. rewrite (wraps_mod_eq 32 _ (stride * Z.of_nat (v_k c))).
      - unfold int32, elem_ok in X1. apply wraps_small; lia.
      - lia.
      - symmetry. apply Znumtheory.Zmod_div_mod; try lia. now exists (2 ^ 32). }
    rewrite CE. destruct (initincrement_ok c (stride * Z.of_nat (v_k c))) as (r & R & S).
    { intros j J. rewrite Z.mul_assoc. now apply G. }
    exists r. split; [exact R|]. unfold loadstrided. destruct (Z.eqb_spec stride 1) as [->|].
    + apply (D (fun i => p + Z.of_nat i * Z.of_nat (v_k c))). intros i I. rewrite <- N by assumption. f_equal. lia.
    + unfold v_gather. rewrite GM, S.
      replace (firstn (v_n c) _) with (map (fun j => Z.of_nat j * (stride * Z.of_nat (v_k c))) (seq 0 (v_n c)))
        by (destruct c; try discriminate GM; reflexivity).
      rewrite map_map. apply (D (fun i => p + Z.of_nat i * (stride * Z.of_nat (v_k c)))). intros i I. rewrite <- N by assumption. f_equal. lia.
  - exists pre0. split; [reflexivity|]. unfold loadstrided. rewrite GM. destruct (Z.eqb_spec stride 1) as [->|].
    + apply (D (fun i => p + Z.of_nat i * Z.of_nat (v_k c))). intros i I. rewrite <- N by assumption. f_equal. lia.
    + apply (D (fun i => p + Z.of_nat i * stride * Z.of_nat (v_k c))). exact N.
Qed.

(** Classes as a list. *)
Lemma index_in c : In c [I8_32; U8_32; I32_4; I32_8; U32_8; F_4; F_8; D_4] -> index_ok c = true.
Proof. intros H. repeat (destruct H as [<-|H]; [reflexivity|]). destruct H. Qed.
Lemma blendindex16_ok c xs ys us vs : c = I16_16 \/ c = U16_16 -> vector (v_type c) 16 xs -> vector (v_type c) 16 ys ->
  vector (ESigned 32) 16 us -> vector (ESigned 32) 16 vs ->
  exists r, v_blendindex c (x_load c us) (x_load c vs) (v_cmplt c (v_load c xs) (v_load c ys)) = Some r /\
  forall i, In i [0; 1; 2; 3; 8; 9; 10; 11]%nat ->
  (less (v_type c) (nth i xs 0) (nth i ys 0) -> nth i (x_store c r) 0 = nth i vs 0) /\
  (~ less (v_type c) (nth i xs 0) (nth i ys 0) -> nth i (x_store c r) 0 = nth i us 0).
Proof.
  intros K X Y U V. assert (N : v_n c = 16%nat) by (destruct K as [-> | ->]; reflexivity).
  rewrite cmplt_load by (rewrite N; assumption).
  assert (LM : length (map2 (ltb (v_type c)) xs ys) = 16%nat) by (destruct X, Y; rewrite map2_length; congruence).
  rewrite blendindex16_load by (try assumption; rewrite N; try apply U; try apply V; exact LM).
  eexists. split; [reflexivity|]. intros i I.
  set (bs := map2 _ _ _) in *. assert (LB : length (shift16 bs) = 16%nat) by reflexivity.
  destruct (vector_sel _ _ us vs _ U V LB) as [LS FS]. rewrite x_load_store; [|rewrite LS; destruct K as [-> | ->]; reflexivity|assumption].
  destruct X as [X FX], Y as [Y FY], U as [U FU], V as [V FV].
  assert (I16 : (i < 16)%nat) by (repeat (destruct I as [<-|I]; [lia|]); destruct I).
  rewrite (nth_map3 _ 0 0 false) by (rewrite ?U, ?LB; lia).
  replace (nth i (shift16 bs) false) with (nth i bs false) by (repeat (destruct I as [<-|I]; [reflexivity|]); destruct I).
  unfold bs. rewrite (nth_map2 _ 0 0) by lia. unfold sel. split; intros L.
  - apply ltb_less in L. now rewrite L.
  - apply ltb_not in L. now rewrite L.
Qed.
Lemma blendindex_d2_ok xs ys us vs : vector (EFloat 11 52) 2 xs -> vector (EFloat 11 52) 2 ys ->
  vector (ESigned 32) 4 us -> vector (ESigned 32) 4 vs ->
  exists r, v_blendindex D_2 (x_load D_2 us) (x_load D_2 vs) (v_cmplt D_2 (v_load D_2 xs) (v_load D_2 ys)) = Some r /\
  forall i, (i < 4)%nat ->
  (less (EFloat 11 52) (nth 0 xs 0) (nth 0 ys 0) -> nth i (x_store D_2 r) 0 = nth i vs 0) /\
  (~ less (EFloat 11 52) (nth 0 xs 0) (nth 0 ys 0) -> nth i (x_store D_2 r) 0 = nth i us 0).
Proof.
  intros X Y U V. rewrite cmplt_load by assumption.
  assert (LM : length (map2 (ltb (v_type D_2)) xs ys) = 2%nat) by (destruct X, Y; rewrite map2_length; congruence).
  change (v_k D_2) with 8%nat. rewrite blendindex_d2_load by (try assumption; try apply U; apply V).
  eexists. split; [reflexivity|]. intros i I. set (b := nth 0 (map2 (ltb (v_type D_2)) xs ys) false).
  destruct (vector_sel _ _ us vs _ U V (repeat_length b 4)) as [LS FS]. rewrite x_load_store; [|rewrite LS; reflexivity|assumption].
  destruct X as [X FX], Y as [Y FY], U as [U FU], V as [V FV].
  rewrite (nth_map3 _ 0 0 false) by (rewrite ?U, ?repeat_length; lia).
  assert (nth i (repeat b 4) false = b) as -> by (do 4 (destruct i as [|i]; [reflexivity|]); lia).
  unfold b. rewrite (nth_map2 _ 0 0) by lia. cbn [v_type]. unfold sel. split; intros L.
  - apply ltb_less in L. now rewrite L.
  - apply ltb_not in L. now rewrite L.
Qed.
(** The wrong lane of the three classes: lane 4 of 16, or lane 1 of two. *)
Lemma bad_blendindex c : In c [I16_16; U16_16; D_2] -> exists xs ys us vs r i,
  vector (v_type c) (v_n c) xs /\ vector (v_type c) (v_n c) ys /\ vector (ESigned 32) (x_regs c * x_n c) us /\
  vector (ESigned 32) (x_regs c * x_n c) vs /\ (i < v_n c)%nat /\
  v_blendindex c (x_load c us) (x_load c vs) (v_cmplt c (v_load c xs) (v_load c ys)) = Some r /\
  less (v_type c) (nth i xs 0) (nth i ys 0) /\ nth i (x_store c r) 0 <> nth i vs 0.
Proof.
  intros H.
  assert (G : forall n, (n < v_n c)%nat -> let ys := map (fun i => if Nat.eqb i n then 1 else 0) (seq 0 (v_n c)) in
    ltb (v_type c) (nth n (repeat 0 (v_n c)) 0) (nth n ys 0) = true ->
    (exists r, v_blendindex c (x_load c (repeat 0 (x_regs c * x_n c))) (x_load c (repeat 1 (x_regs c * x_n c)))
       (v_cmplt c (v_load c (repeat 0 (v_n c))) (v_load c ys)) = Some r /\ nth n (x_store c r) 0 = 0 /\ nth n (repeat 1 (x_regs c * x_n c)) 0 = 1) ->
    exists xs ys us vs r i,
    vector (v_type c) (v_n c) xs /\ vector (v_type c) (v_n c) ys /\ vector (ESigned 32) (x_regs c * x_n c) us /\
    vector (ESigned 32) (x_regs c * x_n c) vs /\ (i < v_n c)%nat /\
    v_blendindex c (x_load c us) (x_load c vs) (v_cmplt c (v_load c xs) (v_load c ys)) = Some r /\
    less (v_type c) (nth i xs 0) (nth i ys 0) /\ nth i (x_store c r) 0 <> nth i vs 0).
  { intros n N ys L (r & R & Z0 & Z1).
    assert (Z01 : elem_ok (v_type c) 0 /\ elem_ok (v_type c) 1) by (destruct c; cbn; lia). destruct Z01 as [O0 O1].
    exists (repeat 0 (v_n c)), ys, (repeat 0 (x_regs c * x_n c)), (repeat 1 (x_regs c * x_n c)), r, n.
    split; [split; [apply repeat_length|]; apply Forall_forall; intros z Hz; apply repeat_spec in Hz; now subst|].
    split; [split; [unfold ys; now rewrite map_length, seq_length|];
      apply Forall_forall; intros z Hz; apply in_map_iff in Hz; destruct Hz as (i & <- & _); destruct (Nat.eqb i n); assumption|].
    split; [split; [apply repeat_length|]; apply Forall_forall; intros z Hz; apply repeat_spec in Hz; subst; cbn; lia|].
    split; [split; [apply repeat_length|]; apply Forall_forall; intros z Hz; apply repeat_spec in Hz; subst; cbn; lia|].
    split; [assumption|]. split; [assumption|]. split; [now apply ltb_less|]. rewrite Z0, Z1. discriminate. }
  destruct H as [<-|[<-|[<-|[]]]]; [refine (G 4%nat _ _ _)|refine (G 4%nat _ _ _)|refine (G 1%nat _ _ _)];
    [cbn [v_n]; lia|vm_compute; reflexivity|eexists; split; [vm_compute; reflexivity|split; vm_compute; reflexivity]|
     cbn [v_n]; lia|vm_compute; reflexivity|eexists; split; [vm_compute; reflexivity|split; vm_compute; reflexivity]|
     cbn [v_n]; lia|vm_compute; reflexivity|eexists; split; [vm_compute; reflexivity|split; vm_compute; reflexivity]].
Qed.
Lemma bad_argmax c : In c [I16_16; U16_16; D_2] -> exists xs ys us vs x io i,
  vector (v_type c) (v_n c) xs /\ vector (v_type c) (v_n c) ys /\ Forall (not_nan (v_type c)) xs /\ Forall (not_nan (v_type c)) ys /\
  vector (ESigned 32) (x_regs c * x_n c) us /\ vector (ESigned 32) (x_regs c * x_n c) vs /\ (i < v_n c)%nat /\
  v_argmax c (v_load c xs, x_load c us) [(v_load c ys, x_load c vs)] = Some (x, io) /\
  ~ first_max (v_type c) (lane_history i [(xs, us); (ys, vs)]) (nth i (v_store c x) 0) (nth i (x_store c io) 0).
Proof.
  intros H.
  assert (G : forall n, (n < v_n c)%nat -> let ys := map (fun i => if Nat.eqb i n then 1 else 0) (seq 0 (v_n c)) in
    ltb (v_type c) 0 1 = true -> (forall z, z = 0 \/ z = 1 -> not_nan (v_type c) z) -> nth n ys 0 = 1 ->
    (exists r, v_argmax c (v_load c (repeat 0 (v_n c)), x_load c (repeat 0 (x_regs c * x_n c)))
       [(v_load c ys, x_load c (repeat 1 (x_regs c * x_n c)))] = Some r /\ nth n (v_store c (fst r)) 0 = 1 /\ nth n (x_store c (snd r)) 0 = 0 /\
       nth n (repeat 1 (x_regs c * x_n c)) 0 = 1) ->
    exists xs ys us vs x io i,
    vector (v_type c) (v_n c) xs /\ vector (v_type c) (v_n c) ys /\ Forall (not_nan (v_type c)) xs /\ Forall (not_nan (v_type c)) ys /\
    vector (ESigned 32) (x_regs c * x_n c) us /\ vector (ESigned 32) (x_regs c * x_n c) vs /\ (i < v_n c)%nat /\
    v_argmax c (v_load c xs, x_load c us) [(v_load c ys, x_load c vs)] = Some (x, io) /\
    ~ first_max (v_type c) (lane_history i [(xs, us); (ys, vs)]) (nth i (v_store c x) 0) (nth i (x_store c io) 0)).
  { intros n N ys L NN Y1 ((x & io) & R & V1 & X0 & Z1). cbn [fst snd] in V1, X0.
    assert (Z01 : elem_ok (v_type c) 0 /\ elem_ok (v_type c) 1) by (destruct c; cbn; lia). destruct Z01 as [O0 O1].
    exists (repeat 0 (v_n c)), ys, (repeat 0 (x_regs c * x_n c)), (repeat 1 (x_regs c * x_n c)), x, io, n.
    split; [split; [apply repeat_length|]; apply Forall_forall; intros z Hz; apply repeat_spec in Hz; now subst|].
    split; [split; [unfold ys; now rewrite map_length, seq_length|];
      apply Forall_forall; intros z Hz; apply in_map_iff in Hz; destruct Hz as (i & <- & _); destruct (Nat.eqb i n); assumption|].
    split; [apply Forall_forall; intros z Hz; apply repeat_spec in Hz; apply NN; now left|].
    split; [apply Forall_forall; intros z Hz; apply in_map_iff in Hz; destruct Hz as (i & <- & _); apply NN; destruct (Nat.eqb i n); tauto|].
    split; [split; [apply repeat_length|]; apply Forall_forall; intros z Hz; apply repeat_spec in Hz; subst; cbn; lia|].
    split; [split; [apply repeat_length|]; apply Forall_forall; intros z Hz; apply repeat_spec in Hz; subst; cbn; lia|].
    split; [assumption|]. split; [assumption|]. rewrite V1, X0. unfold lane_history. cbn [map fst snd]. rewrite Y1, Z1.
    intros (b & a & E & _ & _). assert (I : In (1, 0) (b ++ (1, 0) :: a)) by (apply in_or_app; right; now left). rewrite <- E in I.
    destruct I as [I|[I|[]]]; [|discriminate I]. injection I as I _.
    assert (nth n (repeat 0 (v_n c)) 0 = 0) by apply nth_repeat. congruence. }
  destruct H as [<-|[<-|[<-|[]]]]; [refine (G 4%nat _ _ _ _ _)|refine (G 4%nat _ _ _ _ _)|refine (G 1%nat _ _ _ _ _)];
    [cbn [v_n]; lia|vm_compute; reflexivity|intros z _; exact I|reflexivity|
       eexists; split; [vm_compute; reflexivity|repeat split; vm_compute; reflexivity]|
     cbn [v_n]; lia|vm_compute; reflexivity|intros z _; exact I|reflexivity|
       eexists; split; [vm_compute; reflexivity|repeat split; vm_compute; reflexivity]|
     cbn [v_n]; lia|vm_compute; reflexivity|intros z [-> | ->]; vm_compute; discriminate|reflexivity|
       eexists; split; [vm_compute; reflexivity|repeat split; vm_compute; reflexivity]].
Qed.
Lemma bad_strided : exists m p stride xs, vector (ESigned 32) 4 xs /\ elem_ok (ESigned 32) stride /\
  (forall i, (i < 4)%nat -> holds m (p + Z.of_nat i * stride * 4) 4 (nth i xs 0)) /\
  exists pre, initgather I32_4 stride [] = Ok pre /\ v_store I32_4 (loadstrided I32_4 m p stride pre) <> xs.
Proof.
  exists (fun a => if a =? 2 ^ 32 then 1 else 0), 0, (2 ^ 30), [0; 1; 0; 0].
  split; [split; [reflexivity|]; repeat (apply Forall_cons; [cbn [elem_ok]; lia|]); constructor|]. split; [vm_compute; split; [discriminate|reflexivity]|].
  split.
  - intros i I k K. assert (C : k = 0 \/ k = 1 \/ k = 2 \/ k = 3) by lia.
    do 4 (destruct i as [|i]; [destruct C as [-> | [-> | [-> | ->]]]; reflexivity|]). lia.
  - eexists. split; [reflexivity|]. vm_compute. discriminate.
Qed.
Lemma x_add_nth c xs ys i : length xs = (x_regs c * x_n c)%nat -> length ys = (x_regs c * x_n c)%nat ->
  (i < x_regs c * x_n c)%nat ->
  let r := nth i (x_store c (x_add c (x_load c xs) (x_load c ys))) 0 in
  elem_ok (ESigned 32) r /\ exists q, r = nth i xs 0 + nth i ys 0 + q * 2 ^ 32.
Proof.
  intros X Y I. cbv zeta. rewrite x_add_ok by assumption. rewrite (nth_map2 _ 0 0) by congruence.
  set (z := nth i xs 0 + nth i ys 0). unfold cast, sint, wraps. cbn [isg iw elem_ok].
  pose proof (Z.mod_pos_bound (z + 2 ^ (32 - 1)) (2 ^ 32) ltac:(lia)). split; [lia|].
  exists (- ((z + 2 ^ (32 - 1)) / 2 ^ 32)). pose proof (Z.div_mod (z + 2 ^ (32 - 1)) (2 ^ 32) ltac:(lia)). lia.
Qed.
Lemma v_size128 c xs : In c [U8_16; I8_16; U16_8; I16_8; I32_4; F_4; D_2] -> vector (v_type c) (v_n c) xs -> length (v_load c xs) = 16%nat.
Proof. intros H [L _]. unfold v_load. rewrite of_lanes_length, L. repeat (destruct H as [<-|H]; [reflexivity|]). destruct H. Qed.
Lemma v_size256 c xs : In c [I8_32; U8_32; I16_16; U16_16; I32_8; U32_8; F_8; D_4] -> vector (v_type c) (v_n c) xs -> length (v_load c xs) = 32%nat.
Proof. intros H [L _]. unfold v_load. rewrite of_lanes_length, L. repeat (destruct H as [<-|H]; [reflexivity|]). destruct H. Qed.
