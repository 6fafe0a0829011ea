(** The vector classes of include/simd: C106 to C109. *)
From Coq Require Import ZArith QArith List Lia.
From Verif Require Import Res CInt Spec SpecFloat SpecSimd Asimd AsimdProof AsimdProof2 AsimdProof3 AsimdProof4 AsimdProof5.
Import ListNotations.
Open Scope Z_scope.

(** C106. What is loaded is stored again. max gives at each place the greater of the two elements, and the second one
    when neither is greater. cmplt and blend together take at each place the other element where the comparison holds
    and keep the element where it does not. *)
Theorem C106_load_store c xs : vector (v_type c) (v_n c) xs -> v_store c (v_load c xs) = xs.
Proof. exact (load_store c xs). Qed.
Print Assumptions C106_load_store.
(** The elements fill the 16 or 32 bytes of a register. *)
Theorem C106_size_128 c xs : In c [U8_16; I8_16; U16_8; I16_8; I32_4; F_4; D_2] -> vector (v_type c) (v_n c) xs -> length (v_load c xs) = 16%nat.
Proof. exact (v_size128 c xs). Qed.
Print Assumptions C106_size_128.
Theorem C106_size_256 c xs : In c [I8_32; U8_32; I16_16; U16_16; I32_8; U32_8; F_8; D_4] -> vector (v_type c) (v_n c) xs -> length (v_load c xs) = 32%nat.
Proof. exact (v_size256 c xs). Qed.
Print Assumptions C106_size_256.
Theorem C106_max c xs ys i : vector (v_type c) (v_n c) xs -> vector (v_type c) (v_n c) ys -> (i < v_n c)%nat ->
  let r := nth i (v_store c (v_max c (v_load c xs) (v_load c ys))) 0 in
  (less (v_type c) (nth i ys 0) (nth i xs 0) -> r = nth i xs 0) /\ (~ less (v_type c) (nth i ys 0) (nth i xs 0) -> r = nth i ys 0).
Proof. exact (max_ok c xs ys i). Qed.
Print Assumptions C106_max.
Theorem C106_cmplt_blend c xs ys us vs i : vector (v_type c) (v_n c) xs -> vector (v_type c) (v_n c) ys ->
  vector (v_type c) (v_n c) us -> vector (v_type c) (v_n c) vs -> (i < v_n c)%nat ->
  let r := nth i (v_store c (v_blend c (v_load c us) (v_load c vs) (v_cmplt c (v_load c xs) (v_load c ys)))) 0 in
  (less (v_type c) (nth i xs 0) (nth i ys 0) -> r = nth i vs 0) /\ (~ less (v_type c) (nth i xs 0) (nth i ys 0) -> r = nth i us 0).
Proof. exact (blend_ok c xs ys us vs i). Qed.
Print Assumptions C106_cmplt_blend.
(** Unsigned numbers above the signed range, and floats: 1.5 and -2, -0.0 and 0.0, NaN and 3. *)
Example C106_ex :
  vector (v_type U16_8) (v_n U16_8) [65535; 1; 32768; 7; 0; 9; 40000; 3] /\
  v_store U16_8 (v_max U16_8 (v_load U16_8 [65535; 1; 32768; 7; 0; 9; 40000; 3]) (v_load U16_8 [1; 65535; 32767; 7; 5; 8; 50000; 2]))
    = [65535; 65535; 32768; 7; 5; 9; 50000; 3] /\
  vector (v_type F_4) (v_n F_4) [0x3fc00000; 0xc0000000; 0x80000000; 0x7fc00000] /\
  v_store F_4 (v_max F_4 (v_load F_4 [0x3fc00000; 0xc0000000; 0x80000000; 0x7fc00000])
                         (v_load F_4 [0xc0000000; 0x3fc00000; 0; 0x40400000])) = [0x3fc00000; 0x3fc00000; 0; 0x40400000] /\
  v_store F_4 (v_blend F_4 (v_load F_4 [1; 2; 3; 4]) (v_load F_4 [5; 6; 7; 8])
    (v_cmplt F_4 (v_load F_4 [0x3fc00000; 0xc0000000; 0x80000000; 0x7fc00000]) (v_load F_4 [0xc0000000; 0x3fc00000; 0; 0x40400000])))
    = [1; 6; 3; 4].
Proof.
  split; [split; [reflexivity|repeat (apply Forall_cons; [vm_compute; split; [discriminate|reflexivity]|]); apply Forall_nil]|].
  split; [vm_compute; reflexivity|].
  split; [split; [reflexivity|repeat (apply Forall_cons; [vm_compute; split; [discriminate|reflexivity]|]); apply Forall_nil]|].
  split; vm_compute; reflexivity.
Qed.

(** C107. Full claim: for every class, blendindex with the result of cmplt takes the other index at each place where the
    comparison holds and keeps the index where it does not. Missing: it has no definition for simd_u8_16, simd_i8_16,
    simd_u16_8 and simd_i16_8, and it is wrong for simd_i16_16, simd_u16_16 and simd_d_2 (refuted below). *)
Theorem C107_blendindex_partial c xs ys us vs : In c [I8_32; U8_32; I32_4; I32_8; U32_8; F_4; F_8; D_4] ->
  vector (v_type c) (v_n c) xs -> vector (v_type c) (v_n c) ys -> vector (ESigned 32) (v_n c) us -> vector (ESigned 32) (v_n c) vs ->
  exists r, v_blendindex c (x_load c us) (x_load c vs) (v_cmplt c (v_load c xs) (v_load c ys)) = Some r /\
  forall i, (i < v_n c)%nat ->
  (less (v_type c) (nth i xs 0) (nth i ys 0) -> nth i (x_store c r) 0 = nth i vs 0) /\
  (~ less (v_type c) (nth i xs 0) (nth i ys 0) -> nth i (x_store c r) 0 = nth i us 0).
Proof. exact (fun H => blendindex_ok c xs ys us vs (index_in c H)). Qed.
Print Assumptions C107_blendindex_partial.
(** The 16 bit classes with 16 elements get eight places right. *)
Theorem C107_blendindex_16_partial c xs ys us vs : c = I16_16 \/ c = U16_16 -> vector (v_type c) 16 xs -> vector (v_type c) 16 ys ->
  vector (ESigned 32) 16 us -> vector (ESigned 32) 16 vs ->
  exists r, v_blendindex c (x_load c us) (x_load c vs) (v_cmplt c (v_load c xs) (v_load c ys)) = Some r /\
  forall i, In i [0; 1; 2; 3; 8; 9; 10; 11]%nat ->
  (less (v_type c) (nth i xs 0) (nth i ys 0) -> nth i (x_store c r) 0 = nth i vs 0) /\
  (~ less (v_type c) (nth i xs 0) (nth i ys 0) -> nth i (x_store c r) 0 = nth i us 0).
Proof. exact (blendindex16_ok c xs ys us vs). Qed.
Print Assumptions C107_blendindex_16_partial.
(** With two doubles the comparison of the first decides for every index. *)
Theorem C107_blendindex_d2_partial xs ys us vs : vector (EFloat 11 52) 2 xs -> vector (EFloat 11 52) 2 ys ->
  vector (ESigned 32) 4 us -> vector (ESigned 32) 4 vs ->
  exists r, v_blendindex D_2 (x_load D_2 us) (x_load D_2 vs) (v_cmplt D_2 (v_load D_2 xs) (v_load D_2 ys)) = Some r /\
  forall i, (i < 4)%nat ->
  (less (EFloat 11 52) (nth 0 xs 0) (nth 0 ys 0) -> nth i (x_store D_2 r) 0 = nth i vs 0) /\
  (~ less (EFloat 11 52) (nth 0 xs 0) (nth 0 ys 0) -> nth i (x_store D_2 r) 0 = nth i us 0).
Proof. exact (blendindex_d2_ok xs ys us vs). Qed.
Print Assumptions C107_blendindex_d2_partial.
Theorem C107_blendindex_refuted c : In c [I16_16; U16_16; D_2] -> exists xs ys us vs r i,
  vector (v_type c) (v_n c) xs /\ vector (v_type c) (v_n c) ys /\ vector (ESigned 32) (x_regs c * x_n c) us /\
  vector (ESigned 32) (x_regs c * x_n c) vs /\ (i < v_n c)%nat /\
  v_blendindex c (x_load c us) (x_load c vs) (v_cmplt c (v_load c xs) (v_load c ys)) = Some r /\
  less (v_type c) (nth i xs 0) (nth i ys 0) /\ nth i (x_store c r) 0 <> nth i vs 0.
Proof. exact (bad_blendindex c). Qed.
Print Assumptions C107_blendindex_refuted.
Example C107_ex :
  exists r, v_blendindex I32_4 (x_load I32_4 [10; 20; 30; 40]) (x_load I32_4 [-1; -2; -3; -4])
    (v_cmplt I32_4 (v_load I32_4 [5; -5; 7; 0]) (v_load I32_4 [6; -6; 7; 1])) = Some r /\ x_store I32_4 r = [-1; 20; 30; -4].
Proof. eexists. split; [vm_compute; reflexivity|]. vm_compute. reflexivity. Qed.

(** C108. Full claim: going through any number of vectors with cmplt, blend and blendindex, every place ends with the
    greatest of the elements it has seen and with the index given with the first of them, for every class and elements
    that are no NaN. Missing: the classes without a correct blendindex (refuted below). The greatest elements are right
    for those with a blendindex. *)
Theorem C108_argmax_partial c p steps : In c [I8_32; U8_32; I32_4; I32_8; U32_8; F_4; F_8; D_4] ->
  (forall q, In q (p :: steps) ->
    vector (v_type c) (v_n c) (fst q) /\ vector (ESigned 32) (v_n c) (snd q) /\ Forall (not_nan (v_type c)) (fst q)) ->
  exists x io, v_argmax c (v_load c (fst p), x_load c (snd p)) (map (fun q => (v_load c (fst q), x_load c (snd q))) steps) = Some (x, io) /\
  forall j, (j < v_n c)%nat -> first_max (v_type c) (lane_history j (p :: steps)) (nth j (v_store c x) 0) (nth j (x_store c io) 0).
Proof.
  exact (fun H S => argmax_ok c p steps (index_in c H) (S p (or_introl eq_refl))
    (proj2 (Forall_forall (step_ok c) steps) (fun q I => S q (or_intror I)))).
Qed.
Print Assumptions C108_argmax_partial.
Theorem C108_greatest_partial c p steps io r : (vector (v_type c) (v_n c) p /\ Forall (not_nan (v_type c)) p) ->
  Forall (fun q => vector (v_type c) (v_n c) (fst q) /\ Forall (not_nan (v_type c)) (fst q)) steps ->
  v_argmax c (v_load c p, io) (map (fun q => (v_load c (fst q), snd q)) steps) = Some r ->
  forall j, (j < v_n c)%nat -> let l := map (fun q => nth j q 0) (p :: map fst steps) in
  In (nth j (v_store c (fst r)) 0) l /\ (forall u, In u l -> ~ less (v_type c) (nth j (v_store c (fst r)) 0) u).
Proof. exact (argmax_values_ok c p steps io r). Qed.
Print Assumptions C108_greatest_partial.
Theorem C108_argmax_refuted c : In c [I16_16; U16_16; D_2] -> exists xs ys us vs x io i,
  vector (v_type c) (v_n c) xs /\ vector (v_type c) (v_n c) ys /\ Forall (not_nan (v_type c)) xs /\ Forall (not_nan (v_type c)) ys /\
  vector (ESigned 32) (x_regs c * x_n c) us /\ vector (ESigned 32) (x_regs c * x_n c) vs /\ (i < v_n c)%nat /\
  v_argmax c (v_load c xs, x_load c us) [(v_load c ys, x_load c vs)] = Some (x, io) /\
  ~ first_max (v_type c) (lane_history i [(xs, us); (ys, vs)]) (nth i (v_store c x) 0) (nth i (x_store c io) 0).
Proof. exact (bad_argmax c). Qed.
Print Assumptions C108_argmax_refuted.
(** Three vectors of four: the greatest element comes first, last, twice, and in the middle. *)
Example C108_ex :
  exists x io, v_argmax I32_4 (v_load I32_4 [9; 1; 5; -3], x_load I32_4 [0; 1; 2; 3])
    [(v_load I32_4 [8; 2; 5; -1], x_load I32_4 [4; 5; 6; 7]); (v_load I32_4 [7; 3; 4; -2], x_load I32_4 [8; 9; 10; 11])] = Some (x, io) /\
  v_store I32_4 x = [9; 3; 5; -1] /\ x_store I32_4 io = [0; 9; 2; 7].
Proof. eexists. eexists. split; [vm_compute; reflexivity|]. split; vm_compute; reflexivity. Qed.

(** C109. Full claim: after initgather with a stride, loadstrided with that stride loads the elements found that many
    elements apart, for every class and stride. Missing: classes that gather need the byte offsets in 32 bits (refuted
    below without). *)
Theorem C109_loadstrided_partial c m p stride xs pre0 : vector (v_type c) (v_n c) xs -> elem_ok (ESigned 32) stride ->
  (forall i, (i < v_n c)%nat -> holds m (p + Z.of_nat i * stride * Z.of_nat (v_k c)) (Z.of_nat (v_k c)) (nth i xs 0)) ->
  (v_gather_mode c = true -> forall i, (i < x_regs c * x_n c)%nat -> elem_ok (ESigned 32) (Z.of_nat i * stride * Z.of_nat (v_k c))) ->
  exists pre, initgather c stride pre0 = Ok pre /\ v_store c (loadstrided c m p stride pre) = xs.
Proof. exact (strided_ok c m p stride xs pre0). Qed.
Print Assumptions C109_loadstrided_partial.
Theorem C109_loadstrided_refuted : exists m p stride xs, vector (ESigned 32) 4 xs /\ elem_ok (ESigned 32) stride /\
  (forall i, (i < 4)%nat -> holds m (p + Z.of_nat i * stride * 4) 4 (nth i xs 0)) /\
  exists pre, initgather I32_4 stride [] = Ok pre /\ v_store I32_4 (loadstrided I32_4 m p stride pre) <> xs.
Proof. exact bad_strided. Qed.
Print Assumptions C109_loadstrided_refuted.
(** Index vectors: the multiples of a number, and sums modulo 2^32. *)
Theorem C109_initincrement c x : (forall j, (j < x_regs c * x_n c)%nat -> elem_ok (ESigned 32) (Z.of_nat j * x)) ->
  exists r, x_initincrement c x = Ok r /\ x_store c r = map (fun j => Z.of_nat j * x) (seq 0 (x_regs c * x_n c)).
Proof. exact (initincrement_ok c x). Qed.
Print Assumptions C109_initincrement.
Theorem C109_increment c xs ys i : length xs = (x_regs c * x_n c)%nat -> length ys = (x_regs c * x_n c)%nat ->
  (i < x_regs c * x_n c)%nat ->
  let r := nth i (x_store c (x_add c (x_load c xs) (x_load c ys))) 0 in
  elem_ok (ESigned 32) r /\ exists q, r = nth i xs 0 + nth i ys 0 + q * 2 ^ 32.
Proof. exact (x_add_nth c xs ys i). Qed.
Print Assumptions C109_increment.
(** Memory with byte a mod 256 at address a. Stride -3 over 16 bit numbers, and over 32 bit numbers with gather. *)
Example C109_ex :
  (forall i, (i < 8)%nat -> holds (fun a => a mod 256) (100 + Z.of_nat i * -3 * 2) 2
    (nth i [25956; 24414; 22872; 21330; 19788; 18246; 16704; 15162] 0)) /\
  v_store I16_8 (loadstrided I16_8 (fun a => a mod 256) 100 (-3) []) = [25956; 24414; 22872; 21330; 19788; 18246; 16704; 15162] /\
  (forall i, (i < x_regs I32_4 * x_n I32_4)%nat -> elem_ok (ESigned 32) (Z.of_nat i * -3 * Z.of_nat (v_k I32_4))) /\
  exists pre, initgather I32_4 (-3) [] = Ok pre /\
    v_store I32_4 (loadstrided I32_4 (fun a => a mod 256) 100 (-3) pre) = [1734763876; 1532647768; 1330531660; 1128415552].
Proof.
  split; [|split; [vm_compute; reflexivity|split]].
  - intros i I k K. assert (C : k = 0 \/ k = 1) by lia. do 8 (destruct i as [|i]; [destruct C as [-> | ->]; reflexivity|]). lia.
  - intros i I. cbn [x_regs x_n v_k elem_ok] in *. lia.
  - eexists. split; [vm_compute; reflexivity|]. vm_compute. reflexivity.
Qed.
