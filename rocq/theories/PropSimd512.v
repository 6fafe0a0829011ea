(** The vector classes over AVX-512 registers: C144. *)
From Coq Require Import ZArith QArith List Lia.
From Verif Require Import Res CInt Spec SpecFloat SpecSimd Asimd Asimd512 Asimd512Proof.
Import ListNotations.
Open Scope Z_scope.

(** C144. Full claim: what is loaded is stored again; max gives the greater element of each pair, the second one when
    neither is greater; blend and blendindex with the mask of cmplt take the other element or index exactly where the
    comparison holds; a running argmax ends with the greatest element and the index given with the first of them; after
    initgather with a stride, loadstrided loads the elements found that many elements apart. *)
Theorem C144_load_store c xs : vector (k_type c) (k_n c) xs -> k_store c (k_load c xs) = xs.
Proof. exact (k_load_store c xs). Qed.
Print Assumptions C144_load_store.
(** The elements fill the 64 bytes of a register. *)
Theorem C144_size c xs : vector (k_type c) (k_n c) xs -> length (k_load c xs) = 64%nat.
Proof. exact (k_size c xs). Qed.
Print Assumptions C144_size.
Theorem C144_max c xs ys i : vector (k_type c) (k_n c) xs -> vector (k_type c) (k_n c) ys -> (i < k_n c)%nat ->
  let r := nth i (k_store c (k_max c (k_load c xs) (k_load c ys))) 0 in
  (less (k_type c) (nth i ys 0) (nth i xs 0) -> r = nth i xs 0) /\ (~ less (k_type c) (nth i ys 0) (nth i xs 0) -> r = nth i ys 0).
Proof. exact (k_max_ok c xs ys i). Qed.
Print Assumptions C144_max.
Theorem C144_cmplt_blend c xs ys us vs i : vector (k_type c) (k_n c) xs -> vector (k_type c) (k_n c) ys ->
  vector (k_type c) (k_n c) us -> vector (k_type c) (k_n c) vs -> (i < k_n c)%nat ->
  let r := nth i (k_store c (k_blend c (k_load c us) (k_load c vs) (k_cmplt c (k_load c xs) (k_load c ys)))) 0 in
  (less (k_type c) (nth i xs 0) (nth i ys 0) -> r = nth i vs 0) /\ (~ less (k_type c) (nth i xs 0) (nth i ys 0) -> r = nth i us 0).
Proof. exact (k_blend_ok c xs ys us vs i). Qed.
Print Assumptions C144_cmplt_blend.
Theorem C144_blendindex c xs ys us vs i : vector (k_type c) (k_n c) xs -> vector (k_type c) (k_n c) ys ->
  vector (ESigned 32) (k_n c) us -> vector (ESigned 32) (k_n c) vs -> (i < k_n c)%nat ->
  let r := nth i (kx_store c (k_blendindex c (kx_load us) (kx_load vs) (k_cmplt c (k_load c xs) (k_load c ys)))) 0 in
  (less (k_type c) (nth i xs 0) (nth i ys 0) -> r = nth i vs 0) /\ (~ less (k_type c) (nth i xs 0) (nth i ys 0) -> r = nth i us 0).
Proof. exact (k_blendindex_ok c xs ys us vs i). Qed.
Print Assumptions C144_blendindex.
(** Any number of vectors, elements that are no NaN. *)
Theorem C144_argmax c p steps : (forall q, In q (p :: steps) ->
    vector (k_type c) (k_n c) (fst q) /\ vector (ESigned 32) (k_n c) (snd q) /\ Forall (not_nan (k_type c)) (fst q)) ->
  let r := k_argmax c (k_load c (fst p), kx_load (snd p)) (map (fun q => (k_load c (fst q), kx_load (snd q))) steps) in
  forall j, (j < k_n c)%nat -> first_max (k_type c) (lane_history j (p :: steps)) (nth j (k_store c (fst r)) 0) (nth j (kx_store c (snd r)) 0).
Proof. exact (k_argmax_ok c p steps). Qed.
Print Assumptions C144_argmax.
(** Missing: strides whose byte offsets do not fit in 32 bits (refuted below). *)
Theorem C144_loadstrided_partial c m p stride xs : vector (k_type c) (k_n c) xs -> elem_ok (ESigned 32) stride ->
  (forall i, (i < k_n c)%nat -> holds m (p + Z.of_nat i * stride * Z.of_nat (k_k c)) (Z.of_nat (k_k c)) (nth i xs 0)) ->
  (forall i, (i < k_n c)%nat -> elem_ok (ESigned 32) (Z.of_nat i * stride * Z.of_nat (k_k c))) ->
  exists pre, k_initgather c stride = Ok pre /\ k_store c (k_loadstrided c m p stride pre) = xs.
Proof. exact (k_strided_ok c m p stride xs). Qed.
Print Assumptions C144_loadstrided_partial.
Theorem C144_loadstrided_refuted : exists m p stride xs, vector (ESigned 32) 16 xs /\ elem_ok (ESigned 32) stride /\
  (forall i, (i < 16)%nat -> holds m (p + Z.of_nat i * stride * 4) 4 (nth i xs 0)) /\
  exists pre, k_initgather I32_16 stride = Ok pre /\ k_store I32_16 (k_loadstrided I32_16 m p stride pre) <> xs.
Proof. exact bad_k_strided. Qed.
Print Assumptions C144_loadstrided_refuted.
(** Index vectors: the multiples of a number, and sums modulo 2^32. *)
Theorem C144_initincrement c x : (forall j, (j < k_n c)%nat -> elem_ok (ESigned 32) (Z.of_nat j * x)) ->
  exists r, kx_initincrement c x = Ok r /\ kx_store c r = map (fun j => Z.of_nat j * x) (seq 0 (k_n c)).
Proof. exact (kx_inc_ok c x). Qed.
Print Assumptions C144_initincrement.
Theorem C144_increment c xs ys i : length xs = k_n c -> length ys = k_n c -> (i < k_n c)%nat ->
  let r := nth i (kx_store c (kx_add c (kx_load xs) (kx_load ys))) 0 in
  elem_ok (ESigned 32) r /\ exists q, r = nth i xs 0 + nth i ys 0 + q * 2 ^ 32.
Proof. exact (kx_add_nth c xs ys i). Qed.
Print Assumptions C144_increment.
(** Eight doubles: 1 and 2, 2 and 1, 0 and -0, -1 and -2, infinity and 3, NaN and 1, 1 and NaN, two equal numbers. A running argmax
    over three vectors of eight, and every third of the doubles 0, 8, 16, ... as patterns. *)
Example C144_ex :
  let xs := [0x3ff0000000000000; 0x4000000000000000; 0; 0xbff0000000000000; 0x7ff0000000000000; 0x7ff8000000000000; 0x3ff0000000000000; 5] in
  let ys := [0x4000000000000000; 0x3ff0000000000000; 0x8000000000000000; 0xc000000000000000; 0x4008000000000000; 0x3ff0000000000000; 0x7ff8000000000000; 5] in
  vector (k_type D_8) (k_n D_8) xs /\ vector (k_type D_8) (k_n D_8) ys /\
  k_store D_8 (k_max D_8 (k_load D_8 xs) (k_load D_8 ys)) =
    [0x4000000000000000; 0x4000000000000000; 0x8000000000000000; 0xbff0000000000000; 0x7ff0000000000000; 0x3ff0000000000000; 0x7ff8000000000000; 5] /\
  k_cmplt D_8 (k_load D_8 xs) (k_load D_8 ys) = 1 /\
  kx_store D_8 (k_blendindex D_8 (kx_load [0; 1; 2; 3; 4; 5; 6; 7]) (kx_load [-1; -2; -3; -4; -5; -6; -7; -8]) 1) = [-1; 1; 2; 3; 4; 5; 6; 7] /\
  (let r := k_argmax D_8 (k_load D_8 [1; 2; 3; 4; 5; 6; 7; 8], kx_load [0; 1; 2; 3; 4; 5; 6; 7])
     [(k_load D_8 [2; 1; 3; 5; 4; 9; 7; 0], kx_load [8; 9; 10; 11; 12; 13; 14; 15]); (k_load D_8 [1; 3; 4; 5; 6; 9; 1; 8], kx_load [16; 17; 18; 19; 20; 21; 22; 23])] in
   k_store D_8 (fst r) = [2; 3; 4; 5; 6; 9; 7; 8] /\ kx_store D_8 (snd r) = [8; 17; 18; 11; 20; 13; 6; 7]) /\
  (forall i, (i < 8)%nat -> elem_ok (ESigned 32) (Z.of_nat i * 3 * 8)) /\
  (exists pre, k_initgather D_8 3 = Ok pre /\
   k_store D_8 (k_loadstrided D_8 (fun a => if a mod 8 =? 0 then a mod 256 else 0) 0 3 pre) = [0; 24; 48; 72; 96; 120; 144; 168]).
Proof.
  cbv zeta. split; [split; [reflexivity|repeat (apply Forall_cons; [vm_compute; split; [discriminate|reflexivity]|]); apply Forall_nil]|].
  split; [split; [reflexivity|repeat (apply Forall_cons; [vm_compute; split; [discriminate|reflexivity]|]); apply Forall_nil]|].
  split; [vm_compute; reflexivity|]. split; [vm_compute; reflexivity|]. split; [vm_compute; reflexivity|].
  split; [split; vm_compute; reflexivity|]. split; [intros i I; unfold elem_ok; lia|]. eexists. split; [reflexivity|]. vm_compute. reflexivity.
Qed.
