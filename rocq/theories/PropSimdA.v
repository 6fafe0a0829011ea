(** Arrays of vectors, simd_x_a: C145. *)
From Coq Require Import ZArith QArith List Lia.
From Verif Require Import Res CInt Spec SpecFloat SpecSimd Asimd Asimd512 AsimdA AsimdAProof.
Import ListNotations.
Open Scope Z_scope.

(** C145. Full claim: an array of N vectors of a class acts as one vector of N times as many elements, for every class and N: load and
    store, the constructor from one element, max, cmplt with blend, cmplt with blendindex, and the index array's initincrement and +=.
    gather fetches the elements at the indices, from a start that moves by the stride from one vector to the next. *)
Theorem C145_load_store c N xs : vector (w_type c) (N * w_n c) xs -> a_store c (a_load c N (w_n c) xs) = xs.
Proof. exact (a_load_store c N xs). Qed.
Print Assumptions C145_load_store.
(** With a stride between the vectors: element i of vector j is element j * stride + i of the array. *)
Theorem C145_load_stride c stride N xs j i : Forall (elem_ok (w_type c)) xs -> (j < N)%nat -> (i < w_n c)%nat ->
  (forall t, (t < N)%nat -> t * stride + w_n c <= length xs)%nat ->
  nth (j * w_n c + i) (a_store c (a_load c N stride xs)) 0 = nth (j * stride + i) xs 0.
Proof. exact (a_load_nth c stride N xs j i). Qed.
Print Assumptions C145_load_stride.
Theorem C145_fill c N v : elem_ok (w_type c) v -> a_store c (a_fill c N v) = repeat v (N * w_n c).
Proof. exact (a_fill_ok c N v). Qed.
Print Assumptions C145_fill.
Theorem C145_max c N xs ys i : vector (w_type c) (N * w_n c) xs -> vector (w_type c) (N * w_n c) ys -> (i < N * w_n c)%nat ->
  let r := nth i (a_store c (a_max c (a_load c N (w_n c) xs) (a_load c N (w_n c) ys))) 0 in
  (less (w_type c) (nth i ys 0) (nth i xs 0) -> r = nth i xs 0) /\ (~ less (w_type c) (nth i ys 0) (nth i xs 0) -> r = nth i ys 0).
Proof. exact (a_max_ok c N xs ys i). Qed.
Print Assumptions C145_max.
Theorem C145_cmplt_blend c N xs ys us vs i : vector (w_type c) (N * w_n c) xs -> vector (w_type c) (N * w_n c) ys ->
  vector (w_type c) (N * w_n c) us -> vector (w_type c) (N * w_n c) vs -> (i < N * w_n c)%nat ->
  let L := a_load c N (w_n c) in
  let r := nth i (a_store c (a_blend c (L us) (L vs) (a_cmplt c (L xs) (L ys)))) 0 in
  (less (w_type c) (nth i xs 0) (nth i ys 0) -> r = nth i vs 0) /\ (~ less (w_type c) (nth i xs 0) (nth i ys 0) -> r = nth i us 0).
Proof. exact (a_blend_ok c N xs ys us vs i). Qed.
Print Assumptions C145_cmplt_blend.
(** Missing: the classes without a correct blendindex (C107; refuted below). *)
Theorem C145_blendindex_partial c N xs ys us vs :
  In c [V I8_32; V U8_32; V I32_4; V I32_8; V U32_8; V F_4; V F_8; V D_4; K I32_16; K F_16; K D_8] ->
  vector (w_type c) (N * w_n c) xs -> vector (w_type c) (N * w_n c) ys ->
  vector (ESigned 32) (N * w_n c) us -> vector (ESigned 32) (N * w_n c) vs ->
  let L := a_load c N (w_n c) in
  exists r, a_blendindex c (ax_load c N us) (ax_load c N vs) (a_cmplt c (L xs) (L ys)) = Some r /\
  forall i, (i < N * w_n c)%nat ->
  (less (w_type c) (nth i xs 0) (nth i ys 0) -> nth i (ax_store c r) 0 = nth i vs 0) /\
  (~ less (w_type c) (nth i xs 0) (nth i ys 0) -> nth i (ax_store c r) 0 = nth i us 0).
Proof. exact (fun H => a_blendindex_ok c N xs ys us vs (a_index_in c H)). Qed.
Print Assumptions C145_blendindex_partial.
Theorem C145_blendindex_refuted c : In c [I16_16; U16_16; D_2] -> exists xs ys us vs r i,
  vector (v_type c) (v_n c) xs /\ vector (v_type c) (v_n c) ys /\ vector (ESigned 32) (wx_len (V c)) us /\ vector (ESigned 32) (wx_len (V c)) vs /\ (i < v_n c)%nat /\
  a_blendindex (V c) (ax_load (V c) 1 us) (ax_load (V c) 1 vs) (a_cmplt (V c) (a_load (V c) 1 (v_n c) xs) (a_load (V c) 1 (v_n c) ys)) = Some r /\
  less (v_type c) (nth i xs 0) (nth i ys 0) /\ nth i (ax_store (V c) r) 0 <> nth i vs 0.
Proof. exact (bad_a_blendindex c). Qed.
Print Assumptions C145_blendindex_refuted.
Theorem C145_initincrement c N x : (forall j, (j < N * wx_len c)%nat -> elem_ok (ESigned 32) (Z.of_nat j * x)) ->
  exists r, ax_initincrement c N x = Ok r /\ ax_store c r = map (fun j => Z.of_nat j * x) (seq 0 (N * wx_len c)).
Proof. exact (ax_inc_ok c N x). Qed.
Print Assumptions C145_initincrement.
Theorem C145_increment c N xs ys i : length xs = (N * wx_len c)%nat -> length ys = (N * wx_len c)%nat -> (i < N * wx_len c)%nat ->
  let r := nth i (ax_store c (ax_add c (ax_load c N xs) (ax_load c N ys))) 0 in
  elem_ok (ESigned 32) r /\ exists q, r = nth i xs 0 + nth i ys 0 + q * 2 ^ 32.
Proof. exact (ax_add_ok c N xs ys i). Qed.
Print Assumptions C145_increment.
Theorem C145_gather c m stride N p xs zs : w_gather_mode c = true -> vector (ESigned 32) (N * wx_len c) xs -> vector (w_type c) (N * w_n c) zs ->
  (forall j i, (j < N)%nat -> (i < w_n c)%nat ->
    holds m (p + Z.of_nat j * stride * Z.of_nat (w_k c) + nth (j * wx_len c + i) xs 0) (Z.of_nat (w_k c)) (nth (j * w_n c + i) zs 0)) ->
  a_store c (a_gather c m p (ax_load c N xs) stride) = zs.
Proof. exact (fun G => a_gather_ok c m stride G N p xs zs). Qed.
Print Assumptions C145_gather.
(** Three vectors of four ints, two of eight doubles, and two of four floats gathered from memory with byte a mod 256 at a. *)
Example C145_ex :
  let xs := [5; -1; 7; 0; 9; 9; -3; 2; 1; 100; 4; 6] in let ys := [6; -2; 7; 1; 8; 10; -4; 3; 0; 99; 5; 6] in
  vector (w_type (V I32_4)) (3 * w_n (V I32_4)) xs /\ vector (w_type (V I32_4)) (3 * w_n (V I32_4)) ys /\
  a_store (V I32_4) (a_max (V I32_4) (a_load (V I32_4) 3 4 xs) (a_load (V I32_4) 3 4 ys)) = [6; -1; 7; 1; 9; 10; -3; 3; 1; 100; 5; 6] /\
  a_store (V I32_4) (a_load (V I32_4) 3 2 xs) = [5; -1; 7; 0; 7; 0; 9; 9; 9; 9; -3; 2] /\
  (exists r, a_blendindex (V I32_4) (ax_load (V I32_4) 3 xs) (ax_load (V I32_4) 3 (repeat 50 12))
     (a_cmplt (V I32_4) (a_load (V I32_4) 3 4 xs) (a_load (V I32_4) 3 4 ys)) = Some r /\
   ax_store (V I32_4) r = [50; -1; 7; 50; 9; 50; -3; 50; 1; 100; 50; 6]) /\
  a_store (K D_8) (a_fill (K D_8) 2 0x3ff0000000000000) = repeat 0x3ff0000000000000 16 /\
  (exists i, ax_initincrement (V F_4) 2 8 = Ok i /\
   a_store (V F_4) (a_gather (V F_4) (fun a => a mod 256) 0 i 1) =
   [0x03020100; 0x0b0a0908; 0x13121110; 0x1b1a1918; 0x27262524; 0x2f2e2d2c; 0x37363534; 0x3f3e3d3c]).
Proof.
  cbv zeta. split; [split; [reflexivity|repeat (apply Forall_cons; [vm_compute; split; [discriminate|reflexivity]|]); apply Forall_nil]|].
  split; [split; [reflexivity|repeat (apply Forall_cons; [vm_compute; split; [discriminate|reflexivity]|]); apply Forall_nil]|].
  split; [vm_compute; reflexivity|]. split; [vm_compute; reflexivity|].
  split; [eexists; split; [vm_compute; reflexivity|]; vm_compute; reflexivity|]. split; [vm_compute; reflexivity|].
  eexists. split; [vm_compute; reflexivity|]. vm_compute. reflexivity.
Qed.
