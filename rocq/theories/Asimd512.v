(** include/simd/asimd_*.h: the vector classes over AVX-512 registers, simd_i32_16 (WITH_AVX512VL), simd_f_16 and simd_d_8
    (WITH_AVX512F). Registers are lists of bytes as in Asimd.v; a mask register is a number, bit i for lane i.

    The branches under WITH_AVX512VLBW are not modelled: no header of the repository defines that macro. *)
From Coq Require Import ZArith QArith Bool List.
From Verif Require Import Res CInt Spec SpecSimd Asimd.
Import ListNotations.
Open Scope Z_scope.

(** Instructions, after the processor's manual. The mask whose bits are given, bit 0 first, and the first n bits of one. *)
Fixpoint mask_of (bs : list bool) : Z := match bs with [] => 0 | b :: r => Z.b2z b + 2 * mask_of r end.
Definition mask_bits (n : nat) (m : Z) : list bool := map (fun i => Z.testbit m (Z.of_nat i)) (seq 0 n).
(** VPCMPD with predicate 1 (LT). *)
Definition i_cmplt_epi_mask (n k : nat) (a b : reg) : Z := mask_of (map2 (fun x y => signed k x <? signed k y) (lanes n k a) (lanes n k b)).
(** VCMPPS (k = 4) and VCMPPD (k = 8) to a mask with predicate 1 (LT_OS). *)
Definition i_cmplt_p_mask (n k : nat) (a b : reg) : Z := mask_of (map2 (f_lt_of k) (lanes n k a) (lanes n k b)).
(** VPBLENDMD, VBLENDMPS (k = 4), VBLENDMPD (k = 8): the second operand where the mask has a one. *)
Definition i_mask_blend (n k : nat) (m : Z) (a b : reg) : reg :=
  of_lanes k (map3 (fun x y (s : bool) => if s then y else x) (lanes n k a) (lanes n k b) (mask_bits n m)).

(** asimd_32.h 200-257 (simd_i32_16), asimd_f.h 143-192 (simd_f_16), asimd_d.h 148-198 (simd_d_8). *)
Inductive kclass : Set := I32_16 | F_16 | D_8.
(** The size of the member typedef [type] in bytes and the enumerator [csize] (asimd_32.h 210, asimd_f.h 152, asimd_d.h 157). *)
Definition k_k (c : kclass) : nat := match c with I32_16 | F_16 => 4 | D_8 => 8 end.
Definition k_n (c : kclass) : nat := match c with I32_16 | F_16 => 16 | D_8 => 8 end.
Definition k_type (c : kclass) : elem := match c with I32_16 => ESigned 32 | F_16 => EFloat 8 23 | D_8 => EFloat 11 52 end.
Definition k_elem (c : kclass) (z : Z) : Z := match k_type c with ESigned w => cast (sint w) z | _ => z end.
(** load and store: asimd_32.h 215-216, asimd_f.h 159-160, asimd_d.h 162-163. *)
Definition k_load (c : kclass) (xs : list Z) : reg := of_lanes (k_k c) xs.
Definition k_store (c : kclass) (r : reg) : list Z := map (k_elem c) (lanes (k_n c) (k_k c) r).
(** max: asimd_32.h 218, asimd_f.h 162, asimd_d.h 165. *)
Definition k_max (c : kclass) (x y : reg) : reg :=
  match c with I32_16 => i_max_epi (k_n c) (k_k c) x y | F_16 | D_8 => i_max_p (k_n c) (k_k c) x y end.
(** cmplt: asimd_32.h 221, asimd_f.h 163, asimd_d.h 166. *)
Definition k_cmplt (c : kclass) (x y : reg) : Z :=
  match c with I32_16 => i_cmplt_epi_mask (k_n c) (k_k c) x y | F_16 | D_8 => i_cmplt_p_mask (k_n c) (k_k c) x y end.
(** blend: asimd_32.h 248-251, asimd_f.h 181-184, asimd_d.h 171-174. *)
Definition k_blend (c : kclass) (x other : reg) (mask : Z) : reg := i_mask_blend (k_n c) (k_k c) mask x other.
(** The index types, one register of [csize] 32 bit lanes: simd_i32_16 (asimd_32.h 205, asimd_f.h 148) and simd_i32_8
    (asimd_d.h 153, loads and stores at asimd_32.h 101-102). *)
Definition kx_load (xs : list Z) : reg := of_lanes 4 xs.
Definition kx_store (c : kclass) (r : reg) : list Z := map (signed 4) (lanes (k_n c) 4 r).
(** blendindex: asimd_32.h 253-256, asimd_f.h 186-189, asimd_d.h 191-195. *)
Definition k_blendindex (c : kclass) (oindex other : reg) (mask : Z) : reg := i_mask_blend (k_n c) 4 mask oindex other.
(** operator+= of the index types: asimd_32.h 242-246, 126-130. *)
Definition kx_add (c : kclass) (a b : reg) : reg := i_add_epi32 (k_n c) a b.

(** The running argmax of asimd_base.h 272-293, as in Asimd.v. *)
Fixpoint k_argmax (c : kclass) (st : reg * reg) (steps : list (reg * reg)) : reg * reg :=
  match steps with
  | [] => st
  | (cur, curi) :: r =>
      let '(x, io) := st in
      let cmp := k_cmplt c x cur in
      k_argmax c (k_blend c x cur cmp, k_blendindex c io curi cmp) r
  end.

(** initincrement of the index types: asimd_32.h 234-240, 118-124. *)
Definition kx_initincrement (c : kclass) (x : Z) : res reg := let! a := incs (k_n c) 0 x in Ok (kx_load a).
(** gather: asimd_32.h 222, asimd_f.h 164, asimd_d.h 168. Scale 1: the indices count bytes. All three have gathermode WithGather
    (asimd_32.h 206, asimd_f.h 149, asimd_d.h 154). *)
Definition k_gather (c : kclass) (m : Z -> Z) (p : Z) (idx : reg) : reg :=
  of_lanes (k_k c) (map (fun i => mem_num m (p + i) (k_k c)) (kx_store c idx)).
(** asimd_base.h 162-177. The product is computed in size_t and converted to int32_t. *)
Definition k_initgather (c : kclass) (stride : Z) : res reg := kx_initincrement c (cast c_int (cast (uint 64) (stride * Z.of_nat (k_k c)))).
(** asimd_base.h 143-160. *)
Definition k_loadstrided (c : kclass) (m : Z -> Z) (p stride : Z) (pregather : reg) : reg :=
  if stride =? 1 then k_load c (map (fun i => mem_num m (p + Z.of_nat i * Z.of_nat (k_k c)) (k_k c)) (seq 0 (k_n c)))
  else k_gather c m p pregather.
