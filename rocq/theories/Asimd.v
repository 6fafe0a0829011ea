(** include/simd/asimd_*.h: vector classes over AVX2 registers. The AVX-512 classes are in Asimd512.v.

    A register is the list of its bytes, the least significant first, each in 0..255. The first part gives the meaning of
    the processor's instructions behind the intrinsics the headers call, after the processor's manual; these are
    trusted. The second part models the headers.

    The headers pass integer vectors where float vectors are expected and conversely. Compilers accept this with lax
    vector conversions, which keep the bits.

    Not modelled: the branches under WITH_AVX512VLBW, [nonsimd] and [simd_d_4_a] and
    [simd_x_a::argmax_along_fit], which do not compile when used, and iostream output. [simd_x_a] is in AsimdA.v. *)
From Coq Require Import ZArith QArith Bool List.
From Verif Require Import Res CInt Spec SpecSimd.
Import ListNotations.
Open Scope Z_scope.

Definition reg : Set := list Z.
Fixpoint map2 {A B C} (f : A -> B -> C) (xs : list A) (ys : list B) : list C :=
  match xs, ys with x :: xs', y :: ys' => f x y :: map2 f xs' ys' | _, _ => [] end.
Fixpoint map3 {A B C D} (f : A -> B -> C -> D) (xs : list A) (ys : list B) (zs : list C) : list D :=
  match xs, ys, zs with x :: xs', y :: ys', z :: zs' => f x y z :: map3 f xs' ys' zs' | _, _, _ => [] end.

(** Numbers of k bytes in memory, least significant byte first, two's complement. *)
Fixpoint le_num (bs : list Z) : Z := match bs with [] => 0 | b :: r => b + 256 * le_num r end.
Fixpoint le_bytes (k : nat) (z : Z) : list Z := match k with O => [] | S k' => z mod 256 :: le_bytes k' (z / 256) end.
(** The first n lanes of k bytes of a register, and the register with given lanes. *)
Fixpoint lanes (n k : nat) (r : reg) : list Z :=
  match n with O => [] | S n' => le_num (firstn k r) :: lanes n' k (skipn k r) end.
Definition of_lanes (k : nat) (ls : list Z) : reg := flat_map (le_bytes k) ls.
Definition bits_of_lane (k : nat) : Z := 8 * Z.of_nat k.
Definition lanewise (n k : nat) (f : Z -> Z -> Z) (a b : reg) : reg := of_lanes k (map2 f (lanes n k a) (lanes n k b)).
Definition all_ones (k : nat) (c : bool) : Z := if c then 2 ^ bits_of_lane k - 1 else 0.
Definition signed (k : nat) (z : Z) : Z := cast (sint (bits_of_lane k)) z.

(** Instructions. n lanes of k bytes. *)
(** PCMPEQB, PCMPEQW, PCMPEQD. *)
Definition i_cmpeq (n k : nat) (a b : reg) : reg := lanewise n k (fun x y => all_ones k (x =? y)) a b.
(** PCMPGTB, PCMPGTW, PCMPGTD. *)
Definition i_cmpgt_epi (n k : nat) (a b : reg) : reg := lanewise n k (fun x y => all_ones k (signed k y <? signed k x)) a b.
(** PMAXUB, PMAXUW, PMAXUD; PMAXSB, PMAXSW, PMAXSD. *)
Definition i_max_epu (n k : nat) (a b : reg) : reg := lanewise n k Z.max a b.
Definition i_max_epi (n k : nat) (a b : reg) : reg := lanewise n k (fun x y => Z.max (signed k x) (signed k y)) a b.
(** PSUBUSW. *)
Definition i_subs_epu16 (n : nat) (a b : reg) : reg := lanewise n 2 (fun x y => Z.max 0 (x - y)) a b.
(** PADDD. *)
Definition i_add_epi32 (n : nat) (a b : reg) : reg := lanewise n 4 Z.add a b.
(** PANDN. *)
Definition i_andnot (a b : reg) : reg := map2 (fun x y => Z.land (255 - x) y) a b.
(** PBLENDVB; BLENDVPS (k = 4); BLENDVPD (k = 8): the sign bit of the mask's lane selects. *)
Definition i_blendv_epi8 (a b m : reg) : reg := map3 (fun x y s => if 128 <=? s then y else x) a b m.
Definition i_blendv (n k : nat) (a b m : reg) : reg :=
  of_lanes k (map3 (fun x y s => if 2 ^ (bits_of_lane k - 1) <=? s then y else x) (lanes n k a) (lanes n k b) (lanes n k m)).
(** PSRLDQ. *)
Definition i_srli_si128 (a : reg) (n : nat) : reg := skipn n a ++ repeat 0 n.
(** PMOVSXBD (k = 1) and PMOVSXWD (k = 2): four lanes of k bytes to four lanes of 4 bytes. *)
Definition i_cvtepi_epi32 (k : nat) (a : reg) : reg := of_lanes 4 (map (signed k) (lanes 4 k a)).
(** The lower half of a 256 bit register. *)
Definition i_cast_si128 (a : reg) : reg := firstn 16 a.
(** VPERM2F128 of a register with itself and immediate 1: the halves change places. *)
Definition i_permute2f128_1 (a : reg) : reg := skipn 16 a ++ firstn 16 a.
(** VINSERTF128 with immediate 1 after widening. *)
Definition i_insertf128_1 (low high : reg) : reg := low ++ high.
(** PSHUFD. *)
Definition i_shuffle_epi32 (a : reg) (imm : Z) : reg :=
  let l := lanes 4 4 a in
  of_lanes 4 (map (fun i => nth (Z.to_nat ((imm / 4 ^ i) mod 4)) l 0) [0; 1; 2; 3]).
(** VPERMD. *)
Definition i_permutevar8x32 (a : reg) (idx : list nat) : reg := of_lanes 4 (map (fun i => nth i (lanes 8 4 a) 0) idx).

(** Order of floats given by their bits. *)
Definition f_lt (eb fb : Z) (a b : Z) : bool :=
  match ieee_val eb fb a, ieee_val eb fb b with
  | FinVal x, FinVal y => negb (Qle_bool y x)
  | InfVal true, FinVal _ | FinVal _, InfVal false | InfVal true, InfVal false => true
  | _, _ => false
  end.
(** CMPPS (k = 4) and CMPPD (k = 8) with predicate LT; MAXPS and MAXPD: the second operand unless the first is greater. *)
Definition f_lt_of (k : nat) : Z -> Z -> bool := if Nat.eqb k 4 then f_lt 8 23 else f_lt 11 52.
Definition i_cmplt_p (n k : nat) (a b : reg) : reg := lanewise n k (fun x y => all_ones k (f_lt_of k x y)) a b.
Definition i_max_p (n k : nat) (a b : reg) : reg := lanewise n k (fun x y => if f_lt_of k y x then x else y) a b.

(** asimd_base.h 33-36. *)
Definition gethigh (a : reg) : reg := i_cast_si128 (i_permute2f128_1 a).
(** asimd_base.h 38-41. *)
Definition mergelowhigh (low high : reg) : reg := i_insertf128_1 low high.
(** asimd_base.h 43-71 and 76-84: _mm256_cmpgt_epu8, _mm256_cmpgt_epu16, _mm256_cmpgt_epu32, _mm_cmpgt_epu8. *)
Definition cmpgt_epu (n k : nat) (x y : reg) : reg := i_andnot (i_cmpeq n k x y) (i_cmpeq n k (i_max_epu n k x y) x).
(** asimd_base.h 86-91; _mm_setzero_si128 is the zero register. *)
Definition cmple_epu16 (x y : reg) : reg := i_cmpeq 8 2 (i_subs_epu16 8 x y) (repeat 0 16).
(** asimd_base.h 93-98. *)
Definition cmpgt_epu16 (x y : reg) : reg := i_andnot (i_cmpeq 8 2 x y) (cmple_epu16 y x).
(** asimd_base.h 102-107. *)
Definition cmplt_epu16 (x y : reg) : reg := cmpgt_epu16 y x.
(** asimd_base.h 110-115. *)
Definition cmplt_epu8 (x y : reg) : reg := cmpgt_epu 16 1 y x.

(** The vector classes: asimd_8.h 155-203 (simd_i8_32), 208-254 (simd_u8_32), 335-397 (simd_u8_16), 403-448 (simd_i8_16);
    asimd_16.h 26-71 (simd_u16_8), 75-120 (simd_i16_8), 126-188 (simd_i16_16), 219-281 (simd_u16_16); asimd_32.h 28-85
    (simd_i32_4), 87-140 (simd_i32_8), 143-196 (simd_u32_8); asimd_f.h 25-74 (simd_f_4), 85-131 (simd_f_8); asimd_d.h 24-81
    (simd_d_2), 87-141 (simd_d_4). *)
Inductive vclass : Set :=
  I8_32 | U8_32 | U8_16 | I8_16 | U16_8 | I16_8 | I16_16 | U16_16 | I32_4 | I32_8 | U32_8 | F_4 | F_8 | D_2 | D_4.
(** The size of the member typedef [type] in bytes and the enumerator [csize]. *)
Definition v_k (c : vclass) : nat :=
  match c with I8_32 | U8_32 | U8_16 | I8_16 => 1 | U16_8 | I16_8 | I16_16 | U16_16 => 2
             | I32_4 | I32_8 | U32_8 | F_4 | F_8 => 4 | D_2 | D_4 => 8 end.
Definition v_n (c : vclass) : nat :=
  match c with I8_32 | U8_32 => 32 | U8_16 | I8_16 | I16_16 | U16_16 => 16 | U16_8 | I16_8 | I32_8 | U32_8 | F_8 => 8
             | I32_4 | F_4 | D_4 => 4 | D_2 => 2 end.
(** The member typedef [type]. Elements are numbers of the integer type, or the bits of a float or double. *)
Definition v_type (c : vclass) : elem :=
  match c with
  | I8_32 | I8_16 => ESigned 8 | I16_8 | I16_16 => ESigned 16 | I32_4 | I32_8 => ESigned 32
  | U8_32 | U8_16 => EUnsigned 8 | U16_8 | U16_16 => EUnsigned 16 | U32_8 => EUnsigned 32
  | F_4 | F_8 => EFloat 8 23 | D_2 | D_4 => EFloat 11 52
  end.
Definition v_elem (c : vclass) (z : Z) : Z := match v_type c with ESigned w => cast (sint w) z | _ => z end.
(** load and store: asimd_8.h 170-171, 223-224, 357-358, 417-418; asimd_16.h 40-41, 89-90, 148-149, 241-242; asimd_32.h
    43-44, 101-102, 157-158; asimd_f.h 40-41, 100-101; asimd_d.h 40-41, 101-102. The array is the list of its elements. *)
Definition v_load (c : vclass) (xs : list Z) : reg := of_lanes (v_k c) xs.
Definition v_store (c : vclass) (r : reg) : list Z := map (v_elem c) (lanes (v_n c) (v_k c) r).
(** max: asimd_8.h 172, 225, 359, 419; asimd_16.h 42, 91, 150, 243; asimd_32.h 47, 104, 160; asimd_f.h 43, 103; asimd_d.h
    43, 104. *)
Definition v_max (c : vclass) (x y : reg) : reg :=
  match c with
  | I8_32 | I8_16 | I16_8 | I16_16 | I32_4 | I32_8 => i_max_epi (v_n c) (v_k c) x y
  | U8_32 | U8_16 | U16_8 | U16_16 | U32_8 => i_max_epu (v_n c) (v_k c) x y
  | F_4 | F_8 | D_2 | D_4 => i_max_p (v_n c) (v_k c) x y
  end.
(** cmplt: asimd_8.h 173, 226, 364, 420; asimd_16.h 43, 92, 155, 248; asimd_32.h 48, 105, 161; asimd_f.h 44, 104; asimd_d.h
    44, 105. *)
Definition v_cmplt (c : vclass) (x y : reg) : reg :=
  match c with
  | I8_32 | I8_16 | I16_8 | I16_16 | I32_4 | I32_8 => i_cmpgt_epi (v_n c) (v_k c) y x
  | U8_32 | U16_16 | U32_8 => cmpgt_epu (v_n c) (v_k c) y x
  | U8_16 => cmplt_epu8 x y
  | U16_8 => cmplt_epu16 x y
  | F_4 | F_8 | D_2 | D_4 => i_cmplt_p (v_n c) (v_k c) x y
  end.
(** blend: asimd_8.h 193-196, 246-249, 385-392, 440-443; asimd_16.h 63-66, 112-115, 176-183, 269-276; asimd_32.h 77-80,
    132-135, 188-191; asimd_f.h 66-69, 123-126; asimd_d.h 63-66, 110-113. *)
Definition v_blend (c : vclass) (x other mask : reg) : reg :=
  match c with
  | I8_32 | U8_32 | U8_16 | I8_16 | U16_8 | I16_8 | I16_16 | U16_16 => i_blendv_epi8 x other mask
  | I32_4 | I32_8 | U32_8 | F_4 | F_8 => i_blendv (v_n c) 4 x other mask
  | D_2 | D_4 => i_blendv (v_n c) 8 x other mask
  end.

(** The index type of each class: so many registers of so many 32 bit lanes (asimd_8.h 160, 213; asimd_16.h 134, 227;
    asimd_32.h 33, 92, 148; asimd_f.h 30, 90; asimd_d.h 29, 92). *)
Definition x_regs (c : vclass) : nat := match c with I8_32 | U8_32 => 4 | U8_16 | I8_16 | I16_16 | U16_16 => 2 | _ => 1 end.
Definition x_n (c : vclass) : nat := match c with I32_4 | F_4 | D_2 | D_4 => 4 | _ => 8 end.
(** asimd_32.h 290-300 (simd_i32_8_a), and as above for one register. *)
Fixpoint x_load_regs (m l : nat) (xs : list Z) : list reg :=
  match m with O => [] | S m' => of_lanes 4 (firstn l xs) :: x_load_regs m' l (skipn l xs) end.
Definition x_load (c : vclass) (xs : list Z) : list reg := x_load_regs (x_regs c) (x_n c) xs.
Definition x_store (c : vclass) (rs : list reg) : list Z := flat_map (fun r => map (signed 4) (lanes (x_n c) 4 r)) rs.
(** asimd_32.h 302-307, and 62-66, 126-130 for one register. *)
Definition x_add (c : vclass) (a b : list reg) : list reg := map2 (i_add_epi32 (x_n c)) a b.

(** asimd_8.h 259-289 and 292-322: the masks for the four index registers. *)
Definition masks8 (mask : reg) : list reg :=
  let cur := i_cast_si128 mask in
  let mask0 := mergelowhigh (i_cvtepi_epi32 1 cur) (i_cvtepi_epi32 1 (i_srli_si128 cur 4)) in
  let mask1 := mergelowhigh (i_cvtepi_epi32 1 (i_srli_si128 cur 8)) (i_cvtepi_epi32 1 (i_srli_si128 cur 12)) in
  let cur := gethigh mask in
  let mask2 := mergelowhigh (i_cvtepi_epi32 1 cur) (i_cvtepi_epi32 1 (i_srli_si128 cur 4)) in
  let mask3 := mergelowhigh (i_cvtepi_epi32 1 (i_srli_si128 cur 8)) (i_cvtepi_epi32 1 (i_srli_si128 cur 12)) in
  [mask0; mask1; mask2; mask3].
(** asimd_16.h 194-216 and 287-309. *)
Definition masks16 (mask : reg) : list reg :=
  let cur := i_cast_si128 mask in
  let mask0 := mergelowhigh (i_cvtepi_epi32 2 cur) (i_cvtepi_epi32 2 (i_srli_si128 cur 6)) in
  let cur := gethigh mask in
  let mask1 := mergelowhigh (i_cvtepi_epi32 2 cur) (i_cvtepi_epi32 2 (i_srli_si128 cur 6)) in
  [mask0; mask1].
(** blendindex: asimd_8.h 286-289, 319-322; asimd_16.h 212-213, 305-306; asimd_32.h 321-335; asimd_f.h 77-80, 134-137;
    asimd_d.h 68-77, 130-138. It is declared but not defined for simd_u8_16, simd_i8_16, simd_u16_8, simd_i16_8: None. *)
Definition v_blendindex (c : vclass) (oindex other : list reg) (mask : reg) : option (list reg) :=
  match c with
  | I8_32 | U8_32 => Some (map3 (i_blendv 8 4) oindex other (masks8 mask))
  | I16_16 | U16_16 => Some (map3 (i_blendv 8 4) oindex other (masks16 mask))
  | I32_4 | F_4 => Some (map3 (i_blendv 4 4) oindex other [mask])
  | I32_8 | U32_8 | F_8 => Some (map3 (i_blendv 8 4) oindex other [mask])
  | D_2 => Some (map3 (i_blendv 4 4) oindex other [i_shuffle_epi32 mask 0x44])
  | D_4 => Some (map3 (i_blendv 4 4) oindex other [i_cast_si128 (i_permutevar8x32 mask [0; 2; 4; 6; 0; 2; 4; 6]%nat)])
  | U8_16 | I8_16 | U16_8 | I16_8 => None
  end.

(** One step of a running argmax over vectors, as written out in asimd_base.h 276-291: [x] holds the greatest elements so
    far and [io] where they were found. *)
Definition v_argmax_step (c : vclass) (st : reg * list reg) (cur : reg) (curi : list reg) : option (reg * list reg) :=
  let '(x, io) := st in
  let cmp := v_cmplt c x cur in
  match v_blendindex c io curi cmp with
  | Some io' => Some (v_blend c x cur cmp, io')
  | None => None
  end.

(** The loop of asimd_base.h 272-293 over the vectors and index vectors [steps]. *)
Fixpoint v_argmax (c : vclass) (st : reg * list reg) (steps : list (reg * list reg)) : option (reg * list reg) :=
  match steps with
  | [] => Some st
  | (cur, curi) :: r => match v_argmax_step c st cur curi with Some st' => v_argmax c st' r | None => None end
  end.

(** initincrement: asimd_32.h 69-75, 118-124, 309-315 (one body): a[i] = i*x for the int32_t indices. *)
Fixpoint incs (n : nat) (i x : Z) : res (list Z) :=
  match n with
  | O => Ok []
  | S n' => let! p := cmul c_int i x in let! r := incs n' (i + 1) x in Ok (p :: r)
  end.
Definition x_initincrement (c : vclass) (x : Z) : res (list reg) :=
  let! a := incs (x_regs c * x_n c) 0 x in Ok (x_load c a).

(** Whether the member typedef [gathermode] is WithGather (asimd_32.h 34, 93, 149; asimd_f.h 31, 91; asimd_d.h 30, 93). *)
Definition v_gather_mode (c : vclass) : bool := match c with I32_4 | I32_8 | U32_8 | F_4 | F_8 | D_2 | D_4 => true | _ => false end.
(** Memory gives the byte at each address. *)
Definition mem_num (m : Z -> Z) (a : Z) (k : nat) : Z := le_num (map (fun i => m (a + Z.of_nat i)) (seq 0 k)).
(** gather: asimd_32.h 49, 106, 162; asimd_f.h 45, 105; asimd_d.h 45, 107. VPGATHERDD, VGATHERDPS, VGATHERDPD with scale 1:
    the element at the address p plus the index, in bytes. *)
Definition v_gather (c : vclass) (m : Z -> Z) (p : Z) (idx : list reg) : reg :=
  of_lanes (v_k c) (map (fun i => mem_num m (p + i) (v_k c)) (firstn (v_n c) (x_store c idx))).
(** asimd_base.h 162-177. The product is computed in size_t and converted to int32_t. *)
Definition initgather (c : vclass) (stride : Z) (x : list reg) : res (list reg) :=
  if v_gather_mode c then x_initincrement c (cast c_int (cast (uint 64) (stride * Z.of_nat (v_k c)))) else Ok x.
(** asimd_base.h 125-160: the register loaded from the address p. *)
Definition loadstrided (c : vclass) (m : Z -> Z) (p stride : Z) (pregather : list reg) : reg :=
  let at_ i := mem_num m (p + i * Z.of_nat (v_k c)) (v_k c) in
  if stride =? 1 then v_load c (map (fun i => at_ (Z.of_nat i)) (seq 0 (v_n c)))
  else if v_gather_mode c then v_gather c m p pregather
  else v_load c (map (fun i => at_ (Z.of_nat i * stride)) (seq 0 (v_n c))).
