(** include/simd/asimd_base.h 220-352: simd_x_a<WT,N>, an array of N vectors of the class WT, for the AVX2 and the AVX-512 classes.

    Arrays in memory are lists of elements. Not modelled: argmax_along_fit and the constructor from an initializer list, which do
    not compile when used, and negative strides of load. *)
From Coq Require Import ZArith QArith Bool List.
From Verif Require Import Res CInt Spec SpecSimd Asimd Asimd512.
Import ListNotations.
Open Scope Z_scope.

(** WT: a class of Asimd.v or of Asimd512.v, with the same operations under one name. *)
Inductive wclass : Set := V (c : vclass) | K (c : kclass).
Definition w_k (c : wclass) : nat := match c with V c => v_k c | K c => k_k c end.
Definition w_n (c : wclass) : nat := match c with V c => v_n c | K c => k_n c end.
Definition w_type (c : wclass) : elem := match c with V c => v_type c | K c => k_type c end.
Definition w_load (c : wclass) (xs : list Z) : reg := match c with V c => v_load c xs | K c => k_load c xs end.
Definition w_store (c : wclass) (r : reg) : list Z := match c with V c => v_store c r | K c => k_store c r end.
Definition w_max (c : wclass) (x y : reg) : reg := match c with V c => v_max c x y | K c => k_max c x y end.
(** The member typedef [cmpresult]: a register, or a mask register. *)
Inductive wmask : Set := MReg (r : reg) | MNum (m : Z).
Definition w_cmplt (c : wclass) (x y : reg) : wmask := match c with V c => MReg (v_cmplt c x y) | K c => MNum (k_cmplt c x y) end.
(** A mask of the other kind would not compile; the value given then is arbitrary. *)
Definition w_blend (c : wclass) (x other : reg) (mask : wmask) : reg :=
  match c, mask with V c, MReg m => v_blend c x other m | K c, MNum m => k_blend c x other m | _, _ => x end.
(** The index type: registers of 32 bit lanes. *)
Definition wx_len (c : wclass) : nat := match c with V c => x_regs c * x_n c | K c => k_n c end.
Definition wx_load (c : wclass) (xs : list Z) : list reg := match c with V c => x_load c xs | K _ => [kx_load xs] end.
Definition wx_store (c : wclass) (rs : list reg) : list Z := match c with V c => x_store c rs | K c => flat_map (kx_store c) rs end.
Definition wx_add (c : wclass) (a b : list reg) : list reg := match c with V c => x_add c a b | K c => map2 (kx_add c) a b end.
Definition w_blendindex (c : wclass) (oindex other : list reg) (mask : wmask) : option (list reg) :=
  match c, mask with
  | V c, MReg m => v_blendindex c oindex other m
  | K c, MNum m => Some (map2 (fun a b => k_blendindex c a b m) oindex other)
  | _, _ => None
  end.
Definition w_gather_mode (c : wclass) : bool := match c with V c => v_gather_mode c | K _ => true end.
Definition w_gather (c : wclass) (m : Z -> Z) (p : Z) (idx : list reg) : reg :=
  match c with V c => v_gather c m p idx | K c => k_gather c m p (hd [] idx) end.
(** The constructors from one element: asimd_8.h 168, 221, 355, 415; asimd_16.h 38, 87, 146, 239; asimd_32.h 40, 99, 155, 213;
    asimd_f.h 37, 97, 156; asimd_d.h 36, 99, 160. _mm_set1 and its like. *)
Definition w_set1 (c : wclass) (v : Z) : reg := of_lanes (w_k c) (repeat v (w_n c)).

(** asimd_base.h 240-243. *)
Definition a_fill (c : wclass) (N : nat) (v : Z) : list reg := repeat (w_set1 c v) N.
(** asimd_base.h 307-311: [ptr] moves by [stride] elements; the default is the size of one vector (isize). *)
Fixpoint a_load (c : wclass) (N stride : nat) (xs : list Z) : list reg :=
  match N with O => [] | S N' => w_load c (firstn (w_n c) xs) :: a_load c N' stride (skipn stride xs) end.
(** asimd_base.h 313-317. *)
Definition a_store (c : wclass) (x : list reg) : list Z := flat_map (w_store c) x.
(** asimd_base.h 251-257. *)
Definition a_max (c : wclass) (x y : list reg) : list reg := map2 (w_max c) x y.
(** asimd_base.h 259-265. *)
Definition a_cmplt (c : wclass) (x y : list reg) : list wmask := map2 (w_cmplt c) x y.
(** asimd_base.h 340-344. *)
Definition a_blend (c : wclass) (x other : list reg) (mask : list wmask) : list reg := map3 (w_blend c) x other mask.
(** asimd_base.h 334-338; None when the class has no definition of blendindex. *)
Fixpoint a_blendindex (c : wclass) (oindex other : list (list reg)) (mask : list wmask) : option (list (list reg)) :=
  match oindex, other, mask with
  | o :: os, t :: ts, m :: ms =>
      match w_blendindex c o t m, a_blendindex c os ts ms with Some r, Some rs => Some (r :: rs) | _, _ => None end
  | _, _, _ => Some []
  end.
(** The index type simd_x_a<WT::indextype,N>: load and store with the default stride. *)
Fixpoint ax_load (c : wclass) (N : nat) (xs : list Z) : list (list reg) :=
  match N with O => [] | S N' => wx_load c (firstn (wx_len c) xs) :: ax_load c N' (skipn (wx_len c) xs) end.
Definition ax_store (c : wclass) (x : list (list reg)) : list Z := flat_map (wx_store c) x.
(** asimd_base.h 319-324, for the index type. *)
Definition ax_add (c : wclass) (a b : list (list reg)) : list (list reg) := map2 (wx_add c) a b.
(** asimd_base.h 326-332, for the index type. *)
Definition ax_initincrement (c : wclass) (N : nat) (x : Z) : res (list (list reg)) := let! a := incs (N * wx_len c) 0 x in Ok (ax_load c N a).
(** asimd_base.h 300-304: [ptr] moves by [stride] elements from one vector to the next. *)
Fixpoint a_gather (c : wclass) (m : Z -> Z) (p : Z) (idx : list (list reg)) (stride : Z) : list reg :=
  match idx with [] => [] | i :: r => w_gather c m p i :: a_gather c m (p + stride * Z.of_nat (w_k c)) r stride end.
