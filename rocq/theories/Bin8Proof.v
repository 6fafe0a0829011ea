(** binary8tab with the tables that its program writes. *)
From Coq Require Import ZArith Znumtheory QArith Qabs Lia Lqa List Bool Setoid.
From Verif Require Import Res CInt Bits Traits Unpacked Cfg Posit Spec SpecFloat SpecTab SpecAny SpecGen SpecBin8 FloatOps PositF AnyFloat Tab Gen Bin8 QPow Core SpecLemmas Arith DecodeProof EncodeProof
  UOps UAdd Ops OpsAdd OpsUnary OpsUnary2 Specials Room Laws Configs Final1 Final2 Final3 Conv1 Conv2 Conv3 Conv4 Conv5 TabProof4 TabProof5 FloatProof FloatProof2 PositFProof PositFProof2 PositFProof3
  PositFProof4 AnyProof AnyProof2 AnyProof3 AnyProof4 AnyProof5 AnyProof6 AnyProof7 GenProof GenProof2 GenProof4.
Import ListNotations.
Open Scope Z_scope.

Lemma b8_cast v : cast (uint 8) v = v mod 256. Proof. rewrite cast_u. reflexivity. Qed.
Lemma b8_idx v : b8_index v = v mod 256.
Proof.
  unfold b8_index, cand. rewrite cast_u. change 255 with (Z.ones 8). rewrite Z.land_ones by lia. change (2 ^ 8) with 256. change (2 ^ 16) with (256 * 256).
  symmetry. apply Zmod_div_mod; [lia|lia|]. exists 256. lia.
Qed.
Lemma b8_idx2 v : b8_index2 v = v mod 256.
Proof. unfold b8_index2, cand. rewrite cast_u. change 255 with (Z.ones 8). rewrite Z.land_ones by lia. change (2 ^ 8) with 256. apply Z.mod_mod. lia. Qed.
Lemma b8_in v : In v b8_loop <-> is_b8 v.
Proof.
  unfold b8_loop, is_b8. rewrite in_map_iff. split.
  - intros (i & <- & I). apply in_seq in I. lia.
  - intros R. exists (Z.to_nat (v + 128)). split; [lia|]. apply in_seq. lia.
Qed.
Lemma b8_mod_inj a b : is_b8 a -> is_b8 b -> a mod 256 = b mod 256 -> a = b.
Proof. unfold is_b8. intros A B E. pose proof (Z.div_mod a 256 ltac:(lia)). pose proof (Z.div_mod b 256 ltac:(lia)). lia. Qed.
Lemma b8_mod_range v : 0 <= v mod 256 < 2 ^ (5 + 2 + 1).
Proof. change (2 ^ (5 + 2 + 1)) with 256. apply Z.mod_pos_bound. lia. Qed.
Lemma b8_at1 val v : is_b8 v -> g_get 256 (g_fill b8_index val b8_loop g_new) (b8_uu v) = val v.
Proof.
  intros B. unfold g_get, b8_uu. rewrite b8_cast. pose proof (Z.mod_pos_bound v 256 ltac:(lia)).
  destruct (Z.ltb_spec (v mod 256) 0); [lia|]. destruct (Z.leb_spec 256 (v mod 256)); [lia|]. cbn [orb]. rewrite <- b8_idx.
  apply fill_hit; [apply b8_in; exact B|]. intros s' I E. apply b8_in in I. rewrite !b8_idx in E. exact (b8_mod_inj s' v I B E).
Qed.
Lemma b8_f v : is_b8 v -> b8_op2float (b8_index2 v) = b8_float v.
Proof.
  intros B. rewrite b8_idx2, <- b8_idx. apply fill_hit; [apply b8_in; exact B|]. intros s' I E. apply b8_in in I. rewrite !b8_idx in E. exact (b8_mod_inj s' v I B E).
Qed.
Lemma b8_at2 op a b : is_b8 a -> is_b8 b -> g_get (256 * 256) (b8_pairs op) (b8_uu a * 256 + b8_uu b) =
  b8_store (let! x := af_to 5 2 FFloat (a mod 256) in let! y := af_to 5 2 FFloat (b mod 256) in af_of 5 2 FFloat (op x y)).
Proof.
  intros A B. unfold g_get, b8_uu. rewrite !b8_cast. pose proof (Z.mod_pos_bound a 256 ltac:(lia)). pose proof (Z.mod_pos_bound b 256 ltac:(lia)).
  destruct (Z.ltb_spec (a mod 256 * 256 + b mod 256) 0); [lia|]. destruct (Z.leb_spec (256 * 256) (a mod 256 * 256 + b mod 256)); [lia|]. cbn [orb].
  rewrite <- !b8_idx2. unfold b8_pairs.
  rewrite (nest_hit (fun s1 s2 => b8_index2 s1 * 256 + b8_index2 s2) (b8_pair op)); [|apply b8_in; exact A|apply b8_in; exact B|].
  - unfold b8_pair. rewrite !b8_f by assumption. unfold b8_float, b8_x. rewrite !b8_cast, !b8_idx2. reflexivity.
  - intros s t S T E. apply b8_in in S, T. rewrite !b8_idx2 in E.
    pose proof (Z.mod_pos_bound s 256 ltac:(lia)). pose proof (Z.mod_pos_bound t 256 ltac:(lia)).
    split; apply b8_mod_inj; try assumption; lia.
Qed.
Lemma b8_float_at v : is_b8 v -> b8_to_float v = af_to 5 2 FFloat (v mod 256).
Proof. intros B. unfold b8_to_float, b8_op2float. rewrite b8_at1 by exact B. unfold b8_float, b8_x. rewrite b8_cast. reflexivity. Qed.

Lemma em8 : emulated 5 2 8 23.
Proof. split; [constructor; unfold is_width; lia|]. lia. Qed.
Lemma rm8 : roomy_fmt 5 2 8 23. Proof. unfold roomy_fmt. cbn. lia. Qed.

(** A byte of the format as a member. *)
Lemma b8_stored e r : float_for 5 2 e r -> is_b8 (cast (sint 8) r) /\ float_for 5 2 e (cast (sint 8) r mod 256).
Proof.
  intros F. pose proof (proj1 F) as B. change (2 ^ (5 + 2 + 1)) with 256 in B.
  assert (E : cast (sint 8) r = if r <? 128 then r else r - 256).
  { unfold cast. cbn [isg iw sint]. unfold wraps. change (2 ^ (8 - 1)) with 128. change (2 ^ 8) with 256.
    destruct (Z.ltb_spec r 128); [rewrite Z.mod_small by lia; lia|].
    replace (r + 128) with (r - 128 + 1 * 256) by lia. rewrite Z_mod_plus_full, Z.mod_small by lia. lia. }
  assert (M : cast (sint 8) r mod 256 = r).
  { rewrite E. destruct (Z.ltb_spec r 128); [apply Z.mod_small; lia|]. rewrite <- (Z_mod_plus_full (r - 256) 1 256), Z.mul_1_l, Z.sub_add. apply Z.mod_small. lia. }
  rewrite M. split; [|exact F]. rewrite E. unfold is_b8. destruct (Z.ltb_spec r 128); lia.
Qed.

Section b8.
Context (rnd : Q -> Z) (RN : rounding 8 23 rnd).
Definition rr (j : fft) : Q -> Z := match j with FFloat => rnd | FDouble => rne 11 52 end.
Lemma RR j : rounding (f_eb j) (f_fb j) (rr j).
Proof using RN. destruct j; [exact RN|exact (rnek_rounding FDouble)]. Qed.
Notation good e o := (exists r, o = Ok r /\ is_b8 r /\ float_for 5 2 e (r mod 256)).

Lemma b8_store_ok e o : (exists r, o = Ok r /\ float_for 5 2 e r) -> good e (b8_store o).
Proof using. intros (r & -> & F). cbn [b8_store bind]. exists (cast (sint 8) r). split; [reflexivity|]. apply b8_stored. exact F. Qed.
Lemma b8_mul_ok a b : is_b8 a -> is_b8 b -> good (x_mul (b8_val a) (b8_val b)) (b8_mul rnd a b).
Proof using RN.
  intros A B. unfold b8_mul, b8_opmul. rewrite b8_at2 by assumption. apply b8_store_ok.
  exact (af_mul_exact 5 2 FFloat rr em8 rm8 RR _ _ (b8_mod_range a) (b8_mod_range b)).
Qed.
Lemma b8_div_ok a b : is_b8 a -> is_b8 b -> good (x_div (b8_val a) (b8_val b)) (b8_div rnd a b).
Proof using RN.
  intros A B. unfold b8_div, b8_opdiv. rewrite b8_at2 by assumption. apply b8_store_ok.
  exact (af_div_exact 5 2 FFloat rr em8 rm8 RR _ _ (b8_mod_range a) (b8_mod_range b)).
Qed.
Lemma b8_inv_ok v : is_b8 v -> good (x_div (FinVal 1) (b8_val v)) (b8_inv rnd v).
Proof using RN.
  intros B. unfold b8_inv, b8_opinv. rewrite b8_at1 by exact B. unfold b8_e_inv, b8_x. rewrite b8_cast. apply b8_store_ok.
  exact (af_inv_exact 5 2 FFloat rr em8 rm8 RR _ (b8_mod_range v)).
Qed.
Lemma b8_square_ok v : is_b8 v -> good (x_mul (b8_val v) (b8_val v)) (b8_square rnd v).
Proof using RN.
  intros B. unfold b8_square, b8_opsquare. rewrite b8_at1 by exact B. unfold b8_e_square, b8_float, b8_x. rewrite b8_cast. apply b8_store_ok.
  pose proof (af_mul_exact 5 2 FFloat rr em8 rm8 RR _ _ (b8_mod_range v) (b8_mod_range v)) as H. unfold af_mul in H.
  destruct (af_to 5 2 FFloat (v mod 256)); exact H.
Qed.
Lemma b8_half_ok v : is_b8 v -> good (x_div (b8_val v) (FinVal 2)) (b8_half rnd v).
Proof using RN.
  intros B. unfold b8_half, b8_ophalf. rewrite b8_at1 by exact B. unfold b8_e_half, b8_float, b8_x. rewrite b8_cast. apply b8_store_ok.
  pose proof (af_div_exact 5 2 FFloat rr em8 rm8 RR _ 64 (b8_mod_range v) ltac:(cbn; lia)) as H. unfold af_div in H.
  assert (T : af_to 5 2 FFloat 64 = Ok (t_two single_trait)) by (vm_compute; reflexivity). rewrite T in H.
  assert (T2 : same_ext (ieee_val 5 2 64) (FinVal 2)) by (vm_compute; reflexivity).
  destruct (af_to 5 2 FFloat (v mod 256)) as [x|e]; cbn [bind] in *; destruct H as (r & O & F); exists r; (split; [exact O|]);
    refine (float_for_same _ _ _ _ _ _ F); apply same_div; try exact T2; apply same_refl.
Qed.
Lemma b8_add_ok a b : is_b8 a -> is_b8 b -> good (x_round 8 23 rnd (x_add (b8_val a) (b8_val b))) (b8_add rnd a b).
Proof using RN.
  intros A B. unfold b8_add, b8_opadd. rewrite b8_at2 by assumption. apply b8_store_ok.
  destruct (af_to_spec 5 2 FFloat em8 _ (b8_mod_range a)) as (x & Ox & Bx & Sx & _). destruct (af_to_spec 5 2 FFloat em8 _ (b8_mod_range b)) as (y & Oy & By & Sy & _).
  rewrite Ox, Oy. cbn [bind].
  destruct (af_of_gives 5 2 FFloat em8 _ _ (f_add_gives 8 23 rnd (k_fmt FFloat) RN x y Bx By)) as (r & O & H). exists r. split; [exact O|].
  refine (float_for_same _ _ _ _ _ _ H). apply (round_same 8 23 rnd RN). apply same_add2.
  - eapply same_trans; [exact Sx|]. exact (seen_all 5 2 FFloat em8 rm8 _ (b8_mod_range a)).
  - eapply same_trans; [exact Sy|]. exact (seen_all 5 2 FFloat em8 rm8 _ (b8_mod_range b)).
Qed.
Lemma b8_to_float_ok v : is_b8 v -> exists x, b8_to_float v = Ok x /\ 0 <= x < 2 ^ 32 /\ same_ext (ieee_val 8 23 x) (b8_val v).
Proof using.
  intros B. rewrite b8_float_at by exact B. exact (af_to_room 5 2 FFloat _ em8 rm8 (b8_mod_range v)).
Qed.
End b8.
