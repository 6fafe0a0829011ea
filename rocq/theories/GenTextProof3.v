(** The exponential table of softfloat16. *)
From Coq Require Import ZArith QArith Qabs Lqa List Bool String Ascii Lia.
From Verif Require Import Res CInt Traits Spec SpecFloat SpecAny SpecGen FloatOps Gen Soft Print GenText SpecGenText QPow Core SpecLemmas Conv1 FloatProof FloatProof2 PositFProof PositFProof2 AnyProof AnyProof2 TabProof3 GenProof2 GenProof4
  SoftProof SoftProof2 GenTextProof GenTextProof2.
Import ListNotations.
Open Scope Z_scope.

Lemma array_file a : sound a -> named a -> exists text zs,
  g_array_file_text a = Ok text /\
  read_array_file text = Some (ga_type a, ga_name a, zs) /\ Z.of_nat (Datatypes.length zs) = ga_size a /\ Forall (c_fits (ga_type a)) zs /\
  forall i, 0 <= i < ga_size a -> ga_at a i = Ok (nth (Z.to_nat i) zs 0).
Proof.
  intros S NA. unfold g_array_file_text. destruct (arrays_total [a] (Forall_cons a S (Forall_nil _))) as (t & G). cbn [g_arrays_text] in G.
  destruct (g_array_text a) as [ta|] eqn:A; cbn [bind] in G; [|discriminate]. clear t G. destruct (array_text_ok a ta A) as (zs & R & ->).
  cbn [bind]. eexists. exists zs. split; [reflexivity|]. destruct (array_start a zs (" " ++ nl) NA) as (N1 & _). split.
  { unfold read_array_file. change (after include_line _) with (after include_line (include_line ++ array_text a zs ++ " " ++ nl)). rewrite after_app.
    rewrite N1, (array_back a zs _ NA). reflexivity. }
  destruct (read_ok _ _ _ _ R) as (L & K). rewrite L. destruct S as (P & S). split; [apply Z2Nat.id; exact P|]. split.
  - apply Forall_forall. intros z Hz. apply (In_nth _ _ 0) in Hz. destruct Hz as (k & Hk & <-). rewrite L in Hk. specialize (K k Hk).
    destruct (S (Z.of_nat k)) as (z & Z1 & Z2); [lia|]. change (0 + Z.of_nat k) with (Z.of_nat k) in K. rewrite K in Z1. injection Z1 as ->. exact Z2.
  - intros v B. rewrite <- K; [f_equal; lia|]. lia.
Qed.

Lemma array_file4 ty name n f : sound (GArr ty name n f) -> named (GArr ty name n f) -> exists text zs,
  g_array_file_text (GArr ty name n f) = Ok text /\
  read_array_file text = Some (ty, name, zs) /\ Z.of_nat (Datatypes.length zs) = n /\ Forall (c_fits ty) zs /\
  forall i, 0 <= i < n -> f i = Ok (nth (Z.to_nat i) zs 0).
Proof. exact (array_file (GArr ty name n f)). Qed.
Lemma sound4 ty name n (f : Z -> res Z) g : 0 <= n -> (forall i, 0 <= i < n -> f i = Ok (g i)) -> (forall i, 0 <= i < n -> c_fits ty (g i)) -> sound (GArr ty name n f).
Proof. intros N F H. split; [exact N|]. intros i I. exists (g i). split; [exact (F i I)|exact (H i I)]. Qed.

Section e.
Context (rnd : Z -> Z -> Q -> Z) (RN : forall eb fb, fmt_ok eb fb -> rounding eb fb (rnd eb fb)) (ex : Z -> Z) (EX : exp2_float 8 23 ex).
Lemma sf16_at i : 0 <= i < 65536 -> sf16_opexp2 rnd ex i = Ok (sf16_entry rnd ex i).
Proof using.
  intros I. unfold sf16_opexp2. apply (fill_hit (fun i => i) (fun i => Ok (sf16_entry rnd ex i)) _ g_new i); [|intros s' _ E; exact E]. apply in_map_iff. exists (Z.to_nat i). split; [lia|]. apply in_seq. lia.
Qed.
Lemma sf16_get v : 0 <= v < 2 ^ 16 -> sf16_exp2 rnd ex v = Ok (sf16_entry rnd ex v).
Proof using. intros I. unfold sf16_exp2. rewrite get_in by exact I. apply sf16_at. exact I. Qed.
Let F16 : fmt_ok 5 10 := sf_fmt S16.
Let V16 := ieee_val 5 10.

Lemma to_float v : 0 <= v < 2 ^ 16 -> 0 <= sf_to_float rnd S16 v < 2 ^ (8 + 23 + 1) /\ same_ext (ieee_val 8 23 (sf_to_float rnd S16 v)) (V16 v).
Proof using RN.
  intros B. split; [exact (proj1 (conv_ok rnd RN 5 10 8 23 v fmt_f))|]. exact (proj1 (sf_to_ok rnd RN S16 v B)).
Qed.
Lemma of_float b : 0 <= b < 2 ^ (8 + 23 + 1) -> 0 <= sf_of_float rnd S16 b < 2 ^ (5 + 10 + 1) /\ V16 (sf_of_float rnd S16 b) = x_round 5 10 (rnd 5 10) (ieee_val 8 23 b).
Proof using RN. intros B. exact (conv_ok rnd RN 8 23 5 10 b F16). Qed.
Lemma half_float w : is_float 5 10 w -> is_float 8 23 w.
Proof using. apply (is_float_widen 5 10); [exact F16|exact fmt_f|lia|lia]. Qed.
Lemma round_ge w e : is_float 5 10 w -> ext_le (FinVal w) e -> ext_le (FinVal w) (x_round 5 10 (rnd 5 10) e).
Proof using RN.
  intros W H. destruct e as [q|[]|]; cbn [x_round]; try exact H. cbn [ext_le] in H. destruct (rn_exact _ _ _ (RN _ _ F16) w W) as (y & Y & E).
  pose proof (rn_mono _ _ _ (RN _ _ F16) w q H) as M. rewrite Y in M. destruct (ieee_val 5 10 (rnd 5 10 q)) as [z|[]|]; cbn [ext_le] in *; try exact M; lra.
Qed.
Lemma round_le w e : is_float 5 10 w -> ext_le e (FinVal w) -> ext_le (x_round 5 10 (rnd 5 10) e) (FinVal w).
Proof using RN.
  intros W H. destruct e as [q|[]|]; cbn [x_round]; try exact H. cbn [ext_le] in H. destruct (rn_exact _ _ _ (RN _ _ F16) w W) as (y & Y & E).
  pose proof (rn_mono _ _ _ (RN _ _ F16) q w H) as M. rewrite Y in M. destruct (ieee_val 5 10 (rnd 5 10 q)) as [z|[]|]; cbn [ext_le] in *; try exact M; lra.
Qed.
Lemma is_float_0 : is_float 5 10 0.
Proof using. eexists 0, _. split; [cbn; lia|]. split; [vm_compute; reflexivity|reflexivity]. Qed.

Lemma sf16_faithful : exp2_float 5 10 (sf16_entry rnd ex).
Proof using RN EX.
  assert (X : forall b, 0 <= b < 2 ^ (5 + 10 + 1) -> 0 <= ex (sf_to_float rnd S16 b) < 2 ^ (8 + 23 + 1)).
  { intros b B. apply (e2_range _ _ _ EX). exact (proj1 (to_float b B)). }
  assert (FV : forall b x, 0 <= b < 2 ^ (5 + 10 + 1) -> ieee_val 5 10 b = FinVal x -> exists y, ieee_val 8 23 (sf_to_float rnd S16 b) = FinVal y /\ (y == x)%Q).
  { intros b x B I. destruct (to_float b B) as (_ & S). unfold V16 in S. rewrite I in S. destruct (ieee_val 8 23 (sf_to_float rnd S16 b)) as [y|s|]; cbn [same_ext] in S; try contradiction; try discriminate. exists y. split; [reflexivity|exact S]. }
  constructor.
  - intros b B. exact (proj1 (of_float _ (X b B))).
  - intros b B I. destruct (to_float b B) as (R & S). unfold V16 in S. rewrite I in S. destruct (ieee_val 8 23 (sf_to_float rnd S16 b)) as [y|s|] eqn:J; cbn [same_ext] in S; try contradiction; try discriminate.
    destruct (e2_nan _ _ _ EX _ R J) as (N & _). unfold sf16_entry. split.
    + destruct (of_float _ (X b B)) as (_ & E). unfold V16 in E. rewrite E, N. reflexivity.
    + cbn [sf_of_float]. unfold f_conv, f_widen. rewrite N. vm_compute. reflexivity.
  - intros b B I. destruct (to_float b B) as (R & S). unfold V16 in S. rewrite I in S. destruct (ieee_val 8 23 (sf_to_float rnd S16 b)) as [y|s|] eqn:J; cbn [same_ext] in S; try contradiction; try discriminate.
    injection S as ->. destruct (of_float _ (X b B)) as (_ & E). unfold V16, sf16_entry in *. rewrite E, (e2_pinf _ _ _ EX _ R J). reflexivity.
  - intros b B I. destruct (to_float b B) as (R & S). unfold V16 in S. rewrite I in S. destruct (ieee_val 8 23 (sf_to_float rnd S16 b)) as [y|s|] eqn:J; cbn [same_ext] in S; try contradiction; try discriminate.
    injection S as ->. destruct (of_float _ (X b B)) as (_ & E). unfold V16, sf16_entry in *. rewrite E. pose proof (e2_ninf _ _ _ EX _ R J) as Z0.
    eapply same_trans; [apply (round_same 5 10 (rnd 5 10) (RN _ _ F16)); exact Z0|]. apply (round_exact 5 10 (rnd 5 10) (RN _ _ F16)). exact is_float_0.
  - intros b x B I. destruct (FV b x B I) as (y & J & _). destruct (to_float b B) as (R & _). destruct (of_float _ (X b B)) as (_ & E). unfold V16, sf16_entry in *. rewrite E.
    apply round_ge; [exact is_float_0|]. exact (e2_pos _ _ _ EX _ y R J).
  - intros b x w B I W P H. destruct (FV b x B I) as (y & J & Q). destruct (to_float b B) as (R & _). destruct (of_float _ (X b B)) as (_ & E). unfold V16, sf16_entry in *. rewrite E.
    apply round_ge; [exact W|]. apply (e2_below _ _ _ EX _ y w R J (half_float w W) P). apply (le_exp2_comp w w y x); [reflexivity|exact Q|exact H].
  - intros b x w B I W P H. destruct (FV b x B I) as (y & J & Q). destruct (to_float b B) as (R & _). destruct (of_float _ (X b B)) as (_ & E). unfold V16, sf16_entry in *. rewrite E.
    apply round_le; [exact W|]. apply (e2_above _ _ _ EX _ y w R J (half_float w W) P). apply (ge_exp2_comp w w x y); [reflexivity|symmetry; exact Q|exact H].
Qed.

Lemma sf16_sound : sound (GArr "uint16_t" "float16_opexp2" (256 * 256) (sf16_opexp2 rnd ex)).
Proof using RN EX.
  apply (sound4 _ _ _ _ (sf16_entry rnd ex)); [lia|intros i I; apply sf16_at; lia|].
  intros i I. right. right. right. split; [reflexivity|]. exact (e2_range _ _ _ sf16_faithful i I).
Qed.
Lemma sf16_named n f : named (GArr "uint16_t" "float16_opexp2" n f).
Proof using. split; (split; [reflexivity|]; split; [reflexivity|]); cbn; repeat split; discriminate. Qed.
Lemma softfloat_reads : exists text zs, softfloat_gen rnd ex = Ok text /\ read_array_file text = Some ("uint16_t", "float16_opexp2", zs)%string /\
  Z.of_nat (Datatypes.length zs) = 65536 /\ Forall (c_fits "uint16_t") zs /\
  forall v, 0 <= v < 2 ^ 16 -> sf16_exp2 rnd ex v = Ok (nth (Z.to_nat v) zs 0).
Proof using RN EX.
  destruct (array_file4 _ _ _ _ sf16_sound (sf16_named _ _)) as (t & zs & G & R & L & FT & E).
  exists t, zs. split; [exact G|]. split; [exact R|]. split; [exact L|]. split; [exact FT|].
  intros v B. rewrite (sf16_get v B). rewrite <- (sf16_at v B). apply E. exact B.
Qed.

(** Powers with an integer exponent that are half floats are exact. *)
Lemma sf16_power v x n : 0 <= v < 2 ^ 16 -> ieee_val 5 10 v = FinVal x -> (x == inject_Z n)%Q -> -24 <= n <= 15 ->
  exists r y, sf16_exp2 rnd ex v = Ok r /\ 0 <= r < 2 ^ 16 /\ ieee_val 5 10 r = FinVal y /\ (y == pow2 n)%Q.
Proof using RN EX.
  intros B I E N. pose proof sf16_faithful as FX. assert (W : is_float 5 10 (pow2 n)).
  { assert (C : forallb (fun n => match find (fun b => match ieee_val 5 10 b with FinVal y => Qeq_bool y (pow2 n) | _ => false end)
      (if n <? -14 then map (fun k => 2 ^ Z.of_nat k) (seq 0 10) else map (fun k => 1024 * Z.of_nat k) (seq 1 30)) with Some b => (0 <=? b) && (b <? 2 ^ 16) | None => false end)
      (map (fun k => Z.of_nat k - 24) (seq 0 40)) = true) by (vm_compute; reflexivity).
    rewrite forallb_forall in C. specialize (C n). assert (J : In n (map (fun k => Z.of_nat k - 24) (seq 0 40))) by (apply in_map_iff; exists (Z.to_nat (n + 24)); split; [lia|]; apply in_seq; lia).
    specialize (C J). match type of C with context [find ?f ?l] => destruct (find f l) as [b|] eqn:Fd end; [|discriminate].
    apply find_some in Fd. destruct Fd as (_ & Fd). destruct (ieee_val 5 10 b) as [y|s|] eqn:Y; try discriminate. apply Qeq_bool_eq in Fd. exists b, y. split; [|split; [exact Y|exact Fd]].
    change (2 ^ (5 + 10 + 1)) with (2 ^ 16). apply andb_prop in C. destruct C as (C1 & C2). apply Z.leb_le in C1. apply Z.ltb_lt in C2. lia. }
  pose proof (pow2_pos n) as P. exists (sf16_entry rnd ex v).
  pose proof (e2_below _ _ _ FX v x (pow2 n) B I W P (pow2_exp2 n x ltac:(rewrite E; apply Qle_refl))) as L.
  pose proof (e2_above _ _ _ FX v x (pow2 n) B I W P (exp2_pow2 n x ltac:(rewrite E; apply Qle_refl))) as U.
  destruct (ieee_val 5 10 (sf16_entry rnd ex v)) as [y|[]|] eqn:Y; cbn [ext_le] in L, U; try contradiction. exists y. split; [exact (sf16_get v B)|].
  split; [exact (e2_range _ _ _ FX v B)|]. split; [reflexivity|]. apply Qle_antisym; assumption.
Qed.
End e.
Lemma sf16_table rnd ex : (forall eb fb, fmt_ok eb fb -> rounding eb fb (rnd eb fb)) -> exp2_float 8 23 ex ->
  exists t, (forall v, 0 <= v < 2 ^ 16 -> sf16_exp2 rnd ex v = Ok (t v)) /\ exp2_float 5 10 t.
Proof. intros R E. exists (sf16_entry rnd ex). split; [exact (sf16_get rnd ex)|exact (sf16_faithful rnd R ex E)]. Qed.
