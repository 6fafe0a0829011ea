(** Exhaustive checks of the shipped tables, lifted to statements about rational values. *)
From Coq Require Import ZArith QArith Qabs List Bool Lia Lqa.
From Verif Require Import Res CInt Traits Unpacked Cfg Posit Configs Spec QPow Core SpecLemmas Arith DecodeProof Tab.
From Verif Require Tbl8 Tbl12.
Import ListNotations.
Open Scope Z_scope.

Definition zseq (lo : Z) (n : nat) : list Z := map (fun i => lo + Z.of_nat i) (seq 0 n).

Lemma zseq_in lo n v : lo <= v < lo + Z.of_nat n -> In v (zseq lo n).
Proof.
  intros H. unfold zseq. apply in_map_iff. exists (Z.to_nat (v - lo)). split; [lia|].
  apply in_seq. lia.
Qed.

Lemma zall (P : Z -> bool) lo n : forallb P (zseq lo n) = true ->
  forall v, lo <= v < lo + Z.of_nat n -> P v = true.
Proof. intros H v B. rewrite forallb_forall in H. apply H, zseq_in, B. Qed.

Lemma zall2 (P : Z -> Z -> bool) lo n lo' n' :
  forallb (fun a => forallb (P a) (zseq lo' n')) (zseq lo n) = true ->
  forall a b, lo <= a < lo + Z.of_nat n -> lo' <= b < lo' + Z.of_nat n' -> P a b = true.
Proof. intros H a b A B. apply (zall _ _ _ (zall _ _ _ H a A) b B). Qed.

(** ** Truncation decided on integers *)
Section Trunc.
  Variables (c : cfg) (S : positive) (iv : Z -> Z).
  Hypothesis V : valid_cfg c.
  Hypothesis Hiv : forall v, 1 <= v <= maxreal c -> (value c v == iv v # S)%Q.

  Definition sv (v : Z) : Z := if v =? 0 then 0 else if v <? 0 then - iv (- v) else iv v.

  Definition rzb (n d r : Z) : bool :=
    if n =? 0 then r =? 0
    else
      let v := Z.abs r in
      (Z.sgn n =? Z.sgn r) && (1 <=? v) && (v <=? maxreal c) &&
      ((iv v * d <=? Zpos S * Z.abs n) || (v =? 1)) &&
      ((v =? maxreal c) || (Zpos S * Z.abs n <? iv (v + 1) * d)).

  Lemma sv_ok v : real c v -> (value c v == sv v # S)%Q.
  Proof using V Hiv.
    clear - V Hiv.
    unfold real, sv. intros R. vcb V.
    destruct (Z.eqb_spec v 0) as [->|N0]; [apply value_0; assumption|].
    destruct (Z.ltb_spec v 0).
    - transitivity (- - value c v)%Q; [symmetry; apply Qopp_involutive|].
      rewrite <- (value_opp c BN Bes v), (Hiv (- v)) by lia. reflexivity.
    - apply Hiv; lia.
  Qed.

  Lemma down_ok (y : Q) n d v : 0 < d -> 0 < n -> (y == inject_Z n / inject_Z d)%Q ->
    1 <= v <= maxreal c -> (iv v * d <= Zpos S * n \/ v = 1) ->
    (v = maxreal c \/ Zpos S * n < iv (v + 1) * d) -> down_pos c y v.
  Proof using V Hiv.
    clear - V Hiv.
    intros D N Y B L U. vcb V.
    assert (YE : (y == n # Z.to_pos d)%Q).
    { rewrite Y. unfold Qdiv, Qinv, inject_Z, Qeq. destruct d; cbn; lia. }
    apply (down_pos_comp c BN Bes (n # Z.to_pos d)); [symmetry; exact YE|].
    apply (down_pos_intro c BN Bes); [exact B| |].
    - destruct L as [L|L]; [left|right; exact L]. rewrite (Hiv v B). unfold Qle. cbn [Qnum Qden]. rewrite Z2Pos.id by lia. lia.
    - destruct U as [U|U]; [left; exact U|].
      destruct (Z.eq_dec v (maxreal c)) as [Ev|Nv]; [left; exact Ev|right].
      rewrite (Hiv (v + 1)) by lia. unfold Qlt. cbn [Qnum Qden]. rewrite Z2Pos.id by lia. lia.
  Qed.

  Lemma rzb_ok (x : Q) n d r : 0 < d -> (x == inject_Z n / inject_Z d)%Q -> rzb n d r = true -> rounds_tz c x r.
  Proof using V Hiv.
    clear - V Hiv.
    intros D X H. unfold rzb in H. unfold rounds_tz.
    assert (Dq : (0 < / inject_Z d)%Q) by (apply Qinv_lt_0_compat; change 0%Q with (inject_Z 0); rewrite <- Zlt_Qlt; lia).
    destruct (Z.eqb_spec n 0) as [->|N0].
    - left. apply Z.eqb_eq in H. subst r. split; [|reflexivity]. rewrite X. unfold Qdiv. change (inject_Z 0) with 0%Q. ring.
    - repeat rewrite andb_true_iff in H. destruct H as [[[[Sg L1] M] L] U].
      apply Z.eqb_eq in Sg. apply Z.leb_le in L1, M. apply orb_true_iff in L, U.
      rewrite Z.leb_le, Z.eqb_eq in L. rewrite Z.eqb_eq, Z.ltb_lt in U.
      destruct (Z_lt_le_dec 0 n) as [P|P].
      + right; left. assert (0 < r) by lia. rewrite (Z.abs_eq r), (Z.abs_eq n) in * by lia. split.
        * rewrite X. apply Qmult_lt_0_compat; [change 0%Q with (inject_Z 0); rewrite <- Zlt_Qlt; lia|exact Dq].
        * apply (down_ok x n d r); try assumption; lia.
      + right; right. assert (r < 0) by lia. rewrite (Z.abs_neq r), (Z.abs_neq n) in * by lia.
        assert (Q' : (- x == inject_Z (- n) / inject_Z d)%Q) by (rewrite X, inject_Z_opp; unfold Qdiv; ring).
        assert (0 < - x)%Q.
        { rewrite Q'. apply Qmult_lt_0_compat; [change 0%Q with (inject_Z 0); rewrite <- Zlt_Qlt; lia|exact Dq]. }
        split; [lra|]. apply (down_ok (- x) (- n) d (- r)); try assumption; lia.
  Qed.

  Lemma sum_frac a b : real c a -> real c b -> (value c a + value c b == inject_Z (sv a + sv b) / inject_Z (Zpos S))%Q.
  Proof using V Hiv.
    clear - V Hiv. intros A B. rewrite (sv_ok a A), (sv_ok b B). unfold Qeq, Qdiv, Qinv, inject_Z. cbn. lia.
  Qed.
  Lemma dif_frac a b : real c a -> real c b -> (value c a - value c b == inject_Z (sv a - sv b) / inject_Z (Zpos S))%Q.
  Proof using V Hiv.
    clear - V Hiv. intros A B. rewrite (sv_ok a A), (sv_ok b B). unfold Qeq, Qdiv, Qinv, inject_Z. cbn. lia.
  Qed.
  Lemma mul_frac a b : real c a -> real c b ->
    (value c a * value c b == inject_Z (sv a * sv b) / inject_Z (Zpos S * Zpos S))%Q.
  Proof using V Hiv.
    clear - V Hiv. intros A B. rewrite (sv_ok a A), (sv_ok b B). unfold Qeq, Qdiv, Qinv, inject_Z. cbn. lia.
  Qed.
  Lemma half_frac a : real c a -> (value c a / 2 == inject_Z (sv a) / inject_Z (2 * Zpos S))%Q.
  Proof using V Hiv.
    clear - V Hiv. intros A. rewrite (sv_ok a A). unfold Qeq, Qdiv, Qinv, inject_Z. cbn. lia.
  Qed.
  Lemma twice_frac a : real c a -> (2 * value c a == inject_Z (2 * sv a) / inject_Z (Zpos S))%Q.
  Proof using V Hiv.
    clear - V Hiv. intros A. rewrite (sv_ok a A). unfold Qeq, Qdiv, Qinv, inject_Z. cbn. lia.
  Qed.
  Lemma div_frac a b : real c a -> real c b -> b <> 0 -> sv b <> 0 ->
    (value c a / value c b == inject_Z (sv a * Z.sgn (sv b)) / inject_Z (Z.abs (sv b)))%Q.
  Proof using V Hiv.
    clear - V Hiv. intros A B N0 Z0. rewrite (sv_ok a A), (sv_ok b B). generalize (sv a) as p. intros p.
    destruct (sv b) as [|q|q]; [congruence| |]; unfold Qeq, Qdiv, Qinv, inject_Z; cbn; lia.
  Qed.
  Lemma inv_frac b : real c b -> b <> 0 -> sv b <> 0 ->
    (/ value c b == inject_Z (Zpos S * Z.sgn (sv b)) / inject_Z (Z.abs (sv b)))%Q.
  Proof using V Hiv.
    clear - V Hiv. intros B N0 Z0. rewrite (sv_ok b B).
    destruct (sv b) as [|q|q]; [congruence| |]; unfold Qeq, Qdiv, Qinv, inject_Z; cbn; lia.
  Qed.
End Trunc.

(** ** Tables indexed by a positive number *)
Inductive trie : Set := TE | TN (x : Z) (l r : trie).
Fixpoint tget (t : trie) (p : positive) : Z :=
  match t, p with
  | TE, _ => 0
  | TN x _ _, xH => x
  | TN _ l _, xO q => tget l q
  | TN _ _ r, xI q => tget r q
  end.
Fixpoint tset (t : trie) (p : positive) (x : Z) : trie :=
  match p, t with
  | xH, TE => TN x TE TE
  | xH, TN _ l r => TN x l r
  | xO q, TE => TN 0 (tset TE q x) TE
  | xO q, TN y l r => TN y (tset l q x) r
  | xI q, TE => TN 0 TE (tset TE q x)
  | xI q, TN y l r => TN y l (tset r q x)
  end.
Definition tread (t : trie) (v : Z) : Z := match v with Zpos p => tget t p | _ => 0 end.
Definition tmake (f : Z -> Z) (n : nat) : trie :=
  fold_left (fun t i => tset t (Pos.of_nat i) (f (Z.of_nat i))) (seq 1 n) TE.

(** ** The entries of a row, one after the other *)
Fixpoint unrow (w : Z) (n : nat) (z : Z) : list Z :=
  match n with O => [] | S m => Z.land z (Z.ones w) :: unrow w m (Z.shiftr z w) end.
Lemma unrow_length w n z : length (unrow w n z) = n.
Proof. revert z. induction n; intros; cbn [unrow length]; [reflexivity|]. rewrite IHn. reflexivity. Qed.
Lemma unrow_nth w n z i : 0 < w -> (i < n)%nat -> nth i (unrow w n z) 0 = Z.land (Z.shiftr z (w * Z.of_nat i)) (Z.ones w).
Proof.
  intros W. revert z i. induction n as [|n IH]; intros z i I; [lia|]. cbn [unrow]. destruct i as [|i]; cbn [nth].
  - rewrite Z.mul_0_r, Z.shiftr_0_r. reflexivity.
  - rewrite IH by lia. rewrite Z.shiftr_shiftr by nia. do 2 f_equal. lia.
Qed.
Lemma combine_all {A B} (P : A -> B -> bool) (l : list A) (l' : list B) i a b : length l = length l' -> (i < length l)%nat ->
  forallb (fun p => P (fst p) (snd p)) (combine l l') = true -> P (nth i l a) (nth i l' b) = true.
Proof.
  intros L I H. rewrite forallb_forall in H. pose proof (nth_In (combine l l') (a, b) (n := i)) as N.
  rewrite combine_length, <- L, Nat.min_id in N. specialize (N I). rewrite combine_nth in N by exact L. exact (H _ N).
Qed.

(** ** posit8 *)
Definition iv8_trie : trie := Eval vm_compute in tmake (fun v => Qnum (Qred (value p8 v * 64))) 127.
Definition iv8 : Z -> Z := tread iv8_trie.

Lemma iv8_ok v : 1 <= v <= maxreal p8 -> (value p8 v == iv8 v # 64)%Q.
Proof.
  intros B. apply Qeq_bool_eq. revert v B.
  assert (H : forallb (fun v => Qeq_bool (value p8 v) (iv8 v # 64)) (zseq 1 127) = true) by (vm_compute; reflexivity).
  intros v B. apply (zall _ _ _ H). change (maxreal p8) with 127 in B. lia.
Qed.

Definition on_ok (r : res Z) (P : Z -> bool) : bool := match r with Ok z => P z | UB _ => false end.
Lemma on_ok_elim r P : on_ok r P = true -> exists z, r = Ok z /\ P z = true.
Proof. destruct r; cbn; [intros; eexists; split; [reflexivity|assumption]|discriminate]. Qed.

Definition rz8 (n d r : Z) : bool :=
  if n =? 0 then r =? 0
  else
    let v := Z.abs r in
    (Z.sgn n =? Z.sgn r) && (1 <=? v) && (v <=? 127) &&
    ((iv8 v * d <=? 64 * Z.abs n) || (v =? 1)) &&
    ((v =? 127) || (64 * Z.abs n <? iv8 (v + 1) * d)).
Lemma rz8_rzb n d r : rz8 n d r = rzb p8 64 iv8 n d r. Proof. reflexivity. Qed.
Definition s8 := sv iv8.
(** The operands that denote real numbers. *)
Definition r8 (v : Z) : bool := (-127 <=? v) && (v <=? 127).

(** The values 0..127, -128..-1 of [int8_t] in the order of their unsigned patterns. *)
Definition order8 : list Z := Eval vm_compute in zseq 0 128 ++ zseq (-128) 128.
Definition chk8 (rows : list Z) (spec : Z -> Z -> Z -> bool) : bool :=
  (length rows =? 256)%nat &&
  forallb (fun p => forallb (fun q => spec (fst p) (fst q) (i8 (snd q))) (combine order8 (unrow 8 256 (snd p)))) (combine order8 rows).
Definition chk8u (rows : list Z) (spec : Z -> Z -> bool) : bool :=
  (length rows =? 1)%nat && forallb (fun q => spec (fst q) (i8 (snd q))) (combine order8 (unrow 8 256 (nth 0 rows 0))).

Definition add_spec8 a b r : bool :=
  if (a =? -128) || (b =? -128) then r =? -128 else rz8 (s8 a + s8 b) 64 r.
Definition mul_spec8 a b r : bool :=
  if (a =? -128) || (b =? -128) then r =? -128 else rz8 (s8 a * s8 b) 4096 r.
Definition div_spec8 a b r : bool :=
  if (a =? -128) || (b =? -128) || (b =? 0) then r =? -128 else
  let d := s8 b in negb (d =? 0) && rz8 (s8 a * Z.sgn d) (Z.abs d) r.

Lemma chk8_add : chk8 Tbl8.opadd_rows add_spec8 = true.
Proof. vm_compute. reflexivity. Qed.
Lemma chk8_mul : chk8 Tbl8.opmul_rows mul_spec8 = true.
Proof. vm_compute. reflexivity. Qed.
Lemma chk8_div : chk8 Tbl8.opdiv_rows div_spec8 = true.
Proof. vm_compute. reflexivity. Qed.

Lemma order8_nth v : pattern p8 v -> 0 <= t8_uu v < 256 /\ nth (Z.to_nat (t8_uu v)) order8 0 = v.
Proof.
  intros P. unfold pattern in P. cbn in P.
  assert (H : forallb (fun v => (0 <=? t8_uu v) && (t8_uu v <? 256) && (nth (Z.to_nat (t8_uu v)) order8 0 =? v)) (zseq (-128) 256) = true) by (vm_compute; reflexivity).
  pose proof (zall _ _ _ H v ltac:(lia)) as G. cbv beta in G. repeat rewrite andb_true_iff in G.
  rewrite Z.leb_le, Z.ltb_lt, Z.eqb_eq in G. lia.
Qed.
Lemma chk8_elim rows spec : chk8 rows spec = true -> forall a b, pattern p8 a -> pattern p8 b ->
  exists r, t8_get2 rows a b = Ok r /\ spec a b r = true.
Proof.
  intros H a b A B. destruct (order8_nth a A) as [UA NA], (order8_nth b B) as [UB NB]. unfold chk8 in H.
  apply andb_true_iff in H. destruct H as [L H]. apply Nat.eqb_eq in L.
  pose proof (combine_all (fun x row => forallb (fun q => spec x (fst q) (i8 (snd q))) (combine order8 (unrow 8 256 row)))
    order8 rows (Z.to_nat (t8_uu a)) 0 0 ltac:(rewrite L; reflexivity) ltac:(change (length order8) with 256%nat; lia) H) as G. cbv beta in G. rewrite NA in G.
  pose proof (combine_all (fun y x => spec a y (i8 x)) order8 (unrow 8 256 (nth (Z.to_nat (t8_uu a)) rows 0)) (Z.to_nat (t8_uu b)) 0 0
    ltac:(rewrite unrow_length; reflexivity) ltac:(change (length order8) with 256%nat; lia) G) as K. cbv beta in K. rewrite NB in K.
  rewrite unrow_nth in K by lia. rewrite Z2Nat.id in K by lia.
  unfold t8_get2, tab_get. rewrite L. change (256 * Z.of_nat 256) with 65536.
  destruct (Z.ltb_spec (t8_uu a * 256 + t8_uu b) 0); [lia|]. destruct (Z.leb_spec 65536 (t8_uu a * 256 + t8_uu b)); [lia|]. cbn [orb bind].
  rewrite Z.div_add_l, Z.div_small, Z.add_0_r by lia. rewrite (Z.add_comm _ (t8_uu b)), Z.mod_add, Z.mod_small by lia. eauto.
Qed.
Lemma chk8u_elim rows spec : chk8u rows spec = true -> forall v, pattern p8 v -> exists r, t8_get1 rows v = Ok r /\ spec v r = true.
Proof.
  intros H v B. destruct (order8_nth v B) as [UB NB]. unfold chk8u in H.
  apply andb_true_iff in H. destruct H as [L H]. apply Nat.eqb_eq in L.
  pose proof (combine_all (fun y x => spec y (i8 x)) order8 (unrow 8 256 (nth 0 rows 0)) (Z.to_nat (t8_uu v)) 0 0
    ltac:(rewrite unrow_length; reflexivity) ltac:(change (length order8) with 256%nat; lia) H) as K. cbv beta in K. rewrite NB in K.
  rewrite unrow_nth in K by lia. rewrite Z2Nat.id in K by lia.
  unfold t8_get1, tab_get. rewrite L. change (256 * Z.of_nat 1) with 256.
  destruct (Z.ltb_spec (t8_uu v) 0); [lia|]. destruct (Z.leb_spec 256 (t8_uu v)); [lia|]. cbn [orb bind].
  rewrite Z.div_small, Z.mod_small by lia. eauto.
Qed.

Lemma real8 v : real p8 v -> pattern p8 v /\ v <> -128 /\ -127 <= v <= 127.
Proof. unfold real, pattern. cbn. lia. Qed.

Ltac no128 := repeat match goal with
  | |- context [?a =? -128] => replace (a =? -128) with false by (symmetry; apply Z.eqb_neq; lia)
  | H : context [?a =? -128] |- _ => replace (a =? -128) with false in H by (symmetry; apply Z.eqb_neq; lia)
  end; cbn [orb] in *.

Lemma t8_add_rounds a b : real p8 a -> real p8 b ->
  exists r, t8_add a b = Ok r /\ rounds_tz p8 (value p8 a + value p8 b) r.
Proof.
  intros A B. destruct (real8 a A) as (PA & NA & _), (real8 b B) as (PB & NB & _).
  destruct (chk8_elim _ _ chk8_add a b PA PB) as (r & E & H). exists r. split; [exact E|].
  unfold add_spec8 in H. no128.
  apply (rzb_ok p8 64 iv8 valid_p8 iv8_ok _ (s8 a + s8 b) 64); [lia| |exact H].
  apply (sum_frac p8 64 iv8 valid_p8 iv8_ok); assumption.
Qed.

Lemma t8_neg_real v : real p8 v -> t8_neg v = - v.
Proof.
  intros R. destruct (real8 v R) as (_ & _ & B).
  assert (H : forallb (fun v => t8_neg v =? - v) (zseq (-127) 255) = true) by (vm_compute; reflexivity).
  apply Z.eqb_eq, (zall _ _ _ H). lia.
Qed.

Lemma t8_sub_rounds a b : real p8 a -> real p8 b ->
  exists r, t8_sub a b = Ok r /\ rounds_tz p8 (value p8 a - value p8 b) r.
Proof.
  intros A B. unfold t8_sub. rewrite (t8_neg_real b B). pose proof valid_p8 as V. vcb V.
  destruct (t8_add_rounds a (- b) A (real_opp p8 BN Bes b B)) as (r & E & H).
  exists r. split; [exact E|]. eapply (rounds_tz_comp p8 BN Bes); [|exact H].
  rewrite (value_opp p8 BN Bes b). reflexivity.
Qed.

Lemma t8_mul_rounds a b : real p8 a -> real p8 b ->
  exists r, t8_mul a b = Ok r /\ rounds_tz p8 (value p8 a * value p8 b) r.
Proof.
  intros A B. destruct (real8 a A) as (PA & NA & _), (real8 b B) as (PB & NB & _).
  destruct (chk8_elim _ _ chk8_mul a b PA PB) as (r & E & H). exists r. split; [exact E|].
  unfold mul_spec8 in H. no128.
  apply (rzb_ok p8 64 iv8 valid_p8 iv8_ok _ (s8 a * s8 b) 4096); [lia| |exact H].
  apply (mul_frac p8 64 iv8 valid_p8 iv8_ok); assumption.
Qed.

Lemma t8_div_rounds a b : real p8 a -> real p8 b -> b <> 0 ->
  exists r, t8_div a b = Ok r /\ rounds_tz p8 (value p8 a / value p8 b) r.
Proof.
  intros A B N0. destruct (real8 a A) as (PA & NA & _), (real8 b B) as (PB & NB & _).
  destruct (chk8_elim _ _ chk8_div a b PA PB) as (r & E & H). exists r. split; [exact E|].
  unfold div_spec8 in H. no128. replace (b =? 0) with false in H by (symmetry; apply Z.eqb_neq; lia).
  apply andb_true_iff in H. destruct H as [D H]. apply negb_true_iff, Z.eqb_neq in D.
  apply (rzb_ok p8 64 iv8 valid_p8 iv8_ok _ (s8 a * Z.sgn (s8 b)) (Z.abs (s8 b))); [lia| |exact H].
  apply (div_frac p8 64 iv8 valid_p8 iv8_ok); assumption.
Qed.

Lemma t8_nan_any a b : pattern p8 a -> pattern p8 b -> is_nan p8 a \/ is_nan p8 b ->
  t8_add a b = Ok (exceptional p8) /\ t8_mul a b = Ok (exceptional p8) /\ t8_div a b = Ok (exceptional p8) /\
  t8_sub a b = Ok (exceptional p8).
Proof.
  intros A B H. assert (K : (a =? -128) || (b =? -128) = true).
  { unfold is_nan in H. cbn in H. apply orb_true_iff. rewrite !Z.eqb_eq. tauto. }
  change (exceptional p8) with (-128).
  repeat split.
  - destruct (chk8_elim _ _ chk8_add a b A B) as (r & E & G). unfold add_spec8 in G. rewrite K in G.
    apply Z.eqb_eq in G. subst r. exact E.
  - destruct (chk8_elim _ _ chk8_mul a b A B) as (r & E & G). unfold mul_spec8 in G. rewrite K in G.
    apply Z.eqb_eq in G. subst r. exact E.
  - destruct (chk8_elim _ _ chk8_div a b A B) as (r & E & G). unfold div_spec8 in G. rewrite K in G. cbn [orb] in G.
    apply Z.eqb_eq in G. subst r. exact E.
  - unfold t8_sub.
    assert (NB : pattern p8 (t8_neg b) /\ ((b =? -128) = true -> (t8_neg b =? -128) = true)).
    { assert (F : forallb (fun v => (-128 <=? t8_neg v) && (t8_neg v <? 128) && implb (v =? -128) (t8_neg v =? -128)) (zseq (-128) 256) = true)
        by (vm_compute; reflexivity).
      pose proof (zall _ _ _ F b) as G. unfold pattern in B. cbn in B. specialize (G ltac:(lia)).
      repeat rewrite andb_true_iff in G. destruct G as [[G1 G2] G3]. apply Z.leb_le in G1. apply Z.ltb_lt in G2.
      split; [split; [exact G1|exact G2]|].
      intros I. rewrite I in G3. exact G3. }
    destruct NB as [NB1 NB2].
    destruct (chk8_elim _ _ chk8_add a (t8_neg b) A NB1) as (r & E & G). unfold add_spec8 in G.
    replace ((a =? -128) || (t8_neg b =? -128)) with true in G
      by (symmetry; apply orb_true_iff; apply orb_true_iff in K; tauto).
    apply Z.eqb_eq in G. subst r. exact E.
Qed.

Lemma t8_div_zero a : pattern p8 a -> t8_div a 0 = Ok (exceptional p8).
Proof.
  intros A. destruct (chk8_elim _ _ chk8_div a 0 A ltac:(unfold pattern; cbn; lia)) as (r & E & G).
  unfold div_spec8 in G. rewrite orb_true_r in G. apply Z.eqb_eq in G. subst r. exact E.
Qed.

Definition inv_spec8 v r : bool :=
  if v =? -128 then r =? -128 else if v =? 0 then r =? 0 else
  let d := s8 v in negb (d =? 0) && rz8 (64 * Z.sgn d) (Z.abs d) r.
Definition half_spec8 v r : bool := if v =? -128 then r =? -128 else rz8 (s8 v) 128 r.
Definition square_spec8 v r : bool := if v =? -128 then r =? -128 else rz8 (s8 v * s8 v) 4096 r.
Lemma chk8_inv : chk8u Tbl8.opinv_rows inv_spec8 = true.
Proof. vm_compute. reflexivity. Qed.
Lemma chk8_half : chk8u Tbl8.ophalf_rows half_spec8 = true.
Proof. vm_compute. reflexivity. Qed.
Lemma chk8_square : chk8u Tbl8.opsquare_rows square_spec8 = true.
Proof. vm_compute. reflexivity. Qed.

Lemma t8_inv_rounds v : real p8 v -> v <> 0 -> exists r, t8_inv v = Ok r /\ rounds_tz p8 (/ value p8 v) r.
Proof.
  intros A N0. destruct (real8 v A) as (P & N & _).
  destruct (chk8u_elim _ _ chk8_inv v P) as (r & E & H). exists r. split; [exact E|].
  unfold inv_spec8 in H. no128. replace (v =? 0) with false in H by (symmetry; apply Z.eqb_neq; lia).
  apply andb_true_iff in H. destruct H as [D H]. apply negb_true_iff, Z.eqb_neq in D.
  apply (rzb_ok p8 64 iv8 valid_p8 iv8_ok _ (64 * Z.sgn (s8 v)) (Z.abs (s8 v))); [lia| |exact H].
  apply (inv_frac p8 64 iv8 valid_p8 iv8_ok); assumption.
Qed.
Lemma t8_half_rounds v : real p8 v -> exists r, t8_half v = Ok r /\ rounds_tz p8 (value p8 v / 2) r.
Proof.
  intros A. destruct (real8 v A) as (P & N & _).
  destruct (chk8u_elim _ _ chk8_half v P) as (r & E & H). exists r. split; [exact E|].
  unfold half_spec8 in H. no128.
  apply (rzb_ok p8 64 iv8 valid_p8 iv8_ok _ (s8 v) 128); [lia| |exact H].
  apply (half_frac p8 64 iv8 valid_p8 iv8_ok); assumption.
Qed.
Definition twice_spec8 v r : bool := if v =? -128 then r =? -128 else rz8 (2 * s8 v) 64 r.
Lemma chk8_twice : forallb (fun v => on_ok (t8_twice v) (twice_spec8 v)) (zseq (-128) 256) = true.
Proof. vm_compute. reflexivity. Qed.
Lemma t8_twice_rounds v : real p8 v -> exists r, t8_twice v = Ok r /\ rounds_tz p8 (2 * value p8 v) r.
Proof.
  intros A. destruct (real8 v A) as (P & N & _). unfold pattern in P. cbn in P.
  pose proof (zall _ _ _ chk8_twice v ltac:(lia)) as G. cbv beta in G. apply on_ok_elim in G. destruct G as (r & E & H). exists r. split; [exact E|].
  unfold twice_spec8 in H. no128.
  apply (rzb_ok p8 64 iv8 valid_p8 iv8_ok _ (2 * s8 v) 64); [lia| |exact H].
  apply (twice_frac p8 64 iv8 valid_p8 iv8_ok); assumption.
Qed.
Lemma t8_square_rounds v : real p8 v -> exists r, t8_square v = Ok r /\ rounds_tz p8 (value p8 v * value p8 v) r.
Proof.
  intros A. destruct (real8 v A) as (P & N & _).
  destruct (chk8u_elim _ _ chk8_square v P) as (r & E & H). exists r. split; [exact E|].
  unfold square_spec8 in H. no128.
  apply (rzb_ok p8 64 iv8 valid_p8 iv8_ok _ (s8 v * s8 v) 4096); [lia| |exact H].
  apply (mul_frac p8 64 iv8 valid_p8 iv8_ok); assumption.
Qed.
Lemma t8_unary_nan : t8_inv (exceptional p8) = Ok (exceptional p8) /\ t8_half (exceptional p8) = Ok (exceptional p8) /\
  t8_twice (exceptional p8) = Ok (exceptional p8) /\ t8_square (exceptional p8) = Ok (exceptional p8) /\
  t8_exp2 (exceptional p8) = Ok (exceptional p8) /\ t8_neg (exceptional p8) = exceptional p8.
Proof. vm_compute. tauto. Qed.
Lemma t8_inv_zero : t8_inv 0 = Ok 0.
Proof. vm_compute. reflexivity. Qed.
