(** The binary listing and the table made from it. *)
From Coq Require Import ZArith QArith Qabs Bool List String Ascii Sorted Lia Lqa.
From Verif Require Import Res CInt Traits Unpacked Cfg Spec SpecFloat Posit FloatOps Asimd Soft ListP Dump SpecDump QPow Core Arith SpecLemmas DecodeProof EncodeProof UOps UAdd
  Final1 Final4 Conv1 Conv5 FloatProof PositFProof ListProof.
Import ListNotations.
Open Scope Z_scope.

Lemma lp_signed_more c : forall n m i r, (n <= m)%nat -> lp_signed_from c n i = Some r -> lp_signed_from c m i = Some r.
Proof.
  induction n as [|n IH]; intros m i r L H; [discriminate H|]. destruct m as [|m]; [lia|]. cbn [lp_signed_from] in *.
  destruct (lp_incr c i) as [j|]; [|exact H]. destruct (i <? P_MAXPOS c); [|exact H].
  destruct (lp_signed_from c n j) as [x|] eqn:E; [|discriminate H]. rewrite (IH m j x ltac:(lia) E). exact H.
Qed.

Definition posits (c : cfg) : list Z := zup (- maxreal c) (S (Z.to_nat (2 * maxreal c))).
Lemma posits_real c v : valid_cfg c -> In v (posits c) <-> real c v.
Proof. intros V. vcb V. pose proof (maxreal_bounds c BN Bes) as MB. unfold posits. rewrite zup_in. unfold real. lia. Qed.
Lemma posits_sorted c : valid_cfg c -> StronglySorted (fun a b => (value c a < value c b)%Q) (posits c).
Proof.
  intros V. vcb V. pose proof (maxreal_bounds c BN Bes) as MB. eapply sorted_weaken; [apply zup_sorted|]. intros a b A B L.
  apply (posits_real c a V) in A. apply (posits_real c b V) in B. unfold real in *. apply (value_lt c BN Bes); lia.
Qed.
Lemma signed_posits c m : valid_cfg c -> end_ok c -> (S (Z.to_nat (2 * maxreal c)) <= m)%nat -> lp_signed c m = Some (Ok (posits c)).
Proof.
  intros V E M. vcb V. pose proof (maxreal_bounds c BN Bes) as MB. unfold lp_signed, posits. rewrite P_MINNEG_val by assumption.
  apply lp_signed_zup; try assumption; lia.
Qed.
Lemma signed_only c m l : valid_cfg c -> lp_signed c m = Some (Ok l) -> l = posits c.
Proof.
  intros V H. set (M := Nat.max m (S (Z.to_nat (2 * maxreal c)))).
  assert (H' : lp_signed c M = Some (Ok l)) by (apply (lp_signed_more c m); [lia|exact H]).
  assert (D : end_ok c \/ ~ end_ok c).
  { unfold end_ok. destruct (Z_lt_le_dec (cH c) 32); [tauto|]. destruct (Z_lt_le_dec (cN c) (cH c)); [tauto|]. destruct (csp c); try tauto; right; intros [A|[A|A]]; try lia; discriminate A. }
  destruct D as [E|E].
  - rewrite (signed_posits c M V E) in H' by lia. congruence.
  - destruct (lp_signed_ub c V E) as (n & N). specialize (N (Nat.max n M) ltac:(lia)).
    assert (H2 : lp_signed c (Nat.max n M) = Some (Ok l)) by (apply (lp_signed_more c M); [lia|exact H']). congruence.
Qed.

Lemma fmt_d : fmt_ok 11 52. Proof. split; [right; right; right; reflexivity|lia|lia]. Qed.

(** The second column. *)
Definition second (c : cfg) (v : Z) : Z := if cH c =? 8 then v mod 256 else v.
Lemma second_ok c v : valid_cfg c -> pattern c v -> cast (tPT c) (cast (tU c) v) = second c v /\ cast (tPT c) v = v.
Proof.
  intros V P. vcb V. unfold pattern in P. pose proof (pow2_mono (cN c - 1) (cH c - 1) ltac:(lia)) as PM. unfold second, tPT, tS, tU. destruct (Z.eqb_spec (cH c) 8) as [E|E].
  - rewrite E in *. rewrite cast_u. change (2 ^ 8) with 256. change (2 ^ (8 - 1)) with 128 in *. pose proof (Z.mod_pos_bound v 256 ltac:(lia)).
    split; apply cast_s_small; change (2 ^ (16 - 1)) with 32768; lia.
  - rewrite (cast_s_small (cH c) v) by lia. split; [|reflexivity]. rewrite cast_u. transitivity (cast (sint (cH c)) v); [|apply cast_s_small; lia].
    apply (wraps_mod_eq (cH c)); [lia|]. apply mod_mod_le. lia.
Qed.

Lemma int_double i : Z.abs i <= 2 ^ 53 -> is_float 11 52 (inject_Z i).
Proof.
  intros L. assert (P : forall j, 0 <= j <= 2 ^ 53 -> is_float 11 52 (inject_Z j)).
  { intros j J. destruct (Z.eq_dec j (2 ^ 53)) as [->|N].
    - apply (is_float_comp 11 52 (pow2 53)); [rewrite pow2_Z by lia; reflexivity|]. apply (is_float_pow2 11 52 fmt_d). cbn. lia.
    - apply (is_float_comp 11 52 (dy j 0)); [unfold dy; change (pow2 0) with 1%Q; ring|]. apply (is_float_dy 11 52 fmt_d); [change (52 + 1) with 53; lia|cbn; lia|].
      apply Qlt_le_trans with (dy (2 ^ 53) 0); [apply dy_lt; lia|]. unfold dy. rewrite <- pow2_Z by lia. rewrite <- pow2_plus. apply pow2_le. cbn. lia. }
  destruct (Z_le_gt_dec 0 i) as [I|I]; [apply P; lia|].
  apply (is_float_comp 11 52 (- inject_Z (- i))); [rewrite inject_Z_opp; ring|]. apply (is_float_opp 11 52 fmt_d). apply P. lia.
Qed.

Section r.
Context (rnd : Q -> Z) (pw : Z -> Z) (c : cfg).
Hypothesis RN : rounding 11 52 rnd.
Hypothesis V : valid_cfg c.
Hypothesis FF : frac_fits c.
Hypothesis FC : float_covers c 11 52.
Hypothesis N54 : cN c <= 54.

Definition third (v : Z) : Z := match p_to_float c double_trait v with Ok b => b | UB _ => 0 end.
Lemma int_is i : Z.abs i <= 2 ^ 53 -> is_double (rnd (inject_Z i)) (inject_Z i).
Proof using RN. intros L. split; [exact (rn_range _ _ _ RN _)|]. exact (rn_exact _ _ _ RN _ (int_double i L)). Qed.
Lemma third_ok v : real c v -> p_to_float c double_trait v = Ok (third v) /\ is_double (third v) (value c v).
Proof using V FF FC.
  intros R. unfold third. rewrite double_any.
  destruct (to_float_covered c 11 52 true v V fmt_d ltac:(left; lia) FF FC R) as (b & r & E & B & I & Q). rewrite E. split; [reflexivity|]. split; [exact B|]. exists r. split; assumption.
Qed.
Lemma real_pattern v : real c v -> pattern c v.
Proof using V. intros R. vcb V. pose proof (maxreal_bounds c BN Bes) as MB. unfold real, pattern in *. lia. Qed.
Lemma real_small v : real c v -> Z.abs v <= 2 ^ 53 /\ Z.abs (second c v) <= 2 ^ 53.
Proof using V N54.
  intros R. vcb V. pose proof (maxreal_bounds c BN Bes) as MB. pose proof (pow2_mono (cN c - 1) 53 ltac:(lia)). unfold real in R. unfold second.
  pose proof (Z.mod_pos_bound v 256 ltac:(lia)). change (2 ^ 53) with 9007199254740992 in *. destruct (cH c =? 8); lia.
Qed.
Definition row (v : Z) : list Z := [rnd (inject_Z v); rnd (inject_Z (second c v)); third v].
Lemma row_ok v : real c v -> d_posit rnd pw c "Biov" v = Ok (row v).
Proof using V FF FC.
  intros R. destruct (third_ok v R) as (T & _). destruct (second_ok c v V (real_pattern v R)) as (S1 & S2).
  assert (U : exists u l, unpack c v = Ok u /\ unpack_low c v = Ok l).
  { unfold p_to_float in T. destruct (unpack c v) as [u|] eqn:U; cbn [bind] in T; [|discriminate]. exists u.
    unfold unpack in U. destruct (unpack_low c v) as [l|]; cbn [bind] in U; [|discriminate]. exists l. auto. }
  destruct U as (u & l & U & L). unfold d_posit, d_print1. cbn [d_has Ascii.eqb Bool.eqb andb orb bind]. rewrite U, L. cbn [bind d_fields d_field].
  rewrite S1, S2, T. cbn [bind app]. reflexivity.
Qed.
Lemma file_ok l : (forall v, In v l -> real c v) -> d_posits rnd pw c "Biov" l = Ok (flat_map row l).
Proof using V FF FC.
  induction l as [|v l IH]; intros R; [reflexivity|]. cbn [d_posits flat_map]. rewrite row_ok by (apply R; now left). rewrite IH by (intros; apply R; now right). reflexivity.
Qed.
Lemma rows_ok l : rows3 (flat_map row l) = Some (map (fun v => (rnd (inject_Z v), rnd (inject_Z (second c v)), third v)) l).
Proof using. clear. induction l as [|v l IH]; [reflexivity|]. cbn [flat_map row app rows3 map]. rewrite IH. reflexivity. Qed.

Definition columns : table := Tab (map (fun v => rnd (inject_Z v)) (posits c)) (map (fun v => rnd (inject_Z (second c v))) (posits c))
  (map third (posits c)) (meandiff rnd (map third (posits c))).
Lemma file_posits m file : d_file rnd pw c "Biov" m = Some (Ok file) -> file = flat_map row (posits c).
Proof using V FF FC.
  unfold d_file. change (d_has "U" "Biov") with false. cbv iota. destruct (lp_signed c m) as [[l|]|] eqn:L; try discriminate. rewrite (signed_only c m l V L).
  rewrite file_ok; [congruence|]. intros v. apply (posits_real c v V).
Qed.
Lemma load_posits : loadpositdump rnd (flat_map row (posits c)) = match describetab columns with Some s => Some (columns, s) | None => None end.
Proof using. unfold loadpositdump. rewrite rows_ok. rewrite !map_map. reflexivity. Qed.
Lemma loaded m file t s : d_file rnd pw c "Biov" m = Some (Ok file) -> loadpositdump rnd file = Some (t, s) -> t = columns /\ describetab columns = Some s.
Proof using V FF FC.
  intros F L. rewrite (file_posits m file F), load_posits in L. destruct (describetab columns) as [s'|]; [|discriminate]. injection L as <- <-. auto.
Qed.
End r.
