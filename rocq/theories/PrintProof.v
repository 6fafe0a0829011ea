(** Proofs about the stream inserters. *)
From Coq Require Import ZArith List Bool String Ascii Lia.
From Verif Require Import Res CInt Unpacked Cfg Posit Print SpecPrint.
Import ListNotations.
Open Scope Z_scope.

Lemma app_assoc_s a b c : ((a ++ b) ++ c = a ++ (b ++ c))%string.
Proof. induction a as [|x a IH]; [reflexivity|]. cbn [append]. rewrite IH. reflexivity. Qed.
Lemma app_nil_s a : (a ++ "" = a)%string.
Proof. induction a as [|x a IH]; [reflexivity|]. cbn [append]. rewrite IH. reflexivity. Qed.
Lemma app_cancel s a b : (s ++ a = s ++ b)%string -> a = b.
Proof. induction s as [|x s IH]; [trivial|]. cbn [append]. intros H. injection H. exact IH. Qed.

Lemma digit_read d : 0 <= d < 16 -> digit_of (digit d) = Some d.
Proof.
  intros H. assert (A : forallb (fun d => match digit_of (digit d) with Some e => e =? d | None => false end) (map Z.of_nat (seq 0 16)) = true) by (vm_compute; reflexivity).
  rewrite forallb_forall in A. specialize (A d). assert (I : In d (map Z.of_nat (seq 0 16))).
  { apply in_map_iff. exists (Z.to_nat d). split; [lia|]. apply in_seq. lia. }
  specialize (A I). destruct (digit_of (digit d)) as [e|]; [|discriminate]. apply Z.eqb_eq in A. subst. reflexivity.
Qed.
Lemma digits_read b : 2 <= b <= 16 -> forall n z s, 0 <= z < b ^ Z.of_nat n -> read_from b 0 (digits_from n b z s) = read_from b z s.
Proof.
  intros B. induction n as [|n IH]; intros z s Hz.
  - cbn in Hz. replace z with 0 by lia. reflexivity.
  - cbn [digits_from]. pose proof (Z.mod_pos_bound z b ltac:(lia)) as M. pose proof (Z.div_mod z b ltac:(lia)) as DM.
    assert (DR : digit_of (digit (z mod b)) = Some (z mod b)) by (apply digit_read; lia).
    assert (LB : (z mod b <? b) = true) by (apply Z.ltb_lt; lia).
    assert (R : forall a, read_from b a (String (digit (z mod b)) s) = read_from b (a * b + z mod b) s).
    { intros a. cbn [read_from]. rewrite DR, LB. reflexivity. }
    destruct (Z.eqb_spec (z / b) 0) as [E|E].
    + rewrite R. f_equal. rewrite E in DM. lia.
    + rewrite IH.
      * rewrite R. f_equal. lia.
      * split; [apply Z.div_pos; lia|]. apply Z.div_lt_upper_bound; [lia|]. rewrite Nat2Z.inj_succ, Z.pow_succ_r in Hz by lia. lia.
Qed.
Lemma digits_nonempty n b z s : digits_from (S n) b z s <> EmptyString.
Proof.
  revert z s. induction n as [|n IH]; intros z s.
  - cbn [digits_from]. destruct (z / b =? 0); discriminate.
  - intros H. remember (S n) as m. cbn [digits_from] in H. destruct (z / b =? 0); [discriminate|]. subst m. exact (IH _ _ H).
Qed.
Lemma digits_numeral b z : 2 <= b <= 16 -> 0 <= z -> numeral b (digits b z) z.
Proof.
  intros B Hz. split; [apply digits_nonempty|]. unfold digits. rewrite digits_read; [reflexivity|assumption|].
  split; [assumption|]. rewrite Nat2Z.inj_succ, Z2Nat.id by apply Z.log2_nonneg.
  destruct (Z.eq_dec z 0) as [->|N]; [cbn; lia|]. pose proof (Z.log2_spec z ltac:(lia)) as L.
  eapply Z.lt_le_trans; [apply L|]. apply Z.pow_le_mono_l. lia.
Qed.
Lemma decimal_numeral z : signed_numeral (decimal z) z.
Proof.
  unfold decimal. destruct (Z.ltb_spec z 0) as [L|L].
  - right. split; [assumption|]. eexists. split; [reflexivity|]. apply digits_numeral; lia.
  - left. split; [assumption|]. apply digits_numeral; lia.
Qed.
Lemma bits_read n : forall z acc, 0 <= z < 2 ^ Z.of_nat n -> read_from 2 acc (bits_text n z) = Some (acc * 2 ^ Z.of_nat n + z).
Proof.
  assert (P : forall n z acc, read_from 2 acc (bits_text n z) = Some (acc * 2 ^ Z.of_nat n + z mod 2 ^ Z.of_nat n)).
  { clear n. induction n as [|n IH]; intros z acc.
    - cbn [bits_text read_from]. f_equal. change (2 ^ Z.of_nat 0) with 1. rewrite Z.mod_1_r. lia.
    - cbn [bits_text read_from].
      assert (S : z mod 2 ^ Z.of_nat (S n) = Z.b2z (Z.testbit z (Z.of_nat n)) * 2 ^ Z.of_nat n + z mod 2 ^ Z.of_nat n).
      { rewrite Nat2Z.inj_succ, Z.pow_succ_r by lia. rewrite (Z.mul_comm 2), Z.rem_mul_r by lia.
        rewrite Z.testbit_spec' by lia. lia. }
      rewrite S, Nat2Z.inj_succ, Z.pow_succ_r by lia.
      destruct (Z.testbit z (Z.of_nat n)); cbn [Z.b2z].
      + change (digit_of "1") with (Some 1). cbv iota. rewrite IH. change (1 <? 2) with true. cbv iota. f_equal. ring.
      + change (digit_of "0") with (Some 0). cbv iota. rewrite IH. change (0 <? 2) with true. cbv iota. f_equal. ring. }
  intros z acc Hz. rewrite P, Z.mod_small by assumption. reflexivity.
Qed.
Lemma bits_length n z : String.length (bits_text n z) = n.
Proof. induction n as [|n IH]; [reflexivity|]. cbn [bits_text String.length]. rewrite IH. reflexivity. Qed.
Lemma bits_numeral F z : 0 < F -> 0 <= z < 2 ^ F -> numeral 2 (bits_text (Z.to_nat F) z) z /\ Z.of_nat (String.length (bits_text (Z.to_nat F) z)) = F.
Proof.
  intros HF Hz. rewrite bits_length, Z2Nat.id by lia. split; [|reflexivity]. split.
  - destruct (Z.to_nat F) eqn:E; [lia|]. cbn [bits_text]. discriminate.
  - rewrite bits_read; rewrite Z2Nat.id by lia; [f_equal; lia|assumption].
Qed.

(** A numeral determines the number and contains no blank. *)
Lemma numeral_fun b s z z' : numeral b s z -> numeral b s z' -> z = z'.
Proof. intros [_ A] [_ B]. rewrite A in B. injection B. trivial. Qed.
Lemma read_no_minus b acc s z : read_from b acc s = Some z -> forall t, s <> String "-" t.
Proof. intros H t E. subst. cbn in H. discriminate. Qed.
Lemma signed_fun s z z' : signed_numeral s z -> signed_numeral s z' -> z = z'.
Proof.
  intros [[A B]|[A (t & E & B)]] [[C D]|[C (t' & E' & D)]].
  - eapply numeral_fun; eassumption.
  - destruct B as [_ B]. exfalso. exact (read_no_minus _ _ _ _ B _ E').
  - destruct D as [_ D]. exfalso. exact (read_no_minus _ _ _ _ D _ E).
  - rewrite E in E'. injection E' as ->. pose proof (numeral_fun _ _ _ _ B D). lia.
Qed.
Fixpoint blankless (s : string) : Prop := match s with EmptyString => True | String a t => a <> " "%char /\ blankless t end.
Lemma read_blankless b s : forall acc z, read_from b acc s = Some z -> blankless s.
Proof.
  induction s as [|a s IH]; intros acc z H; [exact I|]. cbn [read_from] in H. split.
  - intros ->. change (digit_of " ") with (@None Z) in H. discriminate.
  - destruct (digit_of a) as [d|]; [|discriminate]. destruct (d <? b); [|discriminate]. exact (IH _ _ H).
Qed.
Lemma signed_blankless s z : signed_numeral s z -> blankless s.
Proof.
  intros [[_ [_ H]]|[_ (t & -> & [_ H])]]; [exact (read_blankless _ _ _ _ H)|]. split; [discriminate|exact (read_blankless _ _ _ _ H)].
Qed.
Lemma split_blank s : forall s' t t', blankless s -> blankless s' -> (s ++ String " " t = s' ++ String " " t')%string -> s = s' /\ t = t'.
Proof.
  induction s as [|a s IH]; intros [|a' s'] t t' B B' H; cbn [append] in H.
  - injection H as ->. split; reflexivity.
  - injection H as E _. destruct B' as [B' _]. symmetry in E. contradiction.
  - injection H as E _. destruct B as [B _]. contradiction.
  - injection H as -> H. destruct (IH _ _ _ (proj2 B) (proj2 B') H) as [-> ->]. split; reflexivity.
Qed.

Lemma printable_wide t : iw t <> 8 -> printable t = t.
Proof. unfold printable. intros H. destruct (Z.eqb_spec (iw t) 8); [contradiction|reflexivity]. Qed.
Lemma printable_8 t : (iw (printable t) =? 8) = false /\ (iw t <= iw (printable t))%Z.
Proof. unfold printable. destruct (Z.eqb_spec (iw t) 8) as [E|E]; cbn [iw]; [split; [reflexivity|lia]|]. split; [apply Z.eqb_neq; exact E|lia]. Qed.

Lemma print_regular F E u fl s : utyp u = Regular -> 0 < F -> 0 <= ufrac u < 2 ^ F ->
  print_unpacked F E u (Stream fl s) =
    Stream only_dec (s ++ "up(" ++ (if uneg u then "-" else "+") ++ " exp (dec) = " ++ decimal (uexp u) ++ " fraction (hex) = " ++ digits 16 (ufrac u)
      ++ " (bin) = " ++ bits_text (Z.to_nat F) (ufrac u) ++ ")").
Proof.
  intros T HF HU. unfold print_unpacked. rewrite T. unfold put_val. destruct (printable_8 (sint E)) as [-> _]. destruct (printable_8 (uint F)) as [-> L].
  unfold put_int, put_bits, put, setf. cbn [s_flags s_text]. change (flags_eqb only_dec only_oct) with false. change (flags_eqb only_dec only_hex) with false.
  change (flags_eqb only_hex only_oct) with false. change (flags_eqb only_hex only_hex) with true. cbv iota.
  unfold wrapu. rewrite Z.mod_small; [rewrite !app_assoc_s; reflexivity|]. split; [lia|]. eapply Z.lt_le_trans; [apply HU|]. apply Z.pow_le_mono_r; [lia|]. cbn [iw uint] in L. exact L.
Qed.

Lemma unpacked_fields F E u fl s : utyp u = Regular -> 0 < F -> 0 <= ufrac u < 2 ^ F ->
  exists te tf tb, print_unpacked F E u (Stream fl s) =
      Stream only_dec (s ++ "up(" ++ (if uneg u then "-" else "+") ++ " exp (dec) = " ++ te ++ " fraction (hex) = " ++ tf ++ " (bin) = " ++ tb ++ ")") /\
    signed_numeral te (uexp u) /\ numeral 16 tf (ufrac u) /\ numeral 2 tb (ufrac u) /\ Z.of_nat (String.length tb) = F.
Proof.
  intros T HF HU. do 3 eexists. split; [apply print_regular; assumption|]. split; [apply decimal_numeral|]. split; [apply digits_numeral; lia|].
  apply bits_numeral; assumption.
Qed.
Lemma unpacked_special F E u fl s : utyp u <> Regular ->
  print_unpacked F E u (Stream fl s) = Stream fl (s ++ match utyp u with Infinity => if uneg u then "up(-infinity)" else "up(+infinity)" | NaN => "up(nan)" | _ => "up(0)" end).
Proof. intros T. unfold print_unpacked, put. destruct (utyp u); [contradiction|destruct (uneg u); reflexivity|reflexivity|reflexivity]. Qed.

Lemma unpacked_distinct F E u u' fl fl' s : 0 < F -> 0 <= ufrac u < 2 ^ F -> 0 <= ufrac u' < 2 ^ F ->
  s_text (print_unpacked F E u (Stream fl s)) = s_text (print_unpacked F E u' (Stream fl' s)) ->
  utyp u = utyp u' /\ (utyp u = Infinity -> uneg u = uneg u') /\ (utyp u = Regular -> uneg u = uneg u' /\ uexp u = uexp u' /\ ufrac u = ufrac u').
Proof.
  intros HF H H' EQ.
  assert (D : utyp u = Regular \/ utyp u <> Regular) by (destruct (utyp u); [left|right|right|right]; congruence).
  assert (D' : utyp u' = Regular \/ utyp u' <> Regular) by (destruct (utyp u'); [left|right|right|right]; congruence).
  destruct D as [D|D], D' as [D'|D'].
  - rewrite !print_regular in EQ by assumption. cbn [s_text] in EQ. apply app_cancel in EQ. cbn [append] in EQ.
    assert (SG : uneg u = uneg u') by (destruct (uneg u), (uneg u'); cbn in EQ; [reflexivity|discriminate|discriminate|reflexivity]).
    rewrite SG in EQ. apply (app_cancel "up(") in EQ. apply app_cancel in EQ. cbn [append] in EQ. apply (app_cancel " exp (dec) = ") in EQ.
    apply split_blank in EQ; [|eapply signed_blankless, decimal_numeral|eapply signed_blankless, decimal_numeral].
    destruct EQ as [E1 EQ]. apply (app_cancel "fraction (hex) = ") in EQ.
    assert (N : forall v, 0 <= v -> numeral 16 (digits 16 v) v) by (intros; apply digits_numeral; lia).
    pose proof (N (ufrac u) ltac:(lia)) as N1. pose proof (N (ufrac u') ltac:(lia)) as N2.
    apply split_blank in EQ; [|eapply read_blankless; apply N1|eapply read_blankless; apply N2]. destruct EQ as [E2 _].
    split; [congruence|]. split; [congruence|]. intros _. split; [exact SG|]. split.
    + pose proof (decimal_numeral (uexp u)) as M. rewrite E1 in M. eapply signed_fun; [exact M|apply decimal_numeral].
    + rewrite E2 in N1. exact (numeral_fun _ _ _ _ N1 N2).
  - exfalso. rewrite print_regular in EQ by assumption. rewrite unpacked_special in EQ by assumption. cbn [s_text] in EQ. apply app_cancel in EQ.
    destruct (utyp u'); [contradiction| | |]; destruct (uneg u); destruct (uneg u'); cbn in EQ; discriminate.
  - exfalso. rewrite (print_regular F E u') in EQ by assumption. rewrite (unpacked_special F E u) in EQ by assumption. cbn [s_text] in EQ. apply app_cancel in EQ.
    destruct (utyp u); [contradiction| | |]; destruct (uneg u); destruct (uneg u'); cbn in EQ; discriminate.
  - rewrite !unpacked_special in EQ by assumption. cbn [s_text] in EQ. apply app_cancel in EQ.
    destruct (utyp u); [contradiction| | |]; (destruct (utyp u'); [contradiction| | |]); destruct (uneg u); destruct (uneg u'); try discriminate EQ; repeat split; intros; try discriminate; try reflexivity.
Qed.
