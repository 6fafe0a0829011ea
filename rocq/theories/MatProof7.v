(** The routines and the gateway. *)
From Coq Require Import ZArith QArith Qabs Bool List Lia Lqa.
From Verif Require Import Res CInt Spec SpecFloat SpecHalf Core Arith QPow Conv1 Conv4 Conv5 FloatProof SoftProof MatHalf MatProof MatProof2 MatProof3 MatProof4 MatProof5 MatProof6.
Import ListNotations.
Open Scope Z_scope.

Lemma singles_ok src rest dst : Forall (fun x => 0 <= x < 2 ^ 32) src -> (length src <= length dst)%nat ->
  exists new, singles2halfp (Some dst) (Some (src ++ rest)) (Z.of_nat (length src)) = Ok (Some new) /\ converted (half_of 8 23) src dst new.
Proof.
  intros P L. destruct (each_ok s2h _ _ s2h_ok src rest dst P L) as (new & E & C). exists new. split; [|exact C].
  unfold singles2halfp. rewrite E. reflexivity.
Qed.
Definition dbl_rel (d r : Z) : Prop := 0 <= r < 2 ^ 16 /\ (upper_tells d -> half_of 11 52 d r).
Lemma doubles_ok (little : bool) ds rest dst : Forall (fun d => 0 <= d < 2 ^ 64) ds -> (length ds <= length dst)%nat ->
  exists new, doubles2halfp (if little then 1%nat else 0%nat) (Some dst) (Some (in_words little ds ++ rest)) (Z.of_nat (length ds)) = Ok (Some new) /\
    converted (fun d r => 0 <= r < 2 ^ 16 /\ (upper_tells d -> half_of 11 52 d r)) ds dst new.
Proof.
  intros P L. destruct (from_double_ok dbl_rel little _ d2h_ok ds rest dst P L) as (new & E & C). exists new. split; [|exact C].
  unfold doubles2halfp. change (if little then 1%nat else 0%nat) with (nx little). rewrite E. reflexivity.
Qed.
Lemma doubles_nan_wrong : exists d new, 0 <= d < 2 ^ 64 /\ ieee_val 11 52 d = NaNVal /\
  doubles2halfp 1 (Some [0]) (Some (in_words true [d])) 1 = Ok (Some [new]) /\ ieee_val 5 10 new = InfVal false.
Proof. exists 0x7FF0000000000001, 0x7C00. vm_compute. repeat split; discriminate. Qed.
Lemma Forall2_impl {A B} (R R' : A -> B -> Prop) l l' : (forall a b, R a b -> R' a b) -> Forall2 R l l' -> Forall2 R' l l'.
Proof. intros H. induction 1; constructor; auto. Qed.
Lemma to_singles_ok hs rest dst : Forall (fun h => 0 <= h < 2 ^ 16) hs -> (length hs <= length dst)%nat ->
  exists new, halfp2singles (Some dst) (Some (hs ++ rest)) (Z.of_nat (length hs)) = Ok (Some new) /\ converted (same_number 8 23) hs dst new.
Proof.
  intros P L. destruct (each_ok h2s _ _ h2s_ok hs rest dst P L) as (new & E & C). exists new. split; [|exact C].
  unfold halfp2singles. rewrite E. reflexivity.
Qed.
Lemma to_doubles_ok (little : bool) hs rest olds tail : Forall (fun h => 0 <= h < 2 ^ 16) hs -> length olds = length hs ->
  exists outs, halfp2doubles (if little then 1%nat else 0%nat) (Some (in_words little olds ++ tail)) (Some (hs ++ rest)) (Z.of_nat (length hs)) = Ok (Some (in_words little outs ++ tail)) /\
    Forall2 (fun h d => same_number 11 52 h (d - d mod 2 ^ 32)) hs outs /\ Forall2 (fun o d => d mod 2 ^ 32 = o mod 2 ^ 32) olds outs.
Proof.
  intros P L. destruct (to_double_ok little (fun h => 0 <= h < 2 ^ 16) (fun h x => same_number 11 52 h (x * 2 ^ 32))) with (hs := hs) (rest := rest) (olds := olds) (tail := tail)
    as (outs & new & E & W & F1 & F2); try assumption.
  { intros h H. destruct (h2d_ok h H) as (x & Ex & Bx & Sx). exists x. tauto. }
  exists outs. split; [|split; [|exact F2]].
  - unfold halfp2doubles. change (if little then 1%nat else 0%nat) with (nx little). rewrite E. cbn [bind]. now rewrite W.
  - eapply Forall2_impl; [|exact F1]. intros h d S. cbv beta in S. pose proof (Z.div_mod d (2 ^ 32) ltac:(lia)) as DM.
    replace (d - d mod 2 ^ 32) with (d / 2 ^ 32 * 2 ^ 32) by lia. exact S.
Qed.
Lemma to_doubles_zero (little : bool) hs rest olds tail : Forall (fun h => 0 <= h < 2 ^ 16) hs -> length olds = length hs -> Forall (fun o => o mod 2 ^ 32 = 0) olds ->
  exists outs, halfp2doubles (if little then 1%nat else 0%nat) (Some (in_words little olds ++ tail)) (Some (hs ++ rest)) (Z.of_nat (length hs)) = Ok (Some (in_words little outs ++ tail)) /\
    Forall2 (same_number 11 52) hs outs.
Proof.
  intros P L O. destruct (to_doubles_ok little hs rest olds tail P L) as (outs & E & F1 & F2). exists outs. split; [exact E|].
  clear E L P. revert hs F1 O. induction F2 as [|o d olds outs H F2 IH]; intros hs F1 O; inversion F1; subst; constructor.
  - inversion O; subst. replace d with (d - d mod 2 ^ 32) by lia. assumption.
  - apply IH; [assumption|]. now inversion O.
Qed.
Lemma to_doubles_wrong : exists h old new q, 0 <= h < 2 ^ 16 /\ 0 <= old < 2 ^ 64 /\ halfp2doubles 1 (Some (in_words true [old])) (Some [h]) 1 = Ok (Some (in_words true [new])) /\
  ieee_val 5 10 h = FinVal q /\ ~ same_ext (ieee_val 11 52 new) (FinVal q).
Proof.
  exists 0x3C00, 1, 0x3FF0000000000001. eexists. split; [lia|]. split; [lia|]. split; [vm_compute; reflexivity|]. split; [vm_compute; reflexivity|].
  vm_compute. discriminate.
Qed.

(** Round trips. *)
Lemma Forall2_len {A B} (R : A -> B -> Prop) l l' : Forall2 R l l' -> length l = length l'.
Proof. induction 1; cbn [length]; congruence. Qed.
Lemma converted_all R src old new : converted R src old new -> length old = length src -> Forall2 R src new.
Proof. intros (out & E & F) L. rewrite <- L, skipn_all, app_nil_r in E. now subst. Qed.
Lemma same_kept eb fb h x r : 0 <= h < 2 ^ 16 -> same_number eb fb h x -> half_of eb fb x r ->
  (ieee_val 5 10 h <> NaNVal -> r = h) /\ (ieee_val 5 10 h = NaNVal -> ieee_val 5 10 r = NaNVal).
Proof. intros H S R. split; [apply (half_exact eb fb h x r); assumption|apply (half_nan eb fb h x r); assumption]. Qed.
Lemma trip_single hs t1 t2 : Forall (fun h => 0 <= h < 2 ^ 16) hs -> length t1 = length hs -> length t2 = length hs ->
  exists xs hs', halfp2singles (Some t1) (Some hs) (Z.of_nat (length hs)) = Ok (Some xs) /\
    singles2halfp (Some t2) (Some xs) (Z.of_nat (length hs)) = Ok (Some hs') /\
    Forall2 (fun h h' => (ieee_val 5 10 h <> NaNVal -> h' = h) /\ (ieee_val 5 10 h = NaNVal -> ieee_val 5 10 h' = NaNVal)) hs hs'.
Proof.
  intros P L1 L2. destruct (to_singles_ok hs [] t1 P ltac:(lia)) as (xs & E1 & C1). rewrite app_nil_r in E1. apply converted_all in C1; [|assumption].
  assert (LX := Forall2_len _ _ _ C1). assert (PX : Forall (fun x => 0 <= x < 2 ^ 32) xs).
  { clear - C1. induction C1 as [|h x hs xs S C IH]; constructor; [|assumption]. destruct S as [B _]. exact B. }
  destruct (singles_ok xs [] t2 PX ltac:(lia)) as (hs' & E2 & C2). rewrite app_nil_r, <- LX in E2. apply converted_all in C2; [|lia].
  exists xs, hs'. split; [exact E1|]. split; [exact E2|]. clear - P C1 C2. revert hs' C2. induction C1 as [|h x hs xs S C IH]; intros hs' C2; inversion C2; subst; constructor.
  - inversion P; subst. eapply same_kept; eassumption.
  - apply IH; [now inversion P|assumption].
Qed.
Lemma upper_only d h r : 0 <= h < 2 ^ 16 -> 0 <= d < 2 ^ 64 -> same_number 11 52 h (d - d mod 2 ^ 32) -> d2h (d / 2 ^ 32) = Ok r ->
  (ieee_val 5 10 h <> NaNVal -> r = h) /\ (ieee_val 5 10 h = NaNVal -> ieee_val 5 10 r = NaNVal).
Proof.
  intros H D S E. set (d' := d - d mod 2 ^ 32) in *.
  pose proof (Z.div_mod d (2 ^ 32) ltac:(lia)) as DM. pose proof (Z.mod_pos_bound d (2 ^ 32) ltac:(lia)) as MB.
  assert (D' : d' = d / 2 ^ 32 * 2 ^ 32) by (unfold d'; lia). assert (Q : 0 <= d / 2 ^ 32) by (apply Z.div_pos; lia).
  assert (Q' : d' / 2 ^ 32 = d / 2 ^ 32) by (rewrite D'; apply Z.div_mul; lia).
  destruct (d2h_ok d' ltac:(lia)) as (r' & E' & _ & HO). rewrite Q', E in E'. injection E' as <-.
  apply (same_kept 11 52 h d' r H S). apply HO. unfold upper_tells.
  destruct (ieee_val 11 52 d') as [?|?|] eqn:ID; [left; discriminate|left; discriminate|right]. intros F0.
  destruct (double_fields d' ltac:(lia)) as (s & E0 & m & HE & Hm & X & U & Lw).
  assert (L0 : m mod 2 ^ 32 = 0) by (rewrite <- Lw, D'; apply Z.mod_mul; lia).
  assert (H20 : 0 <= m / 2 ^ 32 < 2 ^ 20) by (split; [apply Z.div_pos; lia|apply Z.div_lt_upper_bound; lia]).
  rewrite U, (x_frac s 20 E0 (m / 2 ^ 32)) in F0 by (lia || assumption).
  assert (M0 : m = 0) by (rewrite (Z.div_mod m (2 ^ 32)), F0, L0 by lia; reflexivity). subst m. rewrite X in ID.
  destruct (ieee_cases 11 52 fmt_d _ (fbits_range 11 52 fmt_d s E0 0 HE Hm)) as (_ & _ & C).
  destruct (fbits_parts 11 52 fmt_d s E0 0 HE Hm) as (P3 & _ & _). rewrite ID in C. destruct C as [_ C]. apply C. exact P3.
Qed.
Lemma trip_double (little : bool) hs olds t2 : Forall (fun h => 0 <= h < 2 ^ 16) hs -> length olds = length hs -> length t2 = length hs ->
  Forall (fun o => 0 <= o < 2 ^ 64) olds ->
  exists ds hs', halfp2doubles (if little then 1%nat else 0%nat) (Some (in_words little olds)) (Some hs) (Z.of_nat (length hs)) = Ok (Some (in_words little ds)) /\
    doubles2halfp (if little then 1%nat else 0%nat) (Some t2) (Some (in_words little ds)) (Z.of_nat (length hs)) = Ok (Some hs') /\
    Forall2 (fun h h' => (ieee_val 5 10 h <> NaNVal -> h' = h) /\ (ieee_val 5 10 h = NaNVal -> ieee_val 5 10 h' = NaNVal)) hs hs'.
Proof.
  intros P L1 L2 PO. destruct (to_doubles_ok little hs [] olds [] P L1) as (ds & E1 & F1 & _). rewrite !app_nil_r in E1.
  assert (LX := Forall2_len _ _ _ F1). assert (PX : Forall (fun d => 0 <= d < 2 ^ 64) ds).
  { clear - F1. induction F1 as [|h d hs ds S C IH]; constructor; [|assumption]. destruct S as [B _]. change (2 ^ (11 + 52 + 1)) with (2 ^ 32 * 2 ^ 32) in B.
    pose proof (Z.div_mod d (2 ^ 32) ltac:(lia)). pose proof (Z.mod_pos_bound d (2 ^ 32) ltac:(lia)). change (2 ^ 64) with (2 ^ 32 * 2 ^ 32). lia. }
  destruct (from_double_ok (fun d r => d2h (d / 2 ^ 32) = Ok r) little (fun d => 0 <= d < 2 ^ 64)) with (ds := ds) (rest := @nil Z) (dst := t2) as (hs' & E2 & C2); try assumption; [|lia|].
  { intros d D. destruct (d2h_ok d D) as (r & E & _). exists r. tauto. }
  rewrite app_nil_r, <- LX in E2. apply converted_all in C2; [|lia].
  exists ds, hs'. split; [exact E1|]. split.
  { unfold doubles2halfp. change (if little then 1%nat else 0%nat) with (nx little). rewrite E2. reflexivity. }
  clear - P F1 C2 PX. revert hs' C2. induction F1 as [|h d hs ds S C IH]; intros hs' C2; inversion C2; subst; constructor.
  - inversion P; subst. inversion PX; subst. eapply upper_only; eassumption.
  - apply IH; [now inversion P|now inversion PX|assumption].
Qed.

(** Definedness. *)
Definition element_ok (r : routine) (x : Z) : Prop := 0 <= x < match r with Singles2halfp => 2 ^ 32 | Doubles2halfp => 2 ^ 64 | _ => 2 ^ 16 end.
Lemma defined_some {A B} (x : res A) (f : A -> B) : defined (let! r := x in Ok (f r)) <-> defined x.
Proof. destruct x as [a|u]; cbn [bind]; split; intros [b H]; try discriminate H; eexists; reflexivity. Qed.
Lemma singles_defined src dst n : Forall (fun x => 0 <= x < 2 ^ 32) src ->
  defined (singles2halfp (Some dst) (Some src) n) <-> 0 <= n <= Z.min (Z.of_nat (length src)) (Z.of_nat (length dst)).
Proof.
  intros P. unfold singles2halfp. rewrite defined_some. apply (each_defined s2h (fun x => 0 <= x < 2 ^ 32)); [|exact P].
  intros x X. destruct (s2h_ok x X) as (r & E & _). now exists r.
Qed.
Lemma to_singles_defined hs dst n : Forall (fun h => 0 <= h < 2 ^ 16) hs ->
  defined (halfp2singles (Some dst) (Some hs) n) <-> 0 <= n <= Z.min (Z.of_nat (length hs)) (Z.of_nat (length dst)).
Proof.
  intros P. unfold halfp2singles. rewrite defined_some. apply (each_defined h2s (fun h => 0 <= h < 2 ^ 16)); [|exact P].
  intros x X. destruct (h2s_ok x X) as (r & E & _). now exists r.
Qed.
Lemma doubles_defined (little : bool) ds dst n : Forall (fun d => 0 <= d < 2 ^ 64) ds ->
  defined (doubles2halfp (if little then 1%nat else 0%nat) (Some dst) (Some (in_words little ds)) n) <-> 0 <= n <= Z.min (Z.of_nat (length ds)) (Z.of_nat (length dst)).
Proof.
  intros P. unfold doubles2halfp. rewrite defined_some. apply from_double_defined. exact P.
Qed.
Lemma to_doubles_defined (little : bool) hs olds n : Forall (fun h => 0 <= h < 2 ^ 16) hs ->
  defined (halfp2doubles (if little then 1%nat else 0%nat) (Some (in_words little olds)) (Some hs) n) <-> 0 <= n <= Z.min (Z.of_nat (length hs)) (Z.of_nat (length olds)).
Proof.
  intros P. unfold halfp2doubles. rewrite (defined_some (each_to_double _ _ _)). apply to_double_defined. exact P.
Qed.
Lemma null_kept r next t s n : t = None \/ s = None -> run_routine r next t s n = Ok t.
Proof. intros [-> | ->]; destruct r; cbn; destruct s || destruct t; reflexivity. Qed.

(** The check of ieeehalfprecision.c. *)
Lemma ieee_32 (little : bool) r t s n : ieee_routine little 32 r t s n = let! t := run_routine r (if little then 1%nat else 0%nat) t s n in Ok (0, t).
Proof. destruct little; reflexivity. Qed.
Lemma ieee_64 (little : bool) r t s n : ieee_routine little 64 r t s n = Ok (1, t).
Proof. destruct little; reflexivity. Qed.

(** The gateway. *)
Lemma check_mex (little : bool) : check_ieee little 32 = Ok (Some (if little then 1%nat else 0%nat)).
Proof. destruct little; reflexivity. Qed.
Lemma zeros_length n : length (zeros n) = n. Proof. apply repeat_length. Qed.

Section gateway.
Variable little : bool.
Variable to_single : Z -> Z.
Variable from_single : mclass -> Z -> Z.

Lemma singles_part (P : Z -> Prop) (R : Z -> Z -> Prop) (pre : Z -> Z) n : (forall x, P x -> 0 <= pre x < 2 ^ 32 /\ forall r, half_of 8 23 (pre x) r -> R x r) ->
  forall l, Forall P l -> length l = n ->
  exists new, singles2halfp (Some (zeros (length l))) (Some (map pre l)) (Z.of_nat n) = Ok (Some new) /\ Forall2 R l new.
Proof.
  intros H l HP <-. assert (PM : Forall (fun x => 0 <= x < 2 ^ 32) (map pre l)).
  { apply Forall_map. eapply Forall_impl; [|exact HP]. intros x X. apply H. exact X. }
  destruct (singles_ok (map pre l) [] (zeros (length l)) PM) as (new & E & C); [rewrite zeros_length, map_length; lia|].
  rewrite app_nil_r, map_length in E. apply converted_all in C; [|rewrite zeros_length, map_length; reflexivity].
  exists new. split; [exact E|]. clear - H HP C. revert new C. induction HP as [|x l X HP IH]; intros new C; inversion C; subst; constructor.
  - now apply H.
  - apply IH. assumption.
Qed.
Lemma doubles_part n : forall l, Forall (fun d => 0 <= d < 2 ^ 64) l -> length l = n ->
  exists new, doubles2halfp (if little then 1%nat else 0%nat) (Some (zeros (length l))) (Some (in_words little l)) (Z.of_nat n) = Ok (Some new) /\
    Forall2 (fun d r => 0 <= r < 2 ^ 16 /\ (upper_tells d -> half_of 11 52 d r)) l new.
Proof.
  intros l HP <-. destruct (doubles_ok little l [] (zeros (length l)) HP) as (new & E & C); [rewrite zeros_length; lia|].
  rewrite app_nil_r in E. apply converted_all in C; [|now rewrite zeros_length]. now exists new.
Qed.


Lemma gate_single re im : Forall (fun x => 0 <= x < 2 ^ 32) re -> opt_all (fun x => 0 <= x < 2 ^ 32) im -> same_length re im ->
  exists r i, half_of_array little to_single MSingle re im = Ok (Some (r, i)) /\ Forall2 (half_of 8 23) re r /\ opt_rel (half_of 8 23) im i.
Proof.
  intros P1 P2 L. unfold half_of_array. rewrite check_mex. cbn [bind].
  assert (H : forall x, 0 <= x < 2 ^ 32 -> 0 <= (fun x => x) x < 2 ^ 32 /\ forall r, half_of 8 23 x r -> half_of 8 23 x r) by (intros; split; auto).
  destruct (singles_part _ _ _ (length re) H re P1 eq_refl) as (r & Er & Rr). rewrite map_id in Er. cbn [opt_length option_map]. rewrite Er. cbn [bind].
  destruct im as [l|]; cbn [opt_length option_map].
  - destruct (singles_part _ _ _ (length re) H l P2 L) as (i & Ei & Ri). rewrite map_id in Ei. rewrite Ei. cbn [bind]. now exists r, (Some i).
  - now exists r, None.
Qed.
Lemma gate_double re im : Forall (fun d => 0 <= d < 2 ^ 64) re -> opt_all (fun d => 0 <= d < 2 ^ 64) im -> same_length re im ->
  exists r i, half_of_array little to_single MDouble re im = Ok (Some (r, i)) /\
    Forall2 (fun d r => 0 <= r < 2 ^ 16 /\ (upper_tells d -> half_of 11 52 d r)) re r /\
    opt_rel (fun d r => 0 <= r < 2 ^ 16 /\ (upper_tells d -> half_of 11 52 d r)) im i.
Proof.
  intros P1 P2 L. unfold half_of_array. rewrite check_mex. cbn [bind].
  destruct (doubles_part (length re) re P1 eq_refl) as (r & Er & Rr). cbn [opt_length option_map]. rewrite Er. cbn [bind].
  destruct im as [l|]; cbn [opt_length option_map].
  - destruct (doubles_part (length re) l P2 L) as (i & Ei & Ri). rewrite Ei. cbn [bind]. now exists r, (Some i).
  - now exists r, None.
Qed.
Lemma gate_other cl (P : Z -> Prop) (R : Z -> Z -> Prop) re im : (cl <> MDouble /\ cl <> MSingle /\ cl <> MOther) ->
  (forall x, P x -> 0 <= to_single x < 2 ^ 32 /\ forall r, half_of 8 23 (to_single x) r -> R x r) ->
  Forall P re -> opt_all P im -> same_length re im ->
  exists r i, half_of_array little to_single cl re im = Ok (Some (r, i)) /\ Forall2 R re r /\ opt_rel R im i.
Proof.
  intros (C1 & C2 & C3) H P1 P2 L. unfold half_of_array. rewrite check_mex. cbn [bind].
  destruct (singles_part _ _ _ (length re) H re P1 eq_refl) as (r & Er & Rr).
  assert (X : exists r i, (let! r := singles2halfp (opt_length (Some re)) (option_map (map to_single) (Some re)) (Z.of_nat (length re)) in
     let! i := singles2halfp (opt_length im) (option_map (map to_single) im) (Z.of_nat (length re)) in
     match r with Some r => Ok (Some (r, i)) | None => Ok None end) = Ok (Some (r, i)) /\ Forall2 R re r /\ opt_rel R im i).
  { cbn [opt_length option_map]. rewrite Er. cbn [bind]. destruct im as [l|]; cbn [opt_length option_map].
    - destruct (singles_part _ _ _ (length re) H l P2 L) as (i & Ei & Ri). rewrite Ei. cbn [bind]. now exists r, (Some i).
    - now exists r, None. }
  destruct cl; try congruence; exact X.
Qed.

(** Back. *)
Lemma to_singles_part n : forall l, Forall (fun h => 0 <= h < 2 ^ 16) l -> length l = n ->
  exists new, halfp2singles (Some (zeros (length l))) (Some l) (Z.of_nat n) = Ok (Some new) /\ Forall2 (same_number 8 23) l new.
Proof.
  intros l HP <-. destruct (to_singles_ok l [] (zeros (length l)) HP) as (new & E & C); [rewrite zeros_length; lia|].
  rewrite app_nil_r in E. apply converted_all in C; [|now rewrite zeros_length]. now exists new.
Qed.
Lemma doubles_back ds : Forall (fun d => 0 <= d) ds -> doubles_of little (in_words little ds) = ds.
Proof.
  induction 1 as [|d ds D _ IH]; [reflexivity|]. rewrite in_words_cons. pose proof (Z.div_mod d (2 ^ 32) ltac:(lia)).
  destruct little; cbn [words_of app doubles_of]; f_equal; try assumption; lia.
Qed.
Lemma zeros_words n : zeros (2 * n) = in_words little (zeros n).
Proof.
  induction n as [|n IH]; [reflexivity|]. replace (2 * S n)%nat with (S (S (2 * n))) by lia. unfold zeros in *. cbn [repeat]. rewrite in_words_cons, <- IH.
  destruct little; reflexivity.
Qed.
Lemma to_doubles_part n : forall l, Forall (fun h => 0 <= h < 2 ^ 16) l -> length l = n ->
  exists new, (let! t := halfp2doubles (if little then 1%nat else 0%nat) (Some (zeros (2 * length l))) (Some l) (Z.of_nat n) in Ok (option_map (doubles_of little) t)) = Ok (Some new) /\
    Forall2 (same_number 11 52) l new.
Proof.
  intros l HP <-. destruct (to_doubles_zero little l [] (zeros (length l)) [] HP) as (outs & E & C).
  - apply zeros_length.
  - apply Forall_forall. intros x X. unfold zeros in X. apply repeat_spec in X. subst. reflexivity.
  - rewrite !app_nil_r in E. rewrite zeros_words, E. cbn [bind option_map]. rewrite doubles_back; [now exists outs|].
    clear - C. induction C as [|h d hs ds [B _] C IH]; constructor; [lia|assumption].
Qed.
Lemma gate_to_single re im : Forall (fun h => 0 <= h < 2 ^ 16) re -> opt_all (fun h => 0 <= h < 2 ^ 16) im -> same_length re im ->
  exists r i, array_of_half little from_single MSingle re im = Ok (Some (r, i)) /\ Forall2 (same_number 8 23) re r /\ opt_rel (same_number 8 23) im i.
Proof.
  intros P1 P2 L. unfold array_of_half. rewrite check_mex. cbn [bind].
  destruct (to_singles_part (length re) re P1 eq_refl) as (r & Er & Rr). cbn [opt_length option_map]. rewrite Er. cbn [bind].
  destruct im as [l|]; cbn [opt_length option_map].
  - destruct (to_singles_part (length re) l P2 L) as (i & Ei & Ri). rewrite Ei. cbn [bind]. now exists r, (Some i).
  - now exists r, None.
Qed.
Lemma gate_to_double re im : Forall (fun h => 0 <= h < 2 ^ 16) re -> opt_all (fun h => 0 <= h < 2 ^ 16) im -> same_length re im ->
  exists r i, array_of_half little from_single MDouble re im = Ok (Some (r, i)) /\ Forall2 (same_number 11 52) re r /\ opt_rel (same_number 11 52) im i.
Proof.
  intros P1 P2 L. unfold array_of_half. rewrite check_mex. cbn [bind].
  destruct (to_doubles_part (length re) re P1 eq_refl) as (r & Er & Rr). cbn [option_map]. rewrite Er. cbn [bind].
  destruct im as [l|]; cbn [option_map].
  - destruct (to_doubles_part (length re) l P2 L) as (i & Ei & Ri). rewrite Ei. cbn [bind]. now exists r, (Some i).
  - exists r, None. destruct little; cbn; auto.
Qed.
Lemma gate_to_other cl re im : (cl <> MDouble /\ cl <> MSingle /\ cl <> MOther) ->
  Forall (fun h => 0 <= h < 2 ^ 16) re -> opt_all (fun h => 0 <= h < 2 ^ 16) im -> same_length re im ->
  exists xs ys, array_of_half little from_single cl re im = Ok (Some (map (from_single cl) xs, option_map (map (from_single cl)) ys)) /\
    Forall2 (same_number 8 23) re xs /\ opt_rel (same_number 8 23) im ys.
Proof.
  intros (C1 & C2 & C3) P1 P2 L. unfold array_of_half. rewrite check_mex. cbn [bind].
  destruct (to_singles_part (length re) re P1 eq_refl) as (r & Er & Rr). cbn [opt_length option_map]. rewrite Er. cbn [bind option_map].
  destruct im as [l|]; cbn [opt_length option_map].
  - destruct (to_singles_part (length re) l P2 L) as (i & Ei & Ri). rewrite Ei. cbn [bind option_map]. exists r, (Some i). destruct cl; try congruence; auto.
  - exists r, None. destruct cl; try congruence; auto.
Qed.
End gateway.

(** Integers pass through single precision without harm. *)
Lemma int_half (rnd : Q -> Z) i r : rounding 8 23 rnd -> half_of 8 23 (rnd (inject_Z i)) r -> half_for (FinVal (inject_Z i)) r.
Proof.
  intros RN ((R & HF) & _). split; [exact R|].
  assert (INT : forall j, Z.abs j <= 2 ^ 24 -> exists y, ieee_val 8 23 (rnd (inject_Z j)) = FinVal y /\ (y == inject_Z j)%Q).
  { intros j J. apply (rn_exact _ _ _ RN). exact (int_float Soft.S32 j J). }
  destruct (Z_le_gt_dec (Z.abs i) (2 ^ 24)) as [S|S].
  - destruct (INT i S) as (y & I & Y). rewrite I in HF. exact (half_away_comp _ _ _ Y HF).
  - assert (BIG : (65520 <= inject_Z (2 ^ 24))%Q) by (vm_compute; discriminate).
    destruct (Z_lt_le_dec i 0) as [N|N].
    + destruct (INT (- 2 ^ 24) ltac:(lia)) as (y & I & Y). rewrite inject_Z_opp in Y.
      assert (LQ : (inject_Z i <= inject_Z (- 2 ^ 24))%Q) by (apply inj_le; lia). pose proof (rn_mono _ _ _ RN _ _ LQ) as M. rewrite I in M.
      rewrite inject_Z_opp in LQ. unfold half_away. assert (AI : (Qabs (inject_Z i) == - inject_Z i)%Q) by (apply Qabs_neg; lra).
      destruct (ieee_val 8 23 (rnd (inject_Z i))) as [q|[]|]; cbn [ext_le] in M; try contradiction.
      * unfold half_away in HF. assert (AQ : (Qabs q == - q)%Q) by (apply Qabs_neg; lra).
        destruct (ieee_val 5 10 r) as [z|s|]; [|destruct HF as [_ HF]|contradiction].
        -- destruct HF as [B _]. rewrite AQ in B. lra.
        -- rewrite AI. split; [lra|]. rewrite HF. split; intros _; lra.
      * rewrite HF. rewrite AI. split; [lra|]. split; [intros _; lra|reflexivity].
    + destruct (INT (2 ^ 24) ltac:(lia)) as (y & I & Y).
      assert (LQ : (inject_Z (2 ^ 24) <= inject_Z i)%Q) by (apply inj_le; lia). pose proof (rn_mono _ _ _ RN _ _ LQ) as M. rewrite I in M.
      unfold half_away. assert (AI : (Qabs (inject_Z i) == inject_Z i)%Q) by (apply Qabs_pos; lra).
      destruct (ieee_val 8 23 (rnd (inject_Z i))) as [q|[]|]; cbn [ext_le] in M; try contradiction.
      * unfold half_away in HF. assert (AQ : (Qabs q == q)%Q) by (apply Qabs_pos; lra).
        destruct (ieee_val 5 10 r) as [z|s|]; [|destruct HF as [_ HF]|contradiction].
        -- destruct HF as [B _]. rewrite AQ in B. lra.
        -- rewrite AI. split; [lra|]. rewrite HF. split; intros; lra.
      * rewrite HF. rewrite AI. split; [lra|]. split; [discriminate|intros; lra].
Qed.
Lemma gate_integers (little : bool) (rnd : Q -> Z) cl re im : rounding 8 23 rnd -> (cl <> MDouble /\ cl <> MSingle /\ cl <> MOther) ->
  same_length re im ->
  exists r i, half_of_array little (fun i => rnd (inject_Z i)) cl re im = Ok (Some (r, i)) /\
    Forall2 (fun i r => half_for (FinVal (inject_Z i)) r) re r /\ opt_rel (fun i r => half_for (FinVal (inject_Z i)) r) im i.
Proof.
  intros RN C L. apply (gate_other little (fun i => rnd (inject_Z i)) cl (fun _ => True)); try assumption.
  - intros x _. split; [apply (rn_range _ _ _ RN)|]. intros r. apply int_half. exact RN.
  - apply Forall_forall. trivial.
  - destruct im; cbn [opt_all]; [apply Forall_forall; trivial|trivial].
Qed.
Lemma gate_nan_wrong (little : bool) to_single : exists d new, 0 <= d < 2 ^ 64 /\ ieee_val 11 52 d = NaNVal /\
  half_of_array little to_single MDouble [d] None = Ok (Some ([new], None)) /\ ieee_val 5 10 new = InfVal false.
Proof. exists 0x7FF0000000000001, 0x7C00. destruct little; vm_compute; repeat split; discriminate. Qed.
