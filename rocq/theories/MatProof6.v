(** The routines on arrays. *)
From Coq Require Import ZArith QArith Qabs Bool List Lia Lqa.
From Verif Require Import Res CInt Spec SpecFloat SpecHalf Core Arith QPow FloatProof SoftProof MatHalf MatProof MatProof2 MatProof3 MatProof4 MatProof5.
Import ListNotations.
Open Scope Z_scope.

Lemma each_ok f (P : Z -> Prop) (R : Z -> Z -> Prop) : (forall x, P x -> exists r, f x = Ok r /\ R x r) ->
  forall src rest dst, Forall P src -> (length src <= length dst)%nat ->
  exists new, each f (src ++ rest) dst (Z.of_nat (length src)) = Ok new /\ converted R src dst new.
Proof.
  intros HF. induction src as [|x src IH]; intros rest dst HP HL.
  - exists dst. split; [destruct rest; reflexivity|]. exists []. split; [reflexivity|constructor].
  - destruct dst as [|d dst]; [cbn in HL; lia|]. inversion HP as [|? ? Px Ps]; subst.
    destruct (HF x Px) as (r & Er & Rr). destruct (IH rest dst Ps ltac:(cbn in HL; lia)) as (new & En & out & Eo & Fo).
    exists (r :: new). split.
    + cbn [app each length]. destruct (Z.eqb_spec (Z.of_nat (S (length src))) 0); [lia|]. rewrite Er. cbn [bind].
      replace (Z.of_nat (S (length src)) - 1) with (Z.of_nat (length src)) by lia. rewrite En. reflexivity.
    + exists (r :: out). split; [cbn [length skipn app]; now rewrite Eo|constructor; assumption].
Qed.
Lemma each_defined f (P : Z -> Prop) : (forall x, P x -> exists r, f x = Ok r) ->
  forall src dst n, Forall P src -> defined (each f src dst n) <-> 0 <= n <= Z.min (Z.of_nat (length src)) (Z.of_nat (length dst)).
Proof.
  intros HF. induction src as [|x src IH]; intros dst n HP.
  - cbn [each length]. destruct (Z.eqb_spec n 0) as [->|N].
    + split; [lia|]. intros _. now exists dst.
    + split; [intros [? H]; discriminate H|lia].
  - inversion HP as [|? ? Px Ps]; subst. cbn [each]. destruct (Z.eqb_spec n 0) as [->|N].
    + split; [cbn [length]; lia|]. intros _. now exists dst.
    + destruct dst as [|d dst].
      * split; [intros [? H]; discriminate H|cbn [length]; lia].
      * destruct (HF x Px) as (r & Er). rewrite Er. cbn [bind]. specialize (IH dst (n - 1) Ps). cbn [length]. split.
        -- intros [a H]. destruct (each f src dst (n - 1)) as [t|u] eqn:ET; [|discriminate H]. assert (D : defined (Ok t)) by (now exists t). apply IH in D. lia.
        -- intros B. destruct (proj2 IH) as [a Ha]; [lia|]. exists (r :: a). rewrite Ha. reflexivity.
Qed.

(** Words of a double. *)
Definition nx (little : bool) : nat := if little then 1%nat else 0%nat.
Definition drops (little : bool) (ds : list Z) : list Z := skipn (nx little) (in_words little ds).
Lemma in_words_cons little d ds : in_words little (d :: ds) = words_of little d ++ in_words little ds.
Proof. reflexivity. Qed.
Lemma in_words_app little a b : in_words little (a ++ b) = in_words little a ++ in_words little b.
Proof. unfold in_words. apply flat_map_app. Qed.
Lemma in_words_length little ds : length (in_words little ds) = (2 * length ds)%nat.
Proof. induction ds as [|d ds IH]; [reflexivity|]. rewrite in_words_cons, app_length, IH. destruct little; cbn [words_of length]; lia. Qed.

Lemma from_double_ok (R : Z -> Z -> Prop) little (P : Z -> Prop) : (forall d, P d -> exists r, d2h (d / 2 ^ 32) = Ok r /\ R d r) ->
  forall ds rest dst, Forall P ds -> (length ds <= length dst)%nat ->
  exists new, each_from_double (skipn (nx little) (in_words little ds ++ rest)) dst (Z.of_nat (length ds)) = Ok new /\ converted R ds dst new.
Proof.
  intros HF. induction ds as [|d ds IH]; intros rest dst HP HL.
  - exists dst. split; [|exists []; split; [reflexivity|constructor]]. cbn [length Z.of_nat]. destruct (skipn (nx little) (in_words little [] ++ rest)); reflexivity.
  - destruct dst as [|o dst]; [cbn in HL; lia|]. inversion HP as [|? ? Px Ps]; subst.
    destruct (HF d Px) as (r & Er & Rr). destruct (IH rest dst Ps ltac:(cbn in HL; lia)) as (new & En & out & Eo & Fo).
    exists (r :: new). split; [|exists (r :: out); split; [cbn [length skipn app]; now rewrite Eo|constructor; assumption]].
    rewrite in_words_cons, <- app_assoc. set (k := Z.of_nat (length (d :: ds))).
    assert (K : k <> 0 /\ k - 1 = Z.of_nat (length ds)) by (unfold k; cbn [length]; lia). destruct K as [K0 K1].
    destruct little; cbn [nx skipn words_of app] in *.
    + cbn [each_from_double]. destruct (Z.eqb_spec k 0); [contradiction|]. rewrite Er. cbn [bind]. rewrite K1.
      destruct (in_words true ds ++ rest) as [|w ws] eqn:EW.
      * assert (length ds = 0%nat) by (destruct ds; [reflexivity|discriminate EW]). destruct ds; [|discriminate]. cbn [length Z.of_nat Z.eqb bind].
        cbn [skipn each_from_double length Z.of_nat Z.eqb] in En. injection En as <-. reflexivity.
      * cbn [skipn] in En. rewrite En. reflexivity.
    + cbn [each_from_double]. destruct (Z.eqb_spec k 0); [contradiction|]. rewrite Er. cbn [bind]. rewrite K1, En. reflexivity.
Qed.
Lemma to_double_ok little (P : Z -> Prop) (R : Z -> Z -> Prop) : (forall h, P h -> exists x, h2d h = Ok x /\ R h x /\ 0 <= x < 2 ^ 32) ->
  forall hs rest olds tail, Forall P hs -> length olds = length hs ->
  exists outs new, each_to_double (hs ++ rest) (skipn (nx little) (in_words little olds ++ tail)) (Z.of_nat (length hs)) = Ok new /\
    firstn (nx little) (in_words little olds ++ tail) ++ new = in_words little outs ++ tail /\
    Forall2 (fun h d => R h (d / 2 ^ 32)) hs outs /\ Forall2 (fun o d => d mod 2 ^ 32 = o mod 2 ^ 32) olds outs.
Proof.
  intros HF. induction hs as [|h hs IH]; intros rest olds tail HP HL.
  - destruct olds; [|discriminate HL]. exists [], (skipn (nx little) (in_words little [] ++ tail)). split.
    + cbn [length Z.of_nat app]. destruct rest; reflexivity.
    + split; [apply firstn_skipn|]. split; constructor.
  - destruct olds as [|o olds]; [discriminate HL|]. inversion HP as [|? ? Ph Ps]; subst. cbn in HL.
    destruct (HF h Ph) as (x & Ex & Rx & Bx). destruct (IH rest olds tail Ps ltac:(lia)) as (outs & new & En & Ew & F1 & F2).
    pose proof (Z.mod_pos_bound o (2 ^ 32) ltac:(lia)) as OB. set (d := x * 2 ^ 32 + o mod 2 ^ 32).
    assert (D1 : d / 2 ^ 32 = x) by (unfold d; rewrite Z.div_add_l by lia; rewrite Z.div_small by lia; lia).
    assert (D2 : d mod 2 ^ 32 = o mod 2 ^ 32) by (unfold d; rewrite Z.add_comm, Z.mod_add by lia; apply Z.mod_small; assumption).
    rewrite !in_words_cons, <- !app_assoc. set (k := Z.of_nat (length (h :: hs))).
    assert (K : k <> 0 /\ k - 1 = Z.of_nat (length hs)) by (unfold k; cbn [length]; lia). destruct K as [K0 K1].
    destruct little; cbn [nx skipn firstn words_of app] in *.
    + destruct (in_words true olds ++ tail) as [|w ws] eqn:EW.
      * assert (O0 : olds = []) by (destruct olds; [reflexivity|discriminate EW]). subst olds. destruct hs; [|discriminate HL].
        cbn [in_words flat_map app] in EW. subst tail. inversion F2; subst outs.
        exists [d], [x]. split; [|split; [|split]].
        -- cbn [app each_to_double]. destruct (Z.eqb_spec k 0); [contradiction|]. rewrite Ex. cbn [bind]. rewrite K1. reflexivity.
        -- cbn [in_words flat_map words_of app]. now rewrite D1, D2.
        -- constructor; [rewrite D1; assumption|constructor].
        -- constructor; [assumption|constructor].
      * cbn [skipn firstn app] in En, Ew. exists (d :: outs), (x :: w :: new). split; [|split; [|split]].
        -- cbn [app each_to_double]. destruct (Z.eqb_spec k 0); [contradiction|]. rewrite Ex. cbn [bind]. rewrite K1, En. reflexivity.
        -- rewrite in_words_cons, <- app_assoc. cbn [words_of app]. now rewrite D1, D2, <- Ew.
        -- constructor; [rewrite D1; assumption|assumption].
        -- constructor; assumption.
    + exists (d :: outs), (x :: o mod 2 ^ 32 :: new). split; [|split; [|split]].
      * cbn [app each_to_double]. destruct (Z.eqb_spec k 0); [contradiction|]. rewrite Ex. cbn [bind]. rewrite K1, En. reflexivity.
      * rewrite in_words_cons, <- app_assoc. cbn [words_of app]. now rewrite D1, D2, <- Ew.
      * constructor; [rewrite D1; assumption|assumption].
      * constructor; assumption.
Qed.

(** When the loops over doubles are defined. *)
Lemma from_double_defined little : forall ds dst n, Forall (fun d => 0 <= d < 2 ^ 64) ds ->
  defined (each_from_double (skipn (nx little) (in_words little ds)) dst n) <-> 0 <= n <= Z.min (Z.of_nat (length ds)) (Z.of_nat (length dst)).
Proof.
  assert (Z0 : forall src dst, each_from_double src dst 0 = Ok dst) by (intros [|? ?] ?; reflexivity).
  assert (OOB : forall dst n, n <> 0 -> each_from_double [] dst n = UB OutOfBounds).
  { intros dst n N. cbn [each_from_double]. destruct (Z.eqb_spec n 0); [contradiction|]. destruct dst; reflexivity. }
  induction ds as [|d ds IH]; intros dst n HP.
  - replace (skipn (nx little) (in_words little [])) with (@nil Z) by (destruct little; reflexivity). destruct (Z.eq_dec n 0) as [->|N].
    + rewrite Z0. split; [cbn [length]; lia|]. intros _. now exists dst.
    + rewrite OOB by assumption. split; [intros [? H]; discriminate H|cbn [length]; lia].
  - inversion HP as [|? ? Px Ps]; subst. destruct (Z.eq_dec n 0) as [->|N].
    { rewrite Z0. split; [cbn [length]; lia|]. intros _. now exists dst. }
    destruct dst as [|o dst].
    { split; [|cbn [length]; lia]. intros [? H]. rewrite in_words_cons in H. destruct little; cbn [nx skipn words_of app each_from_double] in H;
      (destruct (Z.eqb_spec n 0); [contradiction|discriminate H]). }
    destruct (d2h_ok d Px) as (r & Er & _). specialize (IH dst (n - 1) Ps).
    assert (E : defined (each_from_double (skipn (nx little) (in_words little (d :: ds))) (o :: dst) n) <-> defined (each_from_double (skipn (nx little) (in_words little ds)) dst (n - 1))).
    { rewrite in_words_cons. destruct little; cbn [nx skipn words_of app] in *.
      - cbn [each_from_double]. destruct (Z.eqb_spec n 0); [contradiction|]. rewrite Er. cbn [bind].
        destruct (in_words true ds) as [|w ws] eqn:EW.
        + cbn [skipn]. destruct (Z.eqb_spec (n - 1) 0) as [N1|N1].
          * rewrite N1, Z0. cbn [bind]. split; intros _; [now exists dst|now exists (r :: dst)].
          * rewrite OOB by assumption. split; intros [? H]; discriminate H.
        + cbn [skipn]. destruct (each_from_double ws dst (n - 1)) as [t|u]; cbn [bind]; split; intros [? H]; try discriminate H; [now exists t|now exists (r :: t)].
      - cbn [each_from_double]. destruct (Z.eqb_spec n 0); [contradiction|]. rewrite Er. cbn [bind].
        destruct (each_from_double (in_words false ds) dst (n - 1)) as [t|u]; cbn [bind]; split; intros [? H]; try discriminate H; [now exists t|now exists (r :: t)]. }
    rewrite E, IH. cbn [length]. lia.
Qed.
Lemma to_double_defined little : forall hs olds n, Forall (fun h => 0 <= h < 2 ^ 16) hs ->
  defined (each_to_double hs (skipn (nx little) (in_words little olds)) n) <-> 0 <= n <= Z.min (Z.of_nat (length hs)) (Z.of_nat (length olds)).
Proof.
  assert (Z0 : forall src dst, each_to_double src dst 0 = Ok dst) by (intros [|? ?] ?; reflexivity).
  assert (OOB : forall src n, n <> 0 -> each_to_double src [] n = UB OutOfBounds).
  { intros src n N. destruct src; cbn [each_to_double]; (destruct (Z.eqb_spec n 0); [contradiction|reflexivity]). }
  induction hs as [|h hs IH]; intros olds n HP.
  - cbn [each_to_double length]. destruct (Z.eqb_spec n 0) as [->|N].
    + split; [lia|]. intros _. eexists; reflexivity.
    + split; [intros [? H]; discriminate H|lia].
  - inversion HP as [|? ? Ph Ps]; subst. destruct (Z.eq_dec n 0) as [->|N].
    { rewrite Z0. split; [cbn [length]; lia|]. intros _. eexists; reflexivity. }
    destruct olds as [|o olds].
    { replace (skipn (nx little) (in_words little [])) with (@nil Z) by (destruct little; reflexivity). rewrite OOB by assumption.
      split; [intros [? H]; discriminate H|cbn [length]; lia]. }
    destruct (h2d_ok h Ph) as (x & Ex & _). specialize (IH olds (n - 1) Ps).
    assert (E : defined (each_to_double (h :: hs) (skipn (nx little) (in_words little (o :: olds))) n) <-> defined (each_to_double hs (skipn (nx little) (in_words little olds)) (n - 1))).
    { rewrite in_words_cons. destruct little; cbn [nx skipn words_of app] in *.
      - cbn [each_to_double]. destruct (Z.eqb_spec n 0); [contradiction|]. rewrite Ex. cbn [bind].
        destruct (in_words true olds) as [|w ws] eqn:EW.
        + cbn [skipn]. destruct (Z.eqb_spec (n - 1) 0) as [N1|N1].
          * rewrite N1, Z0. cbn [bind]. split; intros _; eexists; reflexivity.
          * rewrite OOB by assumption. split; intros [? H]; discriminate H.
        + cbn [skipn]. destruct (each_to_double hs ws (n - 1)) as [t|u]; cbn [bind]; split; intros [? H]; try discriminate H; eexists; reflexivity.
      - cbn [each_to_double]. destruct (Z.eqb_spec n 0); [contradiction|]. rewrite Ex. cbn [bind].
        destruct (each_to_double hs (in_words false olds) (n - 1)) as [t|u]; cbn [bind]; split; intros [? H]; try discriminate H; eexists; reflexivity. }
    rewrite E, IH. cbn [length]. lia.
Qed.
