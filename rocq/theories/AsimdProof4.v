(** Element by element statements, and the running argmax. *)
From Coq Require Import ZArith QArith Qabs Bool List Lia Lqa.
From Verif Require Import Res CInt Spec SpecFloat SpecSimd Core Arith Asimd AsimdProof AsimdProof2 AsimdProof3.
Import ListNotations.
Open Scope Z_scope.

Lemma nth_map2 {A B C} (f : A -> B -> C) d e g xs : forall ys i, length ys = length xs -> (i < length xs)%nat ->
  nth i (map2 f xs ys) g = f (nth i xs d) (nth i ys e).
Proof.
  induction xs as [|x xs IH]; intros [|y ys] i L I; cbn in *; try lia. destruct i as [|i]; [reflexivity|]. apply IH; lia.
Qed.
Lemma nth_map3 {A B C D} (f : A -> B -> C -> D) d e g h xs : forall ys zs i, length ys = length xs -> length zs = length xs -> (i < length xs)%nat ->
  nth i (map3 f xs ys zs) h = f (nth i xs d) (nth i ys e) (nth i zs g).
Proof.
  induction xs as [|x xs IH]; intros [|y ys] [|z zs] i L M I; cbn in *; try lia. destruct i as [|i]; [reflexivity|]. apply IH; lia.
Qed.
Lemma Forall_map3 (P : Z -> Prop) xs : forall ys bs, Forall P xs -> Forall P ys -> Forall P (map3 sel xs ys bs).
Proof.
  induction xs as [|x xs IH]; intros [|y ys] [|b bs] X Y; cbn [map3]; try constructor; inversion X; inversion Y; subst.
  - destruct b; assumption.
  - now apply IH.
Qed.
Lemma vector_sel e n xs ys bs : vector e n xs -> vector e n ys -> length bs = n -> vector e n (map3 sel xs ys bs).
Proof.
  intros [X FX] [Y FY] B. split; [rewrite map3_length; congruence|now apply Forall_map3].
Qed.
Lemma max_ok c xs ys i : vector (v_type c) (v_n c) xs -> vector (v_type c) (v_n c) ys -> (i < v_n c)%nat ->
  let r := nth i (v_store c (v_max c (v_load c xs) (v_load c ys))) 0 in
  (less (v_type c) (nth i ys 0) (nth i xs 0) -> r = nth i xs 0) /\ (~ less (v_type c) (nth i ys 0) (nth i xs 0) -> r = nth i ys 0).
Proof.
  intros X Y I. cbv zeta. rewrite max_load by assumption. destruct X as [X FX], Y as [Y FY].
  rewrite load_store.
  - rewrite (nth_map2 _ 0 0) by congruence. split; intros L.
    + apply ltb_less in L. now rewrite L.
    + apply ltb_not in L. now rewrite L.
  - split; [rewrite map2_length; congruence|]. clear I. revert X Y FX FY. generalize (v_n c) as n. intros n. revert n ys.
    induction xs as [|x xs IH]; intros n [|y ys] X Y FX FY; cbn [map2]; try constructor; inversion FX; inversion FY; subst.
    + destruct (ltb _ y x); assumption.
    + apply (IH (length xs)); try assumption; [reflexivity|cbn in Y; lia].
Qed.
Lemma blend_ok c xs ys us vs i : vector (v_type c) (v_n c) xs -> vector (v_type c) (v_n c) ys ->
  vector (v_type c) (v_n c) us -> vector (v_type c) (v_n c) vs -> (i < v_n c)%nat ->
  let r := nth i (v_store c (v_blend c (v_load c us) (v_load c vs) (v_cmplt c (v_load c xs) (v_load c ys)))) 0 in
  (less (v_type c) (nth i xs 0) (nth i ys 0) -> r = nth i vs 0) /\ (~ less (v_type c) (nth i xs 0) (nth i ys 0) -> r = nth i us 0).
Proof.
  intros X Y U V I. cbv zeta. rewrite cmplt_load by assumption.
  assert (LM : length (map2 (ltb (v_type c)) xs ys) = v_n c) by (destruct X, Y; rewrite map2_length; congruence).
  rewrite blend_load by (try assumption; try apply U; try apply V).
  rewrite load_store by (apply vector_sel; assumption).
  destruct X as [X FX], Y as [Y FY], U as [U FU], V as [V FV].
  rewrite (nth_map3 _ 0 0 false), (nth_map2 _ 0 0) by congruence. unfold sel. split; intros L.
  - apply ltb_less in L. now rewrite L.
  - apply ltb_not in L. now rewrite L.
Qed.
Lemma x_store_load c xs : index_ok c = true -> length xs = v_n c -> Forall int32 xs -> x_store c (x_load c xs) = xs.
Proof. intros I L F. apply x_load_store; [|assumption]. now rewrite index_len. Qed.
Lemma blendindex_ok c xs ys us vs : index_ok c = true -> vector (v_type c) (v_n c) xs -> vector (v_type c) (v_n c) ys ->
  vector (ESigned 32) (v_n c) us -> vector (ESigned 32) (v_n c) vs ->
  exists r, v_blendindex c (x_load c us) (x_load c vs) (v_cmplt c (v_load c xs) (v_load c ys)) = Some r /\
  forall i, (i < v_n c)%nat ->
  (less (v_type c) (nth i xs 0) (nth i ys 0) -> nth i (x_store c r) 0 = nth i vs 0) /\
  (~ less (v_type c) (nth i xs 0) (nth i ys 0) -> nth i (x_store c r) 0 = nth i us 0).
Proof.
  intros K X Y U V. rewrite cmplt_load by assumption.
  assert (LM : length (map2 (ltb (v_type c)) xs ys) = v_n c) by (destruct X, Y; rewrite map2_length; congruence).
  rewrite blendindex_load by (try assumption; try apply U; try apply V). eexists. split; [reflexivity|]. intros i I.
  destruct (vector_sel _ _ us vs _ U V LM) as [LS FS]. rewrite x_store_load by assumption.
  destruct X as [X FX], Y as [Y FY], U as [U FU], V as [V FV].
  rewrite (nth_map3 _ 0 0 false), (nth_map2 _ 0 0) by congruence. unfold sel. split; intros L.
  - apply ltb_less in L. now rewrite L.
  - apply ltb_not in L. now rewrite L.
Qed.

(** The order. *)
Lemma less_cotrans e u v w : not_nan e u -> less e v w -> less e v u \/ less e u w.
Proof.
  destruct e as [k|k|eb fb]; cbn [not_nan less]; try lia.
  destruct (ieee_val eb fb u) as [a|[]|], (ieee_val eb fb v) as [b|[]|], (ieee_val eb fb w) as [d|[]|]; cbn [ext_le]; try tauto.
  intros _ [_ N]. destruct (Qlt_le_dec b a) as [H|H]; [left|right]; split; lra.
Qed.
Lemma less_irrefl e u : ~ less e u u.
Proof. destruct e; cbn [less]; try lia. tauto. Qed.
Lemma first_max_one e v i : first_max e [(v, i)] v i.
Proof.
  exists [], []. repeat split; [intros ? ? []|]. intros w j [E|[]]. injection E as <- <-. apply less_irrefl.
Qed.
Lemma first_max_keep e h v i w j : first_max e h v i -> ~ less e v w -> first_max e (h ++ [(w, j)]) v i.
Proof.
  intros (b & a & -> & B & A) N. exists b, (a ++ [(w, j)]). split; [now rewrite <- app_assoc|]. split; [assumption|].
  intros w' j' H. apply in_app_or in H. destruct H as [H|[E|[]]]; [now apply (A w' j')|]. injection E as <- <-. assumption.
Qed.
Lemma first_max_new e h v i w j : first_max e h v i -> (forall u k, In (u, k) h -> not_nan e u) -> less e v w ->
  first_max e (h ++ [(w, j)]) w j.
Proof.
  intros (b & a & -> & B & A) NN L. exists (b ++ (v, i) :: a), []. split; [reflexivity|].
  assert (BL : forall u k, In (u, k) (b ++ (v, i) :: a) -> less e u w).
  { intros u k H. destruct (less_cotrans e u v w (NN u k H) L) as [C|C]; [|assumption]. destruct (A u k H C). }
  split; [assumption|]. intros u k H. apply in_app_or in H. destruct H as [H|[E|[]]].
  - intros C. pose proof (BL u k H) as D. destruct e; cbn [less] in *; [lia|lia|]. tauto.
  - injection E as <- <-. apply less_irrefl.
Qed.

(** The running argmax. *)
Definition regs_of (c : vclass) (p : list Z * list Z) : reg * list reg := (v_load c (fst p), x_load c (snd p)).
Definition step_ok (c : vclass) (p : list Z * list Z) : Prop :=
  vector (v_type c) (v_n c) (fst p) /\ vector (ESigned 32) (v_n c) (snd p) /\ Forall (not_nan (v_type c)) (fst p).
Lemma nth_not_nan c p j : step_ok c p -> (j < v_n c)%nat -> not_nan (v_type c) (nth j (fst p) 0).
Proof.
  intros ((L & _) & _ & N) J. rewrite Forall_forall in N. apply N, nth_In. lia.
Qed.
Lemma argmax_gen c : index_ok c = true -> forall steps p h, step_ok c p -> Forall (step_ok c) h -> Forall (step_ok c) steps ->
  (forall j, (j < v_n c)%nat -> first_max (v_type c) (lane_history j h) (nth j (fst p) 0) (nth j (snd p) 0)) ->
  exists q, v_argmax c (regs_of c p) (map (regs_of c) steps) = Some (regs_of c q) /\ step_ok c q /\
  forall j, (j < v_n c)%nat -> first_max (v_type c) (lane_history j (h ++ steps)) (nth j (fst q) 0) (nth j (snd q) 0).
Proof.
  intros K. induction steps as [|s steps IH]; intros p h P Hh S I.
  - exists p. rewrite app_nil_r. repeat split; try apply P. assumption.
  - inversion S as [|? ? S1 S2]; subst. cbn [map v_argmax]. unfold regs_of at 1 2. unfold v_argmax_step.
    destruct P as (PV & PX & PN), S1 as (SV & SX & SN).
    rewrite cmplt_load by assumption.
    assert (LM : length (map2 (ltb (v_type c)) (fst p) (fst s)) = v_n c) by (destruct PV, SV; rewrite map2_length; congruence).
    rewrite blendindex_load by (try assumption; try apply PX; try apply SX).
    rewrite blend_load by (try assumption; try apply PV; try apply SV).
    set (bs := map2 _ _ _) in *. set (q := (map3 sel (fst p) (fst s) bs, map3 sel (snd p) (snd s) bs)).
    change (exists q0, v_argmax c (regs_of c q) (map (regs_of c) steps) = Some (regs_of c q0) /\ step_ok c q0 /\
      forall j, (j < v_n c)%nat -> first_max (v_type c) (lane_history j (h ++ s :: steps)) (nth j (fst q0) 0) (nth j (snd q0) 0)).
    replace (h ++ s :: steps) with ((h ++ [s]) ++ steps) by (rewrite <- app_assoc; reflexivity).
    apply IH.
    + unfold q. split; [|split]; cbn [fst snd]; [apply vector_sel; assumption|apply vector_sel; assumption|]. now apply Forall_map3.
    + apply Forall_app. split; [assumption|]. constructor; [|constructor]. now split; [|split].
    + assumption.
    + intros j J. unfold lane_history. rewrite map_app. cbn [map]. fold (lane_history j h). unfold q. cbn [fst snd].
      assert (LL : length (fst p) = v_n c /\ length (fst s) = v_n c /\ length (snd p) = v_n c /\ length (snd s) = v_n c)
        by (repeat split; try apply PV; try apply SV; try apply PX; apply SX).
      destruct LL as (L1 & L2 & L3 & L4).
      rewrite !(nth_map3 _ 0 0 false) by congruence. unfold bs. rewrite (nth_map2 _ 0 0) by congruence.
      destruct (ltb (v_type c) (nth j (fst p) 0) (nth j (fst s) 0)) eqn:E; unfold sel.
      * apply ltb_less in E. apply (first_max_new _ _ (nth j (fst p) 0) (nth j (snd p) 0)); [now apply I| |assumption].
        intros u k H. unfold lane_history in H. apply in_map_iff in H. destruct H as (r & R & RI). injection R as <- _.
        apply nth_not_nan; [|assumption]. rewrite Forall_forall in Hh. now apply Hh.
      * apply ltb_not in E. apply first_max_keep; [now apply I|assumption].
Qed.
Lemma argmax_ok c p steps : index_ok c = true -> step_ok c p -> Forall (step_ok c) steps ->
  exists x io, v_argmax c (regs_of c p) (map (regs_of c) steps) = Some (x, io) /\
  forall j, (j < v_n c)%nat -> first_max (v_type c) (lane_history j (p :: steps)) (nth j (v_store c x) 0) (nth j (x_store c io) 0).
Proof.
  intros K P S. destruct (argmax_gen c K steps p [p] P) as (q & E & Q & F).
  - now constructor.
  - assumption.
  - intros j J. apply first_max_one.
  - exists (v_load c (fst q)), (x_load c (snd q)). split; [exact E|]. intros j J.
    destruct Q as (QV & QX & QN). rewrite load_store by assumption. rewrite x_store_load by (try assumption; apply QX). now apply F.
Qed.

(** The greatest elements alone, for every class with a blendindex and whatever the index vectors. *)
Lemma max_keep e (h : list Z) v w : In v h /\ (forall u, In u h -> ~ less e v u) -> ~ less e v w ->
  In v (h ++ [w]) /\ (forall u, In u (h ++ [w]) -> ~ less e v u).
Proof.
  intros [I A] N. split; [apply in_or_app; now left|]. intros u H. apply in_app_or in H. destruct H as [H|[<-|[]]]; [now apply A|assumption].
Qed.
Lemma max_new e (h : list Z) v w : In v h /\ (forall u, In u h -> ~ less e v u) -> (forall u, In u h -> not_nan e u) -> less e v w ->
  In w (h ++ [w]) /\ (forall u, In u (h ++ [w]) -> ~ less e w u).
Proof.
  intros [I A] NN L. split; [apply in_or_app; right; now left|]. intros u H. apply in_app_or in H. destruct H as [H|[<-|[]]].
  - intros C. destruct (less_cotrans e u v w (NN u H) L) as [D|D]; [now apply (A u)|]. destruct e; cbn [less] in *; [lia|lia|]. tauto.
  - apply less_irrefl.
Qed.
Lemma argmax_values c : forall steps p h io r, (vector (v_type c) (v_n c) p /\ Forall (not_nan (v_type c)) p) ->
  Forall (fun q => vector (v_type c) (v_n c) q /\ Forall (not_nan (v_type c)) q) h ->
  Forall (fun q => vector (v_type c) (v_n c) (fst q) /\ Forall (not_nan (v_type c)) (fst q)) steps ->
  (forall j, (j < v_n c)%nat -> let l := map (fun q => nth j q 0) h in In (nth j p 0) l /\ (forall u, In u l -> ~ less (v_type c) (nth j p 0) u)) ->
  v_argmax c (v_load c p, io) (map (fun q => (v_load c (fst q), snd q)) steps) = Some r ->
  forall j, (j < v_n c)%nat -> let l := map (fun q => nth j q 0) (h ++ map fst steps) in
  In (nth j (v_store c (fst r)) 0) l /\ (forall u, In u l -> ~ less (v_type c) (nth j (v_store c (fst r)) 0) u).
Proof.
  induction steps as [|s steps IH]; intros p h io r P Hh S I E j J.
  - injection E as <-. cbn [fst map]. rewrite app_nil_r, load_store by apply P. now apply I.
  - inversion S as [|? ? S1 S2]; subst. cbn [map v_argmax] in E. unfold v_argmax_step in E.
    destruct (v_blendindex c io (snd s) _) as [io'|]; [|discriminate E].
    destruct P as (PV & PN), S1 as (SV & SN). rewrite cmplt_load in E by assumption.
    assert (LM : length (map2 (ltb (v_type c)) p (fst s)) = v_n c) by (destruct PV, SV; rewrite map2_length; congruence).
    rewrite blend_load in E by (try assumption; try apply PV; try apply SV).
    cbn [map]. replace (h ++ fst s :: map fst steps) with ((h ++ [fst s]) ++ map fst steps) by (rewrite <- app_assoc; reflexivity).
    set (bs := map2 _ _ _) in *.
    apply (IH (map3 sel p (fst s) bs) (h ++ [fst s]) io' r); try assumption.
    + split; [apply vector_sel; assumption|now apply Forall_map3].
    + apply Forall_app. split; [assumption|]. constructor; [|constructor]. now split.
    + intros i Hi. cbv zeta. rewrite map_app. cbn [map].
      assert (LL : length p = v_n c /\ length (fst s) = v_n c) by (split; [apply PV|apply SV]). destruct LL as (L1 & L2).
      rewrite (nth_map3 _ 0 0 false) by congruence. unfold bs. rewrite (nth_map2 _ 0 0) by congruence.
      destruct (ltb (v_type c) (nth i p 0) (nth i (fst s) 0)) eqn:Eb; unfold sel.
      * apply ltb_less in Eb. apply (max_new _ _ (nth i p 0)); [now apply I| |assumption].
        intros u H. apply in_map_iff in H. destruct H as (q & <- & RI). rewrite Forall_forall in Hh. destruct (Hh q RI) as ((LQ & _) & NQ).
        rewrite Forall_forall in NQ. apply NQ, nth_In. lia.
      * apply ltb_not in Eb. apply max_keep; [now apply I|assumption].
Qed.
Lemma argmax_values_ok c p steps io r : (vector (v_type c) (v_n c) p /\ Forall (not_nan (v_type c)) p) ->
  Forall (fun q => vector (v_type c) (v_n c) (fst q) /\ Forall (not_nan (v_type c)) (fst q)) steps ->
  v_argmax c (v_load c p, io) (map (fun q => (v_load c (fst q), snd q)) steps) = Some r ->
  forall j, (j < v_n c)%nat -> let l := map (fun q => nth j q 0) (p :: map fst steps) in
  In (nth j (v_store c (fst r)) 0) l /\ (forall u, In u l -> ~ less (v_type c) (nth j (v_store c (fst r)) 0) u).
Proof.
  intros P S E j J. apply (argmax_values c steps p [p] io r); try assumption.
  - now constructor.
  - intros i Hi. cbn [map]. split; [now left|]. intros u [<-|[]]. apply less_irrefl.
Qed.
