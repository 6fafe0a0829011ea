(** The generated files read back. *)
From Coq Require Import ZArith List Bool String Ascii Lia.
From Verif Require Import Res Print SpecPrint PrintProof GenText SpecGenText.
Import ListNotations.
Open Scope Z_scope.
Open Scope string_scope.

(** Characters of a literal. *)
Fixpoint plain (s : string) : Prop :=
  match s with
  | EmptyString => True
  | String a t => a <> ","%char /\ a <> "}"%char /\ plain t
  end.
Lemma read_plain b : forall s acc z, read_from b acc s = Some z -> plain s.
Proof.
  induction s as [|a s IH]; intros acc z H; [exact I|]. cbn [read_from] in H. cbn [plain].
  destruct (digit_of a) as [d|] eqn:D; [|discriminate]. destruct (d <? b)%Z; [|discriminate]. split; [|split; [|exact (IH _ _ H)]].
  - intros ->. discriminate.
  - intros ->. discriminate.
Qed.
Lemma read_head b s acc z : read_from b acc s = Some z -> match s with String "-" _ => False | _ => True end.
Proof.
  destruct s as [|a t]; [trivial|]. cbn [read_from]. intros H. destruct (digit_of a) as [d|] eqn:D; [|discriminate].
  destruct (Ascii.eqb_spec a "-") as [->|N]; [discriminate|]. destruct a as [[] [] [] [] [] [] [] []]; try exact I. apply N. reflexivity.
Qed.
Lemma read_int_pos s z : s <> "" -> read_from 10 0 s = Some z -> read_int s = Some z.
Proof.
  intros N H. pose proof (read_head _ _ _ _ H) as P. destruct s as [|a t]; [destruct N; reflexivity|].
  unfold read_int. destruct a as [[] [] [] [] [] [] [] []]; try exact H. destruct P.
Qed.
Lemma signed_read s z : signed_numeral s z -> read_int s = Some z /\ plain s.
Proof.
  intros [(P & N & H)|(P & t & -> & N & H)].
  - split; [apply read_int_pos; assumption|exact (read_plain _ _ _ _ H)].
  - split.
    + unfold read_int. destruct t as [|a t]; [destruct N; reflexivity|]. rewrite H. f_equal. lia.
    + cbn [plain]. split; [discriminate|]. split; [discriminate|]. exact (read_plain _ _ _ _ H).
Qed.
Lemma decimal_read z : read_int (decimal z) = Some z /\ plain (decimal z).
Proof. apply signed_read. apply decimal_numeral. Qed.

Lemma entries_tok t : forall s tok, plain s -> read_entries tok (s ++ String "," t) =
  match read_int (tok ++ s), read_entries "" t with Some z, Some (l, r) => Some (z :: l, r) | _, _ => None end.
Proof.
  induction s as [|a s IH]; intros tok P.
  - cbn [append read_entries]. rewrite app_nil_s. reflexivity.
  - destruct P as (A & B & P). cbn [append read_entries]. destruct (Ascii.eqb_spec a ",") as [->|_]; [destruct A; reflexivity|].
    destruct (Ascii.eqb_spec a "}") as [->|_]; [destruct B; reflexivity|]. rewrite (IH _ P), app_assoc_s. reflexivity.
Qed.
Lemma entries_back l t : read_entries "" (g_entries l ++ String "}" t) = Some (l, t).
Proof.
  induction l as [|z l IH]; [reflexivity|]. cbn [g_entries]. destruct (decimal_read z) as (R & P).
  rewrite app_assoc_s. cbn [append]. rewrite entries_tok by exact P. cbn [append]. rewrite R, IH. reflexivity.
Qed.
(** Entries start with no blank. *)
Lemma entries_no_blanks l t : no_blanks (g_entries l ++ String "}" t) = g_entries l ++ String "}" t.
Proof.
  destruct l as [|z l]; [reflexivity|]. cbn [g_entries]. destruct (decimal_read z) as (R & _). destruct (decimal z) as [|a s]; [discriminate|].
  cbn [append no_blanks]. destruct (Ascii.eqb_spec a " ") as [->|_]; [discriminate|]. destruct (Ascii.eqb_spec a "010") as [->|_]; [discriminate|]. reflexivity.
Qed.

Lemma after_app p s : after p (p ++ s) = Some s.
Proof. induction p as [|a p IH]; [reflexivity|]. cbn [append after]. rewrite Ascii.eqb_refl. exact IH. Qed.
Lemma upto_app a s t : upto_char a s = None -> upto_char a (s ++ String a t) = Some (s, t).
Proof.
  induction s as [|b s IH]; intros H.
  - cbn [append upto_char]. rewrite Ascii.eqb_refl. reflexivity.
  - cbn [append upto_char] in H |- *. destruct (Ascii.eqb a b); [discriminate|]. destruct (upto_char a s) as [[u v]|]; [discriminate|]. rewrite IH; reflexivity.
Qed.

(** Names: no blank, bracket or newline in them. *)
Definition name_ok (s : string) : Prop := upto_char " " s = None /\ upto_char "[" s = None /\
  match s with EmptyString => False | String a _ => a <> " "%char /\ a <> "010"%char /\ a <> "}"%char end.
Definition named (a : g_array) : Prop := name_ok (ga_type a) /\ name_ok (ga_name a).
Definition array_text (a : g_array) (l : list Z) : string := ga_type a ++ " " ++ ga_name a ++ "[] = {" ++ nl ++ g_entries l ++ "};".

Lemma array_back a l t : named a -> read_array (array_text a l ++ t) = Some (ga_type a, ga_name a, l, t).
Proof.
  intros ((T1 & _ & _) & (_ & T2 & _)). unfold array_text, read_array. rewrite !app_assoc_s. cbn [append]. rewrite (upto_app " ") by exact T1.
  rewrite (upto_app "[") by exact T2. cbn [after Ascii.eqb Bool.eqb nl append no_blanks orb].
  rewrite entries_no_blanks, entries_back. reflexivity.
Qed.
Lemma array_start a l t : named a -> no_blanks (array_text a l ++ t) = array_text a l ++ t /\ after "}" (array_text a l ++ t) = None.
Proof.
  intros ((_ & _ & H) & _). unfold array_text. destruct (ga_type a) as [|b s]; [destruct H|]. destruct H as (A & B & C). cbn [append no_blanks after].
  destruct (Ascii.eqb_spec b " "); [contradiction|]. destruct (Ascii.eqb_spec b "010"); [contradiction|]. cbn [orb]. split; [reflexivity|].
  destruct (Ascii.eqb_spec "}" b) as [E|_]; [destruct C; symmetry; exact E|]. reflexivity.
Qed.
Lemma blanks_skip s : no_blanks (String " " (nl ++ s)) = no_blanks s. Proof. reflexivity. Qed.

Lemma array_text_ok a t : g_array_text a = Ok t -> exists l, g_read (ga_at a) 0 (Z.to_nat (ga_size a)) = Ok l /\ t = array_text a l.
Proof.
  unfold g_array_text. destruct (g_read _ _ _) as [l|]; cbn [bind]; [|discriminate]. intros H. injection H as <-. exists l. split; reflexivity.
Qed.

Definition reads_as (a : g_array) (x : string * string * list Z) : Prop :=
  exists l, g_read (ga_at a) 0 (Z.to_nat (ga_size a)) = Ok l /\ x = (ga_type a, ga_name a, l).
Lemma arrays_back : forall l t, l <> nil -> Forall named l -> g_arrays_text l = Ok t ->
  exists T, Forall2 reads_as l T /\ (List.length l < String.length t)%nat /\
  (forall n s, no_blanks s = no_blanks t -> (List.length l < n)%nat -> read_arrays n s = Some T).
Proof.
  induction l as [|a l IH]; intros t N F H; [destruct N; reflexivity|]. clear N. inversion F as [|? ? Fa Fl]; subst. clear F. cbn [g_arrays_text] in H.
  destruct (g_array_text a) as [ta|] eqn:A; cbn [bind] in H; [|discriminate]. destruct (g_arrays_text l) as [u|] eqn:U; cbn [bind] in H; [|discriminate]. injection H as <-.
  destruct (array_text_ok a ta A) as (zs & R & ->). destruct l as [|b l].
  - injection U as <-. exists [(ga_type a, ga_name a, zs)]. split; [constructor; [exists zs; split; [exact R|reflexivity]|constructor]|]. split.
    + unfold array_text. destruct (proj1 Fa) as (_ & _ & P). destruct (ga_type a); [destruct P|]. cbn [append String.length List.length].
      rewrite app_assoc_s. cbn [append]. destruct s; cbn [append String.length]; lia.
    + intros n s S L. change (no_blanks s = no_blanks (array_text a zs ++ "}" ++ " " ++ nl ++ "")) in S. destruct n as [|n]; [lia|]. cbn [List.length] in L. cbn [read_arrays]. rewrite S.
      destruct (array_start a zs ("}" ++ " " ++ nl ++ "") Fa) as (E1 & E2). rewrite E1, E2, (array_back a zs _ Fa).
      destruct n as [|n]; [lia|]. reflexivity.
  - destruct (IH u ltac:(discriminate) Fl eq_refl) as (T & F2 & LT & K). exists ((ga_type a, ga_name a, zs) :: T).
    split; [constructor; [exists zs; split; [exact R|reflexivity]|exact F2]|]. split.
    + assert (LA : forall x y, String.length (x ++ y) = (String.length x + String.length y)%nat) by (induction x as [|? x IHx]; intros y; [reflexivity|]; cbn [append String.length]; rewrite IHx; lia).
      rewrite !LA. cbn [String.length List.length nl] in *. lia.
    + intros n s S L. change (no_blanks s = no_blanks (array_text a zs ++ "" ++ " " ++ nl ++ u)) in S. destruct n as [|n]; [lia|]. cbn [List.length] in L. cbn [read_arrays]. rewrite S.
      destruct (array_start a zs ("" ++ " " ++ nl ++ u) Fa) as (E1 & E2). rewrite E1, E2, (array_back a zs _ Fa).
      rewrite (K n); [reflexivity| |cbn [List.length]; lia]. reflexivity.
Qed.

Lemma file_back ns tn l t : l <> nil -> upto_char " " ns = None -> one_line tn -> Forall named l -> g_file_text ns tn l = Ok t ->
  exists T, Forall2 reads_as l T /\ read_file t = Some (ns, T).
Proof.
  intros N NS L F H. unfold g_file_text in H. destruct (g_arrays_text l) as [u|] eqn:U; cbn [bind] in H; [|discriminate]. injection H as <-.
  destruct (arrays_back l u N F U) as (T & F2 & LT & K). exists T. split; [exact F2|]. unfold read_file, include_line.
  cbn [nl append no_blanks orb Ascii.eqb Bool.eqb after]. rewrite (upto_app " ") by exact NS.
  cbn [nl append no_blanks orb Ascii.eqb Bool.eqb after]. change (String "010" u) with (nl ++ u).
  assert (E : forall p, upto_char "010" p = None -> upto_char "010" (p ++ tn ++ nl ++ u) = Some (p ++ tn, u)).
  { intros p P. rewrite <- app_assoc_s. apply (upto_app "010"). induction p as [|a p IH]; [exact L|]. cbn [append upto_char] in P |- *.
    destruct (Ascii.eqb "010" a); [discriminate|]. destruct (upto_char "010" p) as [[? ?]|]; [discriminate|]. rewrite IH; reflexivity. }
  specialize (E " type is " eq_refl). cbn [append nl] in E |- *. rewrite E. rewrite (K (String.length u) u eq_refl LT). reflexivity.
Qed.

(** What the program reads out of an array. *)
Lemma read_ok a : forall n i l, g_read a i n = Ok l -> List.length l = n /\ forall k, (k < n)%nat -> a (i + Z.of_nat k) = Ok (nth k l 0).
Proof.
  induction n as [|n IH]; intros i l H; cbn [g_read] in H; [injection H as <-; split; [reflexivity|]; intros; lia|].
  destruct (a i) as [x|] eqn:A; cbn [bind] in H; [|discriminate]. destruct (g_read a (i + 1) n) as [r|] eqn:R; cbn [bind] in H; [|discriminate]. injection H as <-.
  destruct (IH _ _ R) as (L & K). split; [cbn [List.length]; lia|]. intros [|k] Hk.
  - rewrite Z.add_0_r. exact A.
  - cbn [nth]. rewrite <- K by lia. f_equal. lia.
Qed.
Lemma read_total a : forall n i, (forall k, i <= k < i + Z.of_nat n -> exists z, a k = Ok z) -> exists l, g_read a i n = Ok l.
Proof.
  induction n as [|n IH]; intros i H; [exists nil; reflexivity|]. cbn [g_read]. destruct (H i ltac:(lia)) as (z & ->). cbn [bind].
  destruct (IH (i + 1)) as (l & ->); [intros k K; apply H; lia|]. eexists. reflexivity.
Qed.

Definition sound (a : g_array) : Prop := 0 <= ga_size a /\ forall i, 0 <= i < ga_size a -> exists z, ga_at a i = Ok z /\ c_fits (ga_type a) z.
Lemma arrays_total l : Forall sound l -> exists t, g_arrays_text l = Ok t.
Proof.
  induction l as [|a l IH]; intros F; [exists ""; reflexivity|]. inversion F as [|? ? Fa Fl]; subst. destruct Fa as (P & S). cbn [g_arrays_text].
  assert (exists t, g_array_text a = Ok t) as (t & ->).
  { unfold g_array_text. destruct (read_total (ga_at a) (Z.to_nat (ga_size a)) 0) as (zs & ->); [|eexists; reflexivity].
    intros k K. destruct (S k ltac:(lia)) as (z & Z1 & _). exists z. exact Z1. }
  destruct (IH Fl) as (u & ->). eexists. reflexivity.
Qed.
Lemma named_in l T a : NoDup (map ga_name l) -> Forall2 reads_as l T -> In a l -> sound a -> defines T (ga_type a) (ga_name a) (ga_size a) (ga_at a).
Proof.
  intros ND F IA (P & S). assert (X : exists zs, g_read (ga_at a) 0 (Z.to_nat (ga_size a)) = Ok zs /\ In (ga_type a, ga_name a, zs) T).
  { clear ND. induction F as [|b x l T (zs & R & ->) F IH]; [destruct IA|]. destruct IA as [->|IA]; [exists zs; split; [exact R|left; reflexivity]|].
    destruct (IH IA) as (z & Z1 & Z2). exists z. split; [exact Z1|right; exact Z2]. }
  destruct X as (zs & R & I). exists zs. split; [exact I|].
  assert (NT : forall ty ty' n z z', In (ty, n, z) T -> In (ty', n, z') T -> ty' = ty /\ z' = z).
  { assert (NM : map ga_name l = map (fun x : string * string * list Z => snd (fst x)) T).
    { clear - F. induction F as [|b x l T (zs & R & ->) F IH]; [reflexivity|]. cbn [map fst snd]. rewrite IH. reflexivity. }
    rewrite NM in ND. clear - ND. induction T as [|((t0, n0), z0) T IH]; intros ty ty' n z z' A B; [destruct A|]. cbn [map fst snd] in ND. inversion ND as [|? ? N0 N1]; subst.
    assert (O : forall t z, In (t, n0, z) T -> False) by (intros t w W; apply N0; apply (in_map (fun x : string * string * list Z => snd (fst x)) T (t, n0, w) W)).
    destruct A as [A|A], B as [B|B].
    - injection A as <- <- <-. injection B as <- <-. split; reflexivity.
    - injection A as <- <- <-. destruct (O _ _ B).
    - injection B as <- <- <-. destruct (O _ _ A).
    - exact (IH N1 _ _ _ _ _ A B). }
  split; [intros ty' zs' B; exact (NT _ _ _ _ _ I B)|]. destruct (read_ok _ _ _ _ R) as (L & K). rewrite L, Z2Nat.id by exact P. split; [reflexivity|]. split.
  - apply Forall_forall. intros z Hz. apply (In_nth _ _ 0) in Hz. destruct Hz as (k & Hk & <-). rewrite L in Hk. specialize (K k Hk).
    destruct (S (Z.of_nat k) ltac:(lia)) as (z & Z1 & Z2). change (0 + Z.of_nat k) with (Z.of_nat k) in K. rewrite K in Z1. injection Z1 as ->. exact Z2.
  - intros i Hi. rewrite <- K by lia. f_equal. lia.
Qed.
Lemma file_total ns tn l : l <> nil -> upto_char " " ns = None -> one_line tn -> Forall named l -> NoDup (map ga_name l) -> Forall sound l ->
  exists t T, g_file_text ns tn l = Ok t /\ read_file t = Some (ns, T) /\ List.length T = List.length l /\
  (forall a, In a l -> defines T (ga_type a) (ga_name a) (ga_size a) (ga_at a)).
Proof.
  intros N NS L F ND S. destruct (arrays_total l S) as (u & U). assert (G : exists t, g_file_text ns tn l = Ok t) by (unfold g_file_text; rewrite U; eexists; reflexivity).
  destruct G as (t & G). destruct (file_back ns tn l t N NS L F G) as (T & F2 & R). exists t, T. split; [exact G|]. split; [exact R|].
  split; [clear - F2; induction F2 as [|? ? ? ? ? ? IH]; [reflexivity|]; cbn [List.length]; rewrite IH; reflexivity|]. intros a IA. apply (named_in l T a ND F2 IA). rewrite Forall_forall in S. apply S. exact IA.
Qed.
