(** Every entry of the tables exists and is a value of its type; the four files. *)
From Coq Require Import ZArith QArith List Bool String Ascii Lia.
From Verif Require Import Res CInt Traits Unpacked Cfg Posit Spec SpecTab SpecFloat SpecAny SpecGen SpecBin8 FloatOps PositF AnyFloat Tab Gen Bin8 Print GenText SpecGenText QPow Core SpecLemmas Arith DecodeProof EncodeProof
  UOps UAdd Ops OpsAdd OpsUnary OpsUnary2 Specials Room Laws Configs Final1 Final2 Final3 GenProof GenProof2 GenProof3 GenProof4 GenProof5 GenProof6 Bin8Proof Bin8Proof2 GenTextProof.
Import ListNotations.
Open Scope Z_scope.

Section entries.
Context (c : cfg) (T : tabbed c) (F : cF c <= 22) (rnd : Q -> Z) (RN : rounding 8 23 rnd) (ex : Z -> Z) (EX : exp2_float 8 23 ex).
Let V := tb_valid c T.
Notation good o := (exists r, o = Ok r /\ pattern c r).

Lemma tz_pat x r : rounds_tz c x r -> pattern c r.
Proof using T. intros H. apply (real_pat c T). pose proof V as V'. vcb V'. exact (rounds_tz_real c BN Bes x r H). Qed.
Lemma reads_pat b : 0 <= b < 2 ^ (8 + 23 + 1) -> good (p_of_float c single_trait b).
Proof using T F.
  intros B. pose proof (entry_reads c T F b B) as H. destruct (ieee_val 8 23 b) as [q|s|] eqn:I.
  - cbn zeta in H. destruct H as (H1 & H2). destruct (Qlt_le_dec (Qabs.Qabs q) (pow2 (2 - 2 ^ (8 - 1) - cF c))) as [L|L].
    + exists 0. split; [exact (H1 L)|]. apply (pattern_range c 0). destruct (twoN c T) as (_ & P & _). lia.
    + destruct (H2 L) as (r & O & R). exists r. split; [exact O|exact (tz_pat q r R)].
  - exists (exceptional c). split; [exact H|exact (exc_pat c T)].
  - exists (exceptional c). split; [exact H|exact (exc_pat c T)].
Qed.
Lemma float_any v : pattern c v -> exists b, g_float c v = Ok b /\ 0 <= b < 2 ^ (8 + 23 + 1).
Proof using T.
  intros P. destruct (split_pattern c T v P) as [R| ->].
  - destruct (float_real c T v R) as (b & x & O & B & _). exists b. auto.
  - destruct (float_nan c T) as (b & O & B & _). exists b. auto.
Qed.
Lemma exp2_any v : pattern c v -> good (g_exp2 c ex v).
Proof using T F EX. intros P. destruct (float_any v P) as (b & O & B). unfold g_exp2. rewrite O. cbn [bind]. apply reads_pat. exact (e2_range _ _ _ EX b B). Qed.
Lemma square_any v : pattern c v -> good (g_square c rnd v).
Proof using T RN.
  intros P. destruct (split_pattern c T v P) as [R| ->].
  - destruct (entry_square c T rnd RN v R) as (r & O & H). exists r. split; [exact O|exact (tz_pat _ r H)].
  - exists (exceptional c). split; [exact (proj1 (entry_nan c T rnd))|exact (exc_pat c T)].
Qed.
Lemma half_any v : pattern c v -> good (g_half c rnd v).
Proof using T RN.
  intros P. destruct (split_pattern c T v P) as [R| ->].
  - destruct (entry_half c T rnd RN v R) as (r & O & H). exists r. split; [exact O|exact (tz_pat _ r H)].
  - exists (exceptional c). split; [exact (proj2 (entry_nan c T rnd))|exact (exc_pat c T)].
Qed.
Lemma inv_any v : good (p_inv c 0) -> good (p_inv c (exceptional c)) -> pattern c v -> good (g_inv c v).
Proof using T.
  intros I0 IE P. unfold g_inv. destruct (split_pattern c T v P) as [R| ->]; [|exact IE].
  destruct (Z.eq_dec v 0) as [->|NZ]; [exact I0|].
  destruct (inv_total c v V (tb_exp c T) (tb_mf c T) (tb_roomy c T) R NZ) as (r & O & H & _); [intros (E & _); pose proof (tb_sp c T) as S; rewrite E in S; discriminate|].
  exists r. split; [exact O|exact (tz_pat _ r H)].
Qed.
Lemma add_any a b : pattern c a -> pattern c b -> good (g_pair c (f_add 8 23 rnd) a b).
Proof using T RN.
  intros A B. destruct (split_pattern c T a A) as [RA|EA]; [destruct (split_pattern c T b B) as [RB|EB]|].
  - destruct (pair_add c T rnd RN a b RA RB) as (r & O & H & _). exists r. split; [exact O|]. apply (real_pat c T). apply H.
  - exists (exceptional c). split; [apply (pair_nan c T rnd a b A B); right; exact EB|exact (exc_pat c T)].
  - exists (exceptional c). split; [apply (pair_nan c T rnd a b A B); left; exact EA|exact (exc_pat c T)].
Qed.
Lemma mul_any a b : pattern c a -> pattern c b -> good (g_pair c (f_mul 8 23 rnd) a b).
Proof using T RN.
  intros A B. destruct (split_pattern c T a A) as [RA|EA]; [destruct (split_pattern c T b B) as [RB|EB]|].
  - destruct (pair_mul c T rnd RN a b RA RB) as (r & O & H). exists r. split; [exact O|]. exact (tz_pat _ r H).
  - exists (exceptional c). split; [apply (pair_nan c T rnd a b A B); right; exact EB|exact (exc_pat c T)].
  - exists (exceptional c). split; [apply (pair_nan c T rnd a b A B); left; exact EA|exact (exc_pat c T)].
Qed.
Lemma div_any a b : pattern c a -> pattern c b -> good (g_pair c (f_div 8 23 rnd) a b).
Proof using T RN.
  intros A B. destruct (split_pattern c T a A) as [RA|EA]; [destruct (split_pattern c T b B) as [RB|EB]|].
  - destruct (Z.eq_dec b 0) as [->|NZ]; [exists (exceptional c); split; [apply (pair_div_zero c T rnd a A)|exact (exc_pat c T)]|].
    destruct (pair_div c T rnd RN a b RA RB NZ) as (r & O & H). exists r. split; [exact O|]. exact (tz_pat _ r H).
  - exists (exceptional c). split; [apply (pair_nan c T rnd a b A B); right; exact EB|exact (exc_pat c T)].
  - exists (exceptional c). split; [apply (pair_nan c T rnd a b A B); left; exact EA|exact (exc_pat c T)].
Qed.

Context (ty : string) (FIT : forall r, pattern c r -> c_fits ty r).
Lemma sound1 name f : (forall v, pattern c v -> good (f v)) -> sound (GArr ty name (2 ^ cN c) (g_fill (g_index c) f (g_loop c) g_new)).
Proof using T FIT.
  clear F. intros H. destruct (twoN c T) as (A & P & _). split; cbn [ga_size ga_at ga_type]; [lia|]. intros i I. destruct (index_onto c T i I) as (s & S & <-).
  rewrite (fill1 c T f s S). destruct (H s S) as (r & O & R). exists r. split; [exact O|exact (FIT r R)].
Qed.
Lemma sound2 name op : (forall a b, pattern c a -> pattern c b -> good (g_pair c op a b)) -> sound (GArr ty name (2 ^ cN c * 2 ^ cN c) (g_pairs c op)).
Proof using T FIT.
  clear F. intros H. destruct (twoN c T) as (A & P & _). split; cbn [ga_size ga_at ga_type]; [nia|]. intros i I. destruct (pair_index c T i I) as (s & t & S & R & <-).
  rewrite (pairs_at c T op s t S R). destruct (H s t S R) as (r & O & R'). exists r. split; [exact O|exact (FIT r R')].
Qed.
Lemma soundf name : sound (GArr "uint32_t" name (2 ^ cN c) (g_op2float c)).
Proof using T.
  clear F. destruct (twoN c T) as (A & P & _). split; cbn [ga_size ga_at ga_type]; [lia|]. intros i I. destruct (index_onto c T i I) as (s & S & <-).
  unfold g_op2float. rewrite (fill1 c T _ s S). destruct (float_any s S) as (b & O & B). exists b. split; [exact O|]. right. right. left. split; [reflexivity|exact B].
Qed.
End entries.

Ltac one := match goal with
  | |- Forall _ nil => apply Forall_nil
  | |- Forall _ (_ :: _) => apply Forall_cons
  end.
Ltac names_tac := repeat constructor; cbn; intuition discriminate.
Lemma fit8 r : pattern p8 r -> c_fits "int8_t" r.
Proof. intros P. pose proof (proj1 (pattern_range p8 r) P) as P1. clear P. rename P1 into P. change (2 ^ (cN p8 - 1)) with 128 in P. left. split; [reflexivity|lia]. Qed.
Lemma fit10 r : pattern t10 r -> c_fits "int16_t" r.
Proof. intros P. pose proof (proj1 (pattern_range t10 r) P) as P1. clear P. rename P1 into P. change (2 ^ (cN t10 - 1)) with 512 in P. right. left. split; [reflexivity|lia]. Qed.
Lemma fit12 r : pattern p12 r -> c_fits "int16_t" r.
Proof. intros P. pose proof (proj1 (pattern_range p12 r) P) as P1. clear P. rename P1 into P. change (2 ^ (cN p12 - 1)) with 2048 in P. right. left. split; [reflexivity|lia]. Qed.

Section files.
Context (tn : string) (TN : one_line tn) (rnd : Q -> Z) (RN : rounding 8 23 rnd) (ex : Z -> Z) (EX : exp2_float 8 23 ex).
Notation file o ns l := (exists t TT, o = Ok t /\ read_file t = Some (ns%string, TT) /\ List.length TT = List.length l /\
  (forall a, In a l -> defines TT (ga_type a) (ga_name a) (ga_size a) (ga_at a))).

Lemma inv0 c : c = p8 \/ c = t10 \/ c = p12 -> (exists r, p_inv c 0 = Ok r /\ pattern c r) /\ (exists r, p_inv c (exceptional c) = Ok r /\ pattern c r).
Proof using.
  intros [->|[->| ->]]; (split; eexists; (split; [vm_compute; reflexivity|])); apply pattern_range; vm_compute; split; congruence.
Qed.
Ltac arr c T fit := match goal with
  | |- sound (GArr _ _ _ (g_op2float _)) => exact (soundf c T _)
  | |- sound (GArr _ _ _ (g_opadd _ _)) => exact (sound2 c T _ fit _ _ (add_any c T rnd RN))
  | |- sound (GArr _ _ _ (g_opmul _ _)) => exact (sound2 c T _ fit _ _ (mul_any c T rnd RN))
  | |- sound (GArr _ _ _ (g_opdiv _ _)) => exact (sound2 c T _ fit _ _ (div_any c T rnd RN))
  | |- sound (GArr _ _ _ (g_opsquare _ _)) => exact (sound1 c T _ fit _ _ (square_any c T rnd RN))
  | |- sound (GArr _ _ _ (g_ophalf _ _)) => exact (sound1 c T _ fit _ _ (half_any c T rnd RN))
  | |- sound (GArr _ _ _ (g_opexp2 _ _)) => refine (sound1 c T _ fit _ _ (exp2_any c T _ ex EX)); vm_compute; discriminate
  | |- sound (GArr _ _ _ (g_opinv _)) => refine (sound1 c T _ fit _ _ (fun v => inv_any c T v _ _)); apply inv0; auto
  end.
Lemma posit8_file : file (posit8_gen tn rnd ex) "posit8ns" (posit8_arrays rnd ex).
Proof using TN RN EX.
  unfold posit8_gen, posit8_arrays.
  apply file_total; [discriminate|reflexivity|exact TN|names_tac|names_tac|].
  change (256 * 256) with (2 ^ cN p8 * 2 ^ cN p8). change 256 with (2 ^ cN p8). repeat one; arr p8 tab_p8 fit8.
Qed.
Lemma posit10_file : file (posit10_gen tn rnd ex) "posit10ns" (posit10_arrays rnd ex).
Proof using TN RN EX.
  unfold posit10_gen, posit10_arrays.
  apply file_total; [discriminate|reflexivity|exact TN|names_tac|names_tac|].
  change (1024 * 1024) with (2 ^ cN t10 * 2 ^ cN t10). change 1024 with (2 ^ cN t10). repeat one; arr t10 tab_t10 fit10.
Qed.
Lemma posit12_file : file (posit12_gen tn rnd ex) "posit12ns" (posit12_arrays rnd ex).
Proof using TN RN EX.
  unfold posit12_gen, posit12_arrays.
  apply file_total; [discriminate|reflexivity|exact TN|names_tac|names_tac|].
  change 4096 with (2 ^ cN p12). repeat one; arr p12 tab_p12 fit12.
Qed.
End files.

(** binary8 *)
Definition b8_of (i : Z) : Z := if i <? 128 then i else i - 256.
Lemma b8_of_ok i : 0 <= i < 256 -> is_b8 (b8_of i) /\ b8_uu (b8_of i) = i.
Proof.
  intros I. unfold b8_of, b8_uu, is_b8. rewrite b8_cast. destruct (Z.ltb_spec i 128).
  - split; [lia|]. apply Z.mod_small. lia.
  - split; [lia|]. rewrite <- (Z_mod_plus_full (i - 256) 1 256), Z.mul_1_l, Z.sub_add. apply Z.mod_small. lia.
Qed.
Lemma b8_fit r : is_b8 r -> c_fits "int8_t" r.
Proof. intros H. left. split; [reflexivity|exact H]. Qed.
Lemma get_in n a i : 0 <= i < n -> g_get n a i = a i.
Proof. intros I. unfold g_get. destruct (Z.ltb_spec i 0); [lia|]. destruct (Z.leb_spec n i); [lia|]. reflexivity. Qed.
Lemma b8_sound1 name a : (forall v, is_b8 v -> exists r, g_get 256 a (b8_uu v) = Ok r /\ is_b8 r) -> sound (GArr "int8_t" name 256 a).
Proof.
  intros H. split; cbn [ga_size ga_at ga_type]; [lia|]. intros i I. destruct (b8_of_ok i I) as (B & E). destruct (H _ B) as (r & O & R).
  rewrite E, get_in in O by exact I. exists r. split; [exact O|exact (b8_fit r R)].
Qed.
Lemma b8_sound2 name a : (forall v w, is_b8 v -> is_b8 w -> exists r, g_get (256 * 256) a (b8_uu v * 256 + b8_uu w) = Ok r /\ is_b8 r) -> sound (GArr "int8_t" name (256 * 256) a).
Proof.
  intros H. split; cbn [ga_size ga_at ga_type]; [lia|]. intros i I.
  assert (I1 : 0 <= i / 256 < 256) by (split; [apply Z.div_pos; lia|apply Z.div_lt_upper_bound; lia]).
  pose proof (Z.mod_pos_bound i 256 ltac:(lia)) as I2. pose proof (Z.div_mod i 256 ltac:(lia)) as D.
  destruct (b8_of_ok _ I1) as (B1 & E1). destruct (b8_of_ok _ I2) as (B2 & E2). destruct (H _ _ B1 B2) as (r & O & R).
  rewrite E1, E2 in O. replace (i / 256 * 256 + i mod 256) with i in O by lia. rewrite get_in in O by exact I. exists r. split; [exact O|exact (b8_fit r R)].
Qed.
Lemma b8_soundf name : sound (GArr "uint32_t" name 256 b8_op2float).
Proof.
  split; cbn [ga_size ga_at ga_type]; [lia|]. intros i I. destruct (b8_of_ok i I) as (B & E). destruct (b8_to_float_ok _ B) as (x & O & R & _).
  unfold b8_to_float in O. rewrite E, get_in in O by exact I. exists x. split; [exact O|]. right. right. left. split; [reflexivity|exact R].
Qed.
Lemma binary8_file tn rnd ex : one_line tn -> rounding 8 23 rnd -> exp2_float 8 23 ex -> 
  exists t TT, binary8_gen tn rnd ex = Ok t /\ read_file t = Some ("binary8ns"%string, TT) /\ List.length TT = List.length (binary8_arrays rnd ex) /\
  (forall a, In a (binary8_arrays rnd ex) -> defines TT (ga_type a) (ga_name a) (ga_size a) (ga_at a)).
Proof.
  intros TN RN EX. unfold binary8_gen, binary8_arrays.
  apply file_total; [discriminate|reflexivity|exact TN|names_tac|names_tac|]. repeat one.
  - apply b8_sound2. intros v w Hv Hw. destruct (b8_add_ok rnd RN v w Hv Hw) as (r & O & B & _). exists r. split; [exact O|exact B].
  - apply b8_sound2. intros v w Hv Hw. destruct (b8_mul_ok rnd RN v w Hv Hw) as (r & O & B & _). exists r. split; [exact O|exact B].
  - apply b8_sound2. intros v w Hv Hw. destruct (b8_div_ok rnd RN v w Hv Hw) as (r & O & B & _). exists r. split; [exact O|exact B].
  - apply b8_sound1. intros v Hv. destruct (b8_inv_ok rnd RN v Hv) as (r & O & B & _). exists r. split; [exact O|exact B].
  - apply b8_sound1. intros v Hv. destruct (b8_square_ok rnd RN v Hv) as (r & O & B & _). exists r. split; [exact O|exact B].
  - apply b8_sound1. intros v Hv. destruct (b8_val v) as [x|s|] eqn:E; [destruct (b8_exp2_ok ex EX v x Hv E) as (r & O & B & _)| |];
      [exists r; split; [exact O|exact B]|destruct (b8_exp2_special ex EX v Hv ltac:(rewrite E; discriminate)) as (r & O & B & _); exists r; split; [exact O|exact B]..].
  - apply b8_sound1. intros v Hv. destruct (b8_half_ok rnd RN v Hv) as (r & O & B & _). exists r. split; [exact O|exact B].
  - apply b8_soundf.
Qed.

Lemma defines_ext T ty name n a b : (forall i, 0 <= i < n -> a i = b i) -> defines T ty name n a -> defines T ty name n b.
Proof. intros H (zs & A & B & L & F & E). exists zs. split; [exact A|]. split; [exact B|]. split; [exact L|]. split; [exact F|]. intros i I. rewrite <- H by exact I. exact (E i I). Qed.

Section final.
Context (tn : string) (rnd : Q -> Z) (ex : Z -> Z) (TN : one_line tn) (RN : rounding 8 23 rnd) (EX : exp2_float 8 23 ex).
Open Scope string_scope.
Lemma posit8_reads : exists text l, posit8_gen tn rnd ex = Ok text /\ read_file text = Some ("posit8ns", l) /\ Datatypes.length l = 8%nat /\
  defines l "int8_t" "opadd" 65536 (g_opadd p8 rnd) /\ defines l "int8_t" "opmul" 65536 (g_opmul p8 rnd) /\ defines l "int8_t" "opdiv" 65536 (g_opdiv p8 rnd) /\
  defines l "int8_t" "opinv" 256 (g_opinv p8) /\ defines l "int8_t" "opsquare" 256 (g_opsquare p8 rnd) /\ defines l "int8_t" "opexp2" 256 (g_opexp2 p8 ex) /\
  defines l "int8_t" "ophalf" 256 (g_ophalf p8 rnd) /\ defines l "uint32_t" "op2float" 256 (g_op2float p8).
Proof using TN RN EX.
  destruct (posit8_file tn TN rnd RN ex EX) as (t & T & G & R & L & H). exists t, T. split; [exact G|]. split; [exact R|]. split; [exact L|]. unfold posit8_arrays in H.
  split; [exact (H _ (or_introl eq_refl))|].
  split; [exact (H _ (or_intror (or_introl eq_refl)))|].
  split; [exact (H _ (or_intror (or_intror (or_introl eq_refl))))|].
  split; [exact (H _ (or_intror (or_intror (or_intror (or_introl eq_refl)))))|].
  split; [exact (H _ (or_intror (or_intror (or_intror (or_intror (or_introl eq_refl))))))|].
  split; [exact (H _ (or_intror (or_intror (or_intror (or_intror (or_intror (or_introl eq_refl)))))))|].
  split; [exact (H _ (or_intror (or_intror (or_intror (or_intror (or_intror (or_intror (or_introl eq_refl))))))))|].
  exact (H _ (or_intror (or_intror (or_intror (or_intror (or_intror (or_intror (or_intror (or_introl eq_refl))))))))).
Qed.
Lemma posit10_reads : exists text l, posit10_gen tn rnd ex = Ok text /\ read_file text = Some ("posit10ns", l) /\ Datatypes.length l = 8%nat /\
  defines l "int16_t" "opadd" 1048576 (g_opadd t10 rnd) /\ defines l "int16_t" "opmul" 1048576 (g_opmul t10 rnd) /\ defines l "int16_t" "opdiv" 1048576 (g_opdiv t10 rnd) /\
  defines l "int16_t" "opinv" 1024 (g_opinv t10) /\ defines l "int16_t" "opsquare" 1024 (g_opsquare t10 rnd) /\ defines l "int16_t" "opexp2" 1024 (g_opexp2 t10 ex) /\
  defines l "int16_t" "ophalf" 1024 (g_ophalf t10 rnd) /\ defines l "uint32_t" "op2float" 1024 (g_op2float t10).
Proof using TN RN EX.
  destruct (posit10_file tn TN rnd RN ex EX) as (t & T & G & R & L & H). exists t, T. split; [exact G|]. split; [exact R|]. split; [exact L|]. unfold posit10_arrays in H.
  split; [exact (H _ (or_intror (or_introl eq_refl)))|].
  split; [exact (H _ (or_introl eq_refl))|].
  split; [exact (H _ (or_intror (or_intror (or_introl eq_refl))))|].
  split; [exact (H _ (or_intror (or_intror (or_intror (or_introl eq_refl)))))|].
  split; [exact (H _ (or_intror (or_intror (or_intror (or_intror (or_intror (or_introl eq_refl)))))))|].
  split; [exact (H _ (or_intror (or_intror (or_intror (or_intror (or_intror (or_intror (or_introl eq_refl))))))))|].
  split; [exact (H _ (or_intror (or_intror (or_intror (or_intror (or_introl eq_refl))))))|].
  exact (H _ (or_intror (or_intror (or_intror (or_intror (or_intror (or_intror (or_intror (or_introl eq_refl))))))))).
Qed.
Lemma posit12_reads : exists text l, posit12_gen tn rnd ex = Ok text /\ read_file text = Some ("posit12ns", l) /\ Datatypes.length l = 4%nat /\
  defines l "int16_t" "opinv" 4096 (g_opinv p12) /\ defines l "int16_t" "opsquare" 4096 (g_opsquare p12 rnd) /\ defines l "int16_t" "opexp2" 4096 (g_opexp2 p12 ex) /\
  defines l "uint32_t" "op2float" 4096 (g_op2float p12).
Proof using TN RN EX.
  destruct (posit12_file tn TN rnd RN ex EX) as (t & T & G & R & L & H). exists t, T. split; [exact G|]. split; [exact R|]. split; [exact L|]. unfold posit12_arrays in H.
  split; [exact (H _ (or_introl eq_refl))|].
  split; [exact (H _ (or_intror (or_introl eq_refl)))|].
  split; [exact (H _ (or_intror (or_intror (or_introl eq_refl))))|].
  exact (H _ (or_intror (or_intror (or_intror (or_introl eq_refl))))).
Qed.
Lemma binary8_reads : exists text l, binary8_gen tn rnd ex = Ok text /\ read_file text = Some ("binary8ns", l) /\ Datatypes.length l = 8%nat /\
  defines l "int8_t" "opadd" 65536 (b8_opadd rnd) /\ defines l "int8_t" "opmul" 65536 (b8_opmul rnd) /\ defines l "int8_t" "opdiv" 65536 (b8_opdiv rnd) /\
  defines l "int8_t" "opinv" 256 (b8_opinv rnd) /\ defines l "int8_t" "opsquare" 256 (b8_opsquare rnd) /\ defines l "int8_t" "opexp2" 256 (b8_opexp2 ex) /\
  defines l "int8_t" "ophalf" 256 (b8_ophalf rnd) /\ defines l "uint32_t" "op2float" 256 b8_op2float.
Proof using TN RN EX.
  destruct (binary8_file tn rnd ex TN RN EX) as (t & T & G & R & L & H). exists t, T. split; [exact G|]. split; [exact R|]. split; [exact L|]. unfold binary8_arrays in H.
  split; [exact (H _ (or_introl eq_refl))|].
  split; [exact (H _ (or_intror (or_introl eq_refl)))|].
  split; [exact (H _ (or_intror (or_intror (or_introl eq_refl))))|].
  split; [exact (H _ (or_intror (or_intror (or_intror (or_introl eq_refl)))))|].
  split; [exact (H _ (or_intror (or_intror (or_intror (or_intror (or_introl eq_refl))))))|].
  split; [exact (H _ (or_intror (or_intror (or_intror (or_intror (or_intror (or_introl eq_refl)))))))|].
  split; [exact (H _ (or_intror (or_intror (or_intror (or_intror (or_intror (or_intror (or_introl eq_refl))))))))|].
  exact (H _ (or_intror (or_intror (or_intror (or_intror (or_intror (or_intror (or_intror (or_introl eq_refl))))))))).
Qed.
Lemma posit8_shipped : exists text l, posit8_gen tn rnd ex = Ok text /\ read_file text = Some ("posit8ns", l) /\
  defines l "int8_t" "opadd" 65536 (s8_entry Tbl8.opadd_rows) /\ defines l "int8_t" "opmul" 65536 (s8_entry Tbl8.opmul_rows) /\ defines l "int8_t" "opdiv" 65536 (s8_entry Tbl8.opdiv_rows) /\
  defines l "int8_t" "opinv" 256 (s8_entry Tbl8.opinv_rows) /\ defines l "int8_t" "opsquare" 256 (s8_entry Tbl8.opsquare_rows) /\ defines l "int8_t" "opexp2" 256 (s8_entry Tbl8.opexp2_rows) /\
  defines l "int8_t" "ophalf" 256 (s8_entry Tbl8.ophalf_rows) /\ defines l "uint32_t" "op2float" 256 s8_op2float.
Proof using TN RN EX.
  destruct posit8_reads as (t & T & G & R & _ & H1 & H2 & H3 & H4 & H5 & H6 & H7 & H8). exists t, T. split; [exact G|]. split; [exact R|].
  split; [refine (defines_ext _ _ _ _ _ _ (fun i I => _) H1); apply (gen8_pairs rnd RN i I)|].
  split; [refine (defines_ext _ _ _ _ _ _ (fun i I => _) H2); apply (gen8_pairs rnd RN i I)|].
  split; [refine (defines_ext _ _ _ _ _ _ (fun i I => _) H3); apply (gen8_pairs rnd RN i I)|].
  split; [refine (defines_ext _ _ _ _ _ _ (fun i I => _) H4); apply (gen8_unary rnd RN i I)|].
  split; [refine (defines_ext _ _ _ _ _ _ (fun i I => _) H5); apply (gen8_unary rnd RN i I)|].
  split; [refine (defines_ext _ _ _ _ _ _ (fun i I => _) H6); apply (gen8_exp2 ex EX i I)|].
  split; [refine (defines_ext _ _ _ _ _ _ (fun i I => _) H7); apply (gen8_unary rnd RN i I)|].
  refine (defines_ext _ _ _ _ _ _ (fun i I => _) H8); apply (gen8_unary rnd RN i I).
Qed.
Lemma posit12_shipped : exists text l, posit12_gen tn rnd ex = Ok text /\ read_file text = Some ("posit12ns", l) /\
  defines l "int16_t" "opinv" 4096 (s12_entry Tbl12.opinv_rows) /\ defines l "int16_t" "opsquare" 4096 (s12_entry Tbl12.opsquare_rows) /\ defines l "uint32_t" "op2float" 4096 s12_op2float.
Proof using TN RN EX.
  destruct posit12_reads as (t & T & G & R & _ & H1 & H2 & H3 & H4). exists t, T. split; [exact G|]. split; [exact R|].
  split; [refine (defines_ext _ _ _ _ _ _ (fun i I => _) H1); apply (gen12_unary rnd RN i I)|].
  split; [refine (defines_ext _ _ _ _ _ _ (fun i I => _) H2); apply (gen12_unary rnd RN i I)|].
  refine (defines_ext _ _ _ _ _ _ (fun i I => _) H4); apply (gen12_unary rnd RN i I).
Qed.
End final.
