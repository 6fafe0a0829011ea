(** Properties C120 to C126: projective unums of scripts/punum.py. Throughout, [E] is a well-formed alphabet of n fractions
    (SpecPunum.v), pnums are numbered 0 to 8n-1 counterclockwise from 0, and [4 * n] is infinity. *)
From Coq Require Import ZArith QArith Qabs Bool List Lia Lqa.
From Verif Require Import Spec SpecFloat SpecPunum Punum PunumProof PunumProof2 PunumProof3 PunumProof4 PunumProof5.
From Verif Require Import FloatOps AnyFloat PositF PositFProof4.
Import ListNotations.
Open Scope Z_scope.

(** C120. The constructor accepts exactly the well-formed alphabets, which have a power of two many pnums, eight for every
    fraction. The alphabets p1, p2, p4 and p8 are among them. Missing from the full claim: every alphabet the class offers
    can be made; p8a cannot, its numbers are not in order. *)
Theorem C120_alphabet (E : list Q) :
  (well_formed E -> alphabet E = Ret E) /\ (~ well_formed E -> alphabet E = Raise).
Proof. exact (alphabet_ok E). Qed.
Print Assumptions C120_alphabet.
Theorem C120_count (E : list Q) : well_formed E -> pn_n2 E = 8 * Z.of_nat (length E) /\ exists k : nat, pn_n2 E = 2 ^ Z.of_nat (k + 3).
Proof. exact (count E). Qed.
Print Assumptions C120_count.
Theorem C120_named_partial (E : list Q) : E = al_p1 \/ E = al_p2 \/ E = al_p4 \/ E = al_p8 -> alphabet E = Ret E /\ well_formed E /\ in_doubles E.
Proof. exact (named_ok E). Qed.
Print Assumptions C120_named_partial.
Theorem C120_p8a_refuted : alphabet al_p8a = Raise /\ ~ well_formed al_p8a.
Proof. exact p8a_raises. Qed.
Print Assumptions C120_p8a_refuted.
Example C120_case : well_formed al_p4 /\ pn_n2 al_p4 = 32 /\ ~ well_formed [1; 2; 4]%Q /\ alphabet [1; 2; 4]%Q = Raise.
Proof.
  split; [apply (named_ok al_p4); unfold named; auto|]. split; [vm_compute; reflexivity|]. assert (A : alphabet [1; 2; 4]%Q = Raise) by (vm_compute; reflexivity). split; [|exact A].
  intros W. rewrite (proj1 (alphabet_ok _) W) in A. discriminate.
Qed.

(** C121. Every number and infinity are in exactly one pnum. *)
Theorem C121_partition (E : list Q) (x : pr) : well_formed E -> exists v, is_pnum E v /\ member E v x /\ forall w, is_pnum E w -> member E w x -> w = v.
Proof. intros W. exact (partition E W x). Qed.
Print Assumptions C121_partition.
Example C121_case : well_formed al_p4 /\ member al_p4 3 (Fin (3 # 16)) /\ is_pnum al_p4 3 /\ member al_p4 16 Inf.
Proof.
  assert (W : well_formed al_p4) by (apply (named_ok al_p4); unfold named; auto). split; [exact W|]. split; [apply member_by_search; [exact W|vm_compute; reflexivity]|].
  split; [unfold is_pnum; cbn; lia|]. apply (inf_member_only al_p4 W). reflexivity.
Qed.

(** C122. Conversion of a float gives the pnum it is in; NaN raises. A fraction or integer that is a double gives the pnum it
    is in. Missing from the full claim: other fractions, which are rounded to a double first; they get the pnum of that double,
    which can be another one. *)
Theorem C122_float (E : list Q) (rnd : Q -> Z) (e : ieee) : well_formed E ->
  match e with
  | NaNVal => pn_convert E rnd (PFlt e) = Raise
  | FinVal q => exists v, pn_convert E rnd (PFlt e) = Ret v /\ is_pnum E v /\ member E v (Fin q)
  | InfVal _ => exists v, pn_convert E rnd (PFlt e) = Ret v /\ is_pnum E v /\ member E v Inf
  end.
Proof. intros W. exact (convert_float E W rnd e). Qed.
Print Assumptions C122_float.
Theorem C122_fraction_partial (E : list Q) (rnd : Q -> Z) (q : Q) : well_formed E -> rounding 11 52 rnd -> is_float 11 52 q ->
  exists v, pn_convert E rnd (PRat q) = Ret v /\ is_pnum E v /\ member E v (Fin q).
Proof. intros W. exact (convert_rational E W rnd q). Qed.
Print Assumptions C122_fraction_partial.
Theorem C122_rounded_partial (E : list Q) (rnd : Q -> Z) (q : Q) : well_formed E ->
  match ieee_val 11 52 (rnd q) with
  | FinVal y => exists v, pn_convert E rnd (PRat q) = Ret v /\ is_pnum E v /\ member E v (Fin y)
  | _ => pn_convert E rnd (PRat q) = Raise
  end.
Proof. intros W. exact (convert_near E W rnd q). Qed.
Print Assumptions C122_rounded_partial.
Theorem C122_fraction_refuted : well_formed [1; 3]%Q /\ rounding 11 52 (rne 11 52) /\
  exists v, pn_convert [1; 3]%Q (rne 11 52) (PRat (1 # 3)) = Ret v /\ ~ member [1; 3]%Q v (Fin (1 # 3)).
Proof. exact (conj al_13_ok (conj (rnek_rounding FDouble) convert_third)). Qed.
Print Assumptions C122_fraction_refuted.
Example C122_case : rounding 11 52 (rne 11 52) /\ is_float 11 52 3 /\ pn_convert al_p4 (rne 11 52) (PRat 3) = Ret 11 /\
  pn_convert al_p4 (rne 11 52) (PFlt (FinVal (- (1 # 8)))) = Ret 30 /\ pn_convert al_p4 (rne 11 52) (PFlt (FinVal 100)) = Ret 15.
Proof.
  split; [exact (rnek_rounding FDouble)|]. split; [|vm_compute; repeat split; reflexivity].
  exists 0x4008000000000000. eexists. split; [lia|]. split; [vm_compute; reflexivity|]. reflexivity.
Qed.

(** C123. Unary operations: the negative and the reciprocal of a pnum hold the negatives and reciprocals of its members, and
    undo themselves; next and prev are inverse and next is above; the predicates, abs and exactvalue say of the pnum what they
    should of each of its members. *)
Theorem C123_neg (E : list Q) (v : Z) (x : pr) : well_formed E -> is_pnum E v ->
  is_pnum E (pn_neg E v) /\ pn_neg E (pn_neg E v) = v /\ (member E (pn_neg E v) x <-> member E v (pr_opp x)).
Proof. intros W. exact (neg_ok E W v x). Qed.
Print Assumptions C123_neg.
Theorem C123_inv (E : list Q) (v : Z) (x : pr) : well_formed E -> is_pnum E v ->
  is_pnum E (pn_inv E v) /\ pn_inv E (pn_inv E v) = v /\ (member E (pn_inv E v) x <-> member E v (pr_inv x)).
Proof. intros W. exact (inv_ok E W v x). Qed.
Print Assumptions C123_inv.
Theorem C123_next (E : list Q) (v : Z) : well_formed E -> is_pnum E v ->
  is_pnum E (pn_next E v) /\ is_pnum E (pn_prev E v) /\ pn_prev E (pn_next E v) = v /\ pn_next E (pn_prev E v) = v.
Proof. intros W. exact (next_prev E W v). Qed.
Print Assumptions C123_next.
Theorem C123_next_above (E : list Q) (v : Z) (p q : Q) : well_formed E -> is_pnum E v -> member E v (Fin p) -> member E (pn_next E v) (Fin q) -> (p < q)%Q.
Proof. intros W. exact (next_above E W v p q). Qed.
Print Assumptions C123_next_above.
Theorem C123_exact (E : list Q) (v : Z) (x : pr) : well_formed E -> is_pnum E v -> member E v x ->
  (pn_isexact v = true <-> forall y, member E v y -> pr_eq y x).
Proof. intros W. exact (exact_ok E W v x). Qed.
Print Assumptions C123_exact.
Theorem C123_zero_inf (E : list Q) (v : Z) (x : pr) : well_formed E -> is_pnum E v -> member E v x ->
  (pn_iszero v = true <-> pr_eq x (Fin 0)) /\ (pn_isinf E v = true <-> x = Inf).
Proof. intros W. exact (zero_inf_ok E W v x). Qed.
Print Assumptions C123_zero_inf.
Theorem C123_negative (E : list Q) (v : Z) (x : pr) : well_formed E -> is_pnum E v -> member E v x ->
  (pn_isstrictlynegative E v = true <-> exists q, x = Fin q /\ (q < 0)%Q).
Proof. intros W. exact (negative_ok E W v x). Qed.
Print Assumptions C123_negative.
Theorem C123_fractional (E : list Q) (v : Z) (x : pr) : well_formed E -> is_pnum E v -> member E v x ->
  (pn_isfractional E v = true <-> exists q, x = Fin q /\ (0 < Qabs q)%Q /\ (Qabs q < 1)%Q).
Proof. intros W. exact (fractional_ok E W v x). Qed.
Print Assumptions C123_fractional.
Theorem C123_abs (E : list Q) (v : Z) (x : pr) : well_formed E -> is_pnum E v -> member E v x ->
  is_pnum E (pn_abs E v) /\ member E (pn_abs E v) (match x with Fin q => Fin (Qabs q) | Inf => Inf end).
Proof. intros W. exact (abs_ok E W v x). Qed.
Print Assumptions C123_abs.
Theorem C123_value (E : list Q) (v : Z) (x : pr) : well_formed E -> is_pnum E v -> member E v x -> pn_isexact v = true ->
  match pn_exactvalue E v with Some q => pr_eq x (Fin q) | None => x = Inf end.
Proof. intros W. exact (value_exact E W v x). Qed.
Print Assumptions C123_value.
Example C123_case : well_formed al_p4 /\ is_pnum al_p4 25 /\ member al_p4 25 (Fin (- (3 # 4))) /\ is_pnum al_p4 26 /\ member al_p4 26 (Fin (- (1 # 2))) /\
  pn_isexact 26 = true /\ pn_exactvalue al_p4 26 = Some (- (1 # 2))%Q /\ pn_neg al_p4 25 = 7 /\ pn_inv al_p4 25 = 23 /\ pn_isfractional al_p4 25 = true /\ pn_next al_p4 25 = 26.
Proof.
  assert (W : well_formed al_p4) by (apply (named_ok al_p4); unfold named; auto). split; [exact W|]. split; [unfold is_pnum; cbn; lia|]. split; [apply member_by_search; [exact W|vm_compute; reflexivity]|].
  split; [unfold is_pnum; cbn; lia|]. split; [apply member_by_search; [exact W|vm_compute; reflexivity]|]. vm_compute. repeat split; reflexivity.
Qed.

(** C124. A sum or difference of pnums holds every sum or difference of their members, where sums of two points are doubles;
    of exact pnums it is one pnum. Missing from the full claim: the sum of the two unbounded pnums, from which most sums are
    missing; and nothing else is in the result, which is false as its last pnum can be one too far up. *)
Theorem C124_plus_partial (E : list Q) (rnd : Q -> Z) (a b : Z) : well_formed E -> rounding 11 52 rnd -> in_doubles E -> is_pnum E a -> is_pnum E b ->
  let n := Z.of_nat (length E) in ~ (a = 4 * n - 1 /\ b = 4 * n + 1 \/ a = 4 * n + 1 /\ b = 4 * n - 1) ->
  exists r, pn_plus E rnd a b = Ret r /\ forall x y z, member E a x -> member E b y -> sum_of x y z -> in_result E r z.
Proof. intros W RN D. exact (plus_ok E W rnd RN D a b). Qed.
Print Assumptions C124_plus_partial.
Theorem C124_minus_partial (E : list Q) (rnd : Q -> Z) (a b : Z) : well_formed E -> rounding 11 52 rnd -> in_doubles E -> is_pnum E a -> is_pnum E b ->
  let n := Z.of_nat (length E) in ~ (a = b /\ (a = 4 * n - 1 \/ a = 4 * n + 1)) ->
  exists r, pn_minus E rnd a b = Ret r /\ forall x y z, member E a x -> member E b y -> sum_of x (pr_opp y) z -> in_result E r z.
Proof. intros W RN D. exact (minus_ok E W rnd RN D a b). Qed.
Print Assumptions C124_minus_partial.
Theorem C124_exact (E : list Q) (rnd : Q -> Z) (a b : Z) (p q : Q) : well_formed E -> rounding 11 52 rnd -> in_doubles E -> is_pnum E a -> is_pnum E b ->
  pn_isexact a = true -> pn_isexact b = true -> member E a (Fin p) -> member E b (Fin q) ->
  exists v, (pn_plus E rnd a b = Ret (inl v) \/ pn_plus E rnd a b = Ret (inr (PBound false v v))) /\ is_pnum E v /\ member E v (Fin (p + q)).
Proof. intros W RN D. exact (plus_exact E W rnd RN D a b p q). Qed.
Print Assumptions C124_exact.
Theorem C124_unbounded_refuted (E : list Q) (rnd : Q -> Z) : well_formed E -> let n := Z.of_nat (length E) in
  member E (4 * n - 1) (Fin (nth (length E - 1) E 0%Q + 1)) /\ member E (4 * n + 1) (Fin (- (nth (length E - 1) E 0%Q + 1))) /\
  exists r, pn_plus E rnd (4 * n - 1) (4 * n + 1) = Ret r /\ ~ in_result E r (Fin 0).
Proof. exact (plus_misses E rnd). Qed.
Print Assumptions C124_unbounded_refuted.
Theorem C124_tight_refuted : exists a b f l v, is_pnum al_p2 a /\ is_pnum al_p2 b /\ pn_plus al_p2 (rne 11 52) a b = Ret (inr (PBound false f l)) /\
  on_arc al_p2 f l v /\ forall x y z, member al_p2 a x -> member al_p2 b y -> sum_of x y z -> ~ member al_p2 v z.
Proof. exact plus_loose. Qed.
Print Assumptions C124_tight_refuted.
Example C124_case : well_formed al_p4 /\ rounding 11 52 (rne 11 52) /\ in_doubles al_p4 /\ is_pnum al_p4 9 /\ is_pnum al_p4 25 /\
  member al_p4 9 (Fin (3 # 2)) /\ member al_p4 25 (Fin (- (3 # 4))) /\ ~ (9 = 4 * 4 - 1 /\ 25 = 4 * 4 + 1 \/ 9 = 4 * 4 + 1 /\ 25 = 4 * 4 - 1) /\
  pn_plus al_p4 (rne 11 52) 9 25 = Ret (inr (PBound false 1 9)) /\ pn_plus al_p4 (rne 11 52) 8 10 = Ret (inr (PBound false 11 11)).
Proof.
  destruct (named_ok al_p4) as (_ & W & D); [unfold named; auto|]. split; [exact W|]. split; [exact (rnek_rounding FDouble)|]. split; [exact D|]. split; [unfold is_pnum; cbn; lia|]. split; [unfold is_pnum; cbn; lia|].
  split; [apply member_by_search; [exact W|vm_compute; reflexivity]|]. split; [apply member_by_search; [exact W|vm_compute; reflexivity]|]. split; [lia|]. vm_compute. split; reflexivity.
Qed.

(** C125. A product of pnums holds every product of their members, where products of two points are doubles; of exact pnums it
    is one pnum. Missing from the full claim: pnums of different signs that are not both exact, whose products are missed; and
    alphabets with products that are not doubles, with which even products of exact pnums are. *)
Theorem C125_times_partial (E : list Q) (rnd : Q -> Z) (a b : Z) : well_formed E -> rounding 11 52 rnd -> in_doubles E -> is_pnum E a -> is_pnum E b ->
  let n := Z.of_nat (length E) in
  (pn_isexact a = true /\ pn_isexact b = true \/ (a < 4 * n <-> b < 4 * n) \/ a = 0 \/ b = 0 \/ a = 4 * n \/ b = 4 * n) ->
  exists r, pn_times E rnd a b = Ret r /\ forall x y z, member E a x -> member E b y -> product_of x y z -> in_bound E r z.
Proof. intros W RN D. exact (times_ok E W rnd RN D a b). Qed.
Print Assumptions C125_times_partial.
Theorem C125_exact (E : list Q) (rnd : Q -> Z) (a b : Z) (p q : Q) : well_formed E -> rounding 11 52 rnd -> in_doubles E -> is_pnum E a -> is_pnum E b ->
  pn_isexact a = true -> pn_isexact b = true -> member E a (Fin p) -> member E b (Fin q) ->
  exists v, pn_times E rnd a b = Ret (PBound false v v) /\ is_pnum E v /\ member E v (Fin (p * q)).
Proof. intros W RN D. exact (times_exact E W rnd RN D a b p q). Qed.
Print Assumptions C125_exact.
Theorem C125_signs_refuted : exists a b x y r, is_pnum al_p2 a /\ is_pnum al_p2 b /\ member al_p2 a (Fin x) /\ member al_p2 b (Fin y) /\
  pn_times al_p2 (rne 11 52) a b = Ret r /\ ~ in_bound al_p2 r (Fin (x * y)).
Proof. exact times_misses. Qed.
Print Assumptions C125_signs_refuted.
Theorem C125_fractions_refuted : well_formed [1; 3]%Q /\ exists r, pn_isexact 2 = true /\ pn_isexact 4 = true /\
  member [1; 3]%Q 2 (Fin (1 # 3)) /\ member [1; 3]%Q 4 (Fin 1) /\ pn_times [1; 3]%Q (rne 11 52) 2 4 = Ret r /\ ~ in_bound [1; 3]%Q r (Fin ((1 # 3) * 1)).
Proof. exact (conj al_13_ok times_third). Qed.
Print Assumptions C125_fractions_refuted.
Example C125_case : well_formed al_p4 /\ rounding 11 52 (rne 11 52) /\ in_doubles al_p4 /\ is_pnum al_p4 9 /\ is_pnum al_p4 6 /\
  member al_p4 9 (Fin (3 # 2)) /\ member al_p4 6 (Fin (1 # 2)) /\ (9 < 4 * 4 <-> 6 < 4 * 4) /\
  pn_times al_p4 (rne 11 52) 9 6 = Ret (PBound false 7 9) /\ pn_times al_p4 (rne 11 52) 28 10 = Ret (PBound false 26 26).
Proof.
  destruct (named_ok al_p4) as (_ & W & D); [unfold named; auto|]. split; [exact W|]. split; [exact (rnek_rounding FDouble)|]. split; [exact D|]. split; [unfold is_pnum; cbn; lia|]. split; [unfold is_pnum; cbn; lia|].
  split; [apply member_by_search; [exact W|vm_compute; reflexivity]|]. split; [apply member_by_search; [exact W|vm_compute; reflexivity]|]. split; [lia|]. vm_compute. split; reflexivity.
Qed.

(** C126. Bounds: the named ones hold what their names say; the complement holds exactly what the bound does not; the
    reciprocal of a nonempty bound holds the reciprocals; iter gives exactly its pnums, once each, in order from the first to
    the last. Missing from the full claim: the complement of a bound that is everything, which is everything again, as
    iseverything is never true; and the reciprocal of the empty bound, which holds infinity. *)
Theorem C126_named (E : list Q) (v : Z) (x : pr) : well_formed E -> is_pnum E v ->
  in_bound E (pb_everything E) x /\ ~ in_bound E pb_empty x /\ (in_bound E (pb_finite E) x <-> x <> Inf) /\
  (in_bound E (pb_nonzero E) x <-> ~ pr_eq x (Fin 0)) /\ (in_bound E (pb_one_of v) x <-> member E v x).
Proof. intros W V. exact (conj (everything_ok E W x) (conj (empty_ok E x) (conj (finite_ok E W x) (conj (nonzero_ok E W x) (one_of_ok E W v x V))))). Qed.
Print Assumptions C126_named.
Theorem C126_everything (E : list Q) (f l : Z) : well_formed E -> is_pnum E f -> is_pnum E l -> (forall x, in_bound E (PBound false f l) x) <-> pn_next E l = f.
Proof. intros W. exact (everything_bound E W f l). Qed.
Print Assumptions C126_everything.
Theorem C126_complement_partial (E : list Q) (f l : Z) (x : pr) : well_formed E -> is_pnum E f -> is_pnum E l ->
  (pn_next E l <> f -> (in_bound E (pb_complement E (PBound false f l)) x <-> ~ in_bound E (PBound false f l) x)) /\
  in_bound E (pb_complement E (PBound true f l)) x.
Proof. intros W F L. exact (conj (complement_ok E W f l x F L) (complement_empty E W f l x)). Qed.
Print Assumptions C126_complement_partial.
Theorem C126_invert_partial (E : list Q) (f l : Z) (x : pr) : well_formed E -> is_pnum E f -> is_pnum E l ->
  in_bound E (pb_invert E (PBound false f l)) x <-> in_bound E (PBound false f l) (pr_inv x).
Proof. intros W. exact (invert_ok E W f l x). Qed.
Print Assumptions C126_invert_partial.
Theorem C126_iter (E : list Q) (f l : Z) : well_formed E -> is_pnum E f -> is_pnum E l ->
  NoDup (pb_iter E (PBound false f l)) /\ (forall v, In v (pb_iter E (PBound false f l)) <-> on_arc E f l v) /\
  (forall i u w, nth_error (pb_iter E (PBound false f l)) i = Some u -> nth_error (pb_iter E (PBound false f l)) (S i) = Some w -> w = pn_next E u) /\
  hd_error (pb_iter E (PBound false f l)) = Some f /\ pb_iter E (PBound true f l) = [].
Proof. intros W. exact (iter_ordered E W f l). Qed.
Print Assumptions C126_iter.
Theorem C126_complement_refuted (E : list Q) (f l : Z) (x : pr) : well_formed E -> is_pnum E f -> is_pnum E l -> pn_next E l = f ->
  in_bound E (PBound false f l) x /\ in_bound E (pb_complement E (PBound false f l)) x.
Proof. intros W. exact (complement_everything E W f l x). Qed.
Print Assumptions C126_complement_refuted.
Theorem C126_invert_refuted (E : list Q) : well_formed E -> exists x, in_bound E (pb_invert E pb_empty) x /\ ~ in_bound E pb_empty (pr_inv x).
Proof. exact (invert_empty E). Qed.
Print Assumptions C126_invert_refuted.
Example C126_case : well_formed al_p2 /\ is_pnum al_p2 7 /\ is_pnum al_p2 10 /\ pn_next al_p2 10 <> 7 /\ pb_complement al_p2 (PBound false 7 10) = PBound false 11 6 /\
  pb_invert al_p2 (PBound false 7 10) = PBound false 14 1 /\ pb_iter al_p2 (PBound false 14 1) = [14; 15; 0; 1] /\ pn_next al_p2 15 = 0.
Proof.
  split; [exact (proj1 p2_ok)|]. split; [unfold is_pnum; cbn; lia|]. split; [unfold is_pnum; cbn; lia|]. split; [vm_compute; discriminate|]. vm_compute. repeat split; reflexivity.
Qed.
