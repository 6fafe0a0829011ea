(** Properties of the table generator scripts/validsgentable.py. *)
From Coq Require Import ZArith QArith Qabs List.
From Verif Require Import Spec SpecFloat SpecPunum Punum ValidTab FloatOps PunumProof2 PositFProof4 PunumProof5 ValidProof PositF.
Import ListNotations.
Open Scope Z_scope.

(** C140. The table of an operation has, for every two exact pnums other than 0 and infinity, exactly one row, up to exchanging
    the two and negating both, and the result in every row is the pnum that contains the exact result. Missing: the rows for p
    and -p with p below 1, which the script leaves out (C140_pair_refuted); the unary operations, which raise
    (C140_unary_refuted); alphabets whose sums and products are not doubles. *)
Theorem C140_rows_partial (E : list Q) (rnd : Q -> Z) (op : Q -> Q -> Q) : well_formed E -> rounding 11 52 rnd -> in_doubles E -> op = Qplus \/ op = Qmult ->
  exists rows, vt_table E rnd op = Ret rows /\
  forall a b y, In (a, b, y) rows -> is_pnum E a /\ is_pnum E b /\ is_pnum E y /\ Z.even a = true /\ Z.even b = true /\
    exists p q, member E a (Fin p) /\ member E b (Fin q) /\ ~ (p == 0)%Q /\ ~ (q == 0)%Q /\ member E y (Fin (op p q)).
Proof. intros W R D O. destruct (table_rows E W rnd R D op O) as (rows & T & _). exists rows. exact (conj T (fun a b y => rows_right E W rnd R D op O rows a b y T)). Qed.
Print Assumptions C140_rows_partial.
Theorem C140_all_partial (E : list Q) (rnd : Q -> Z) (op : Q -> Q -> Q) (rows : list (Z * Z * Z)) (j k : Z) (p q : Q) :
  well_formed E -> rounding 11 52 rnd -> in_doubles E -> op = Qplus \/ op = Qmult -> vt_table E rnd op = Ret rows ->
  0 <= j < 4 * Z.of_nat (length E) -> 0 <= k < 4 * Z.of_nat (length E) -> point E j = Fin p -> point E k = Fin q -> ~ (p == 0)%Q -> ~ (q == 0)%Q ->
  ~ ((q == - p)%Q /\ (Qabs p < 1)%Q) ->
  exists a b y p' q', In (a, b, y) rows /\ member E a (Fin p') /\ member E b (Fin q') /\ same_pair p q p' q'.
Proof. intros W R D O. exact (rows_found E W rnd R D op O rows j k p q). Qed.
Print Assumptions C140_all_partial.
Theorem C140_once (E : list Q) (rnd : Q -> Z) (op : Q -> Q -> Q) (rows : list (Z * Z * Z)) (m m' : nat) (a b y a' b' y' : Z) (p q p' q' : Q) :
  well_formed E -> rounding 11 52 rnd -> in_doubles E -> op = Qplus \/ op = Qmult -> vt_table E rnd op = Ret rows ->
  nth_error rows m = Some (a, b, y) -> nth_error rows m' = Some (a', b', y') ->
  member E a (Fin p) -> member E b (Fin q) -> member E a' (Fin p') -> member E b' (Fin q') -> same_pair p q p' q' -> m = m'.
Proof. intros W R D O. exact (rows_once E W rnd R D op O rows m m' a b y a' b' y' p q p' q'). Qed.
Print Assumptions C140_once.
Theorem C140_count (E : list Q) (rnd : Q -> Z) (op : Q -> Q -> Q) (rows : list (Z * Z * Z)) :
  well_formed E -> rounding 11 52 rnd -> in_doubles E -> op = Qplus \/ op = Qmult -> vt_table E rnd op = Ret rows ->
  let n := Z.of_nat (length E) in Z.of_nat (length rows) = 4 * n * n - 3 * n + 1.
Proof. intros W R D O. exact (rows_length E W rnd R D op O rows). Qed.
Print Assumptions C140_count.
Theorem C140_pair_refuted (E : list Q) (rnd : Q -> Z) (op : Q -> Q -> Q) (rows : list (Z * Z * Z)) (i : nat) :
  well_formed E -> rounding 11 52 rnd -> in_doubles E -> op = Qplus \/ op = Qmult -> vt_table E rnd op = Ret rows -> (0 < i < length E)%nat ->
  let p := (/ nth i E 0)%Q in
  forall a b y p' q', In (a, b, y) rows -> member E a (Fin p') -> member E b (Fin q') -> ~ same_pair p (- p) p' q'.
Proof. intros W R D O. exact (rows_missing E W rnd R D op O rows i). Qed.
Print Assumptions C140_pair_refuted.
(** With no unary operation but "float" the script makes both tables, and the table of values of the positive exact pnums. *)
Theorem C140_main (E : list Q) (rnd : Q -> Z) (op1 : list vt_op1) : well_formed E -> rounding 11 52 rnd -> in_doubles E -> (forall o, In o op1 -> o = VFloat) ->
  exists plus times, vt_table E rnd Qplus = Ret plus /\ vt_table E rnd Qmult = Ret times /\ vt_main E rnd op1 [Qmult; Qplus] = Ret ([], [times; plus]).
Proof. exact (main_tables E rnd op1). Qed.
Print Assumptions C140_main.
Theorem C140_values (E : list Q) : well_formed E ->
  (forall v y, In (v, y) (vt_float E) -> is_pnum E v /\ Z.even v = true /\ exists q, y = Some q /\ (0 < q)%Q /\ member E v (Fin q)) /\
  (forall j p, 0 <= j < 4 * Z.of_nat (length E) -> point E j = Fin p -> (0 < p)%Q -> exists v q, In (v, Some q) (vt_float E) /\ (q == p)%Q).
Proof. intros W. exact (conj (float_right E W) (float_found E W)). Qed.
Print Assumptions C140_values.
Theorem C140_unary_refuted (E : list Q) (rnd : Q -> Z) (o : vt_op1) (op1 : list vt_op1) (op2 : list (Q -> Q -> Q)) :
  (0 < length E)%nat -> In o op1 -> o <> VFloat -> vt_main E rnd op1 op2 = Raise.
Proof. exact (unary_raises E rnd o op1 op2). Qed.
Print Assumptions C140_unary_refuted.
Example C140_case : well_formed al_p2 /\ rounding 11 52 (rne 11 52) /\ in_doubles al_p2 /\
  vt_table al_p2 (rne 11 52) Qplus = Ret [(4, 4, 6); (12, 4, 0); (4, 6, 7); (4, 10, 12); (12, 14, 11); (4, 14, 2); (6, 6, 7); (6, 10, 0); (2, 6, 7); (2, 2, 4); (6, 14, 5)] /\
  member al_p2 2 (Fin (1 # 2)) /\ member al_p2 7 (Fin (1 + 2)) /\ point al_p2 1 = Fin (/ 2) /\ point al_p2 7 = Fin (- / 2) /\ In VHalf vt_default_op1.
Proof.
  split; [exact (proj1 p2_ok)|]. split; [exact (rnek_rounding FDouble)|]. split; [exact (proj2 p2_ok)|]. split; [vm_compute; reflexivity|].
  split; [apply member_by_search; [exact (proj1 p2_ok)|vm_compute; reflexivity]|]. split; [apply member_by_search; [exact (proj1 p2_ok)|vm_compute; reflexivity]|].
  split; [vm_compute; reflexivity|]. split; [vm_compute; reflexivity|]. now left.
Qed.
