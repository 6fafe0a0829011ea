(** Arithmetic on full unpacked values (Unpacked<FT,ET>): what +, *, /, inv compute. *)
From Coq Require Import ZArith QArith Lia Lqa Bool List.
From Verif Require Import Res CInt Bits Traits Unpacked Cfg Spec QPow Core Arith.
Open Scope Z_scope.

Lemma pE_arith E z : is_width E -> - 2 ^ (E - 1) <= z < 2 ^ (E - 1) -> arith (pE E) z = Ok z.
Proof. intros W Z. pose proof (pw_ge_w E W). apply arith_ps; [assumption|lia]. Qed.

Lemma pF_arith F z : is_width F -> 0 <= z < 2 ^ F -> arith (pF F) z = Ok z.
Proof.
  intros W Z. unfold pF, arith.
  destruct W as [->|[->|[->| ->]]]; cbn [prom uint iw isg c_int sint Z.ltb Z.compare Pos.compare Pos.compare_cont].
  - change (arith c_int z = Ok z). apply arith_s; [lia|]. change (2 ^ (32 - 1)) with 2147483648. change (2 ^ 8) with 256 in Z. lia.
  - change (arith c_int z = Ok z). apply arith_s; [lia|]. change (2 ^ (32 - 1)) with 2147483648. change (2 ^ 16) with 65536 in Z. lia.
  - f_equal. unfold wrapu. apply Z.mod_small. assumption.
  - f_equal. unfold wrapu. apply Z.mod_small. assumption.
Qed.

Lemma pN_arith F z : is_width F -> 0 <= z < 2 ^ (2 * F) -> arith (pN F) z = Ok z.
Proof.
  intros W Z. unfold pN, arith.
  destruct W as [->|[->|[->| ->]]]; cbn [prom uint iw isg c_int sint Z.mul Pos.mul Z.ltb Z.compare Pos.compare Pos.compare_cont].
  - change (arith c_int z = Ok z). apply arith_s; [lia|]. change (2 ^ (32 - 1)) with 2147483648. change (2 ^ (2 * 8)) with 65536 in Z. lia.
  - f_equal. unfold wrapu. apply Z.mod_small. assumption.
  - f_equal. unfold wrapu. apply Z.mod_small. assumption.
  - f_equal. unfold wrapu. apply Z.mod_small. assumption.
Qed.

Lemma iw_pN F : is_width F -> 2 * F <= iw (pN F).
Proof. intros [->|[->|[->| ->]]]; cbn; lia. Qed.

Lemma pN_shl F a n : is_width F -> 0 <= a -> 0 <= n < 2 * F -> a * 2 ^ n < 2 ^ (2 * F) ->
  cshl (pN F) a n = Ok (a * 2 ^ n).
Proof.
  intros W A Hn B. pose proof (iw_pN F W) as I. pow_pos 2 n.
  unfold cshl. destruct (Z.ltb_spec n 0); [lia|]. destruct (Z.leb_spec (iw (pN F)) n); [lia|]. cbn [orb].
  pose proof (Z.mul_nonneg_nonneg a (2 ^ n) A ltac:(lia)) as AN.
  assert (C : isg (pN F) = true /\ iw (pN F) = 32 /\ F = 8 \/ isg (pN F) = false /\ iw (pN F) = 2 * F).
  { destruct W as [->|[->|[->| ->]]]; cbn; auto. }
  destruct C as [[-> [-> ->]]|[-> ->]].
  - destruct (Z.ltb_spec a 0); [lia|]. change (2 ^ (2 * 8)) with 65536 in B.
    destruct (Z.leb_spec (2 ^ 32) (a * 2 ^ n)) as [L|L]; [change (2 ^ 32) with 4294967296 in L; lia|].
    f_equal. apply wraps_small; [lia|]. change (2 ^ (32 - 1)) with 2147483648. lia.
  - f_equal. unfold wrapu. apply Z.mod_small. lia.
Qed.

Lemma pF_shr F a n : is_width F -> 0 <= n < pw F -> cshr (pF F) a n = Ok (a / 2 ^ n).
Proof. intros W H. apply cshr_ok. unfold pF. rewrite iw_prom_uint by assumption. assumption. Qed.

Lemma pN_shr F a n : is_width F -> 0 <= n < 2 * F -> cshr (pN F) a n = Ok (a / 2 ^ n).
Proof. intros W H. apply cshr_ok. pose proof (iw_pN F W). lia. Qed.

(** The significand with its hidden bit restored in the top bit of FT. *)
Lemma hidden F f : is_width F -> 0 <= f < 2 ^ F ->
  cast (uint F) (cor (FT_leftmost_bit F) (f / 2 ^ 1)) = 2 ^ (F - 1) + f / 2 /\
  0 <= f / 2 < 2 ^ (F - 1).
Proof.
  intros W H. pose proof (is_width_pos F W).
  assert (E : 2 ^ F = 2 * 2 ^ (F - 1)) by (replace F with ((F - 1) + 1) at 1 by lia; apply pow2_S; lia).
  change (2 ^ 1) with 2.
  assert (B : 0 <= f / 2 < 2 ^ (F - 1)).
  { split; [apply Z.div_pos; lia|apply Z.div_lt_upper_bound; lia]. }
  split; [|assumption].
  unfold cor, FT_leftmost_bit. rewrite <- (Z.mul_1_l (2 ^ (F - 1))), Z.lor_comm.
  rewrite lor_add by lia. rewrite cast_u_small by lia. lia.
Qed.

(** Magnitude denoted by exponent [e] and fraction [f]. *)
Definition uabs (F e f : Z) : Q := dy (2 ^ F + f) (e - F).

(** [x] lies in the cell of width 2^j units above (e,f). *)
Definition cell (F e f j : Z) (x : Q) : Prop :=
  0 <= f < 2 ^ F /\ 0 <= j /\ f mod 2 ^ j = 0 /\
  (uabs F e f <= x)%Q /\ (x < dy (2 ^ F + f + 2 ^ j) (e - F))%Q.

Lemma u_mul_spec F E na nb ea eb fa fb : is_width F -> is_width E ->
  0 <= fa < 2 ^ F -> 0 <= fb < 2 ^ F ->
  - 2 ^ (E - 1) <= ea + eb -> ea + eb + 1 < 2 ^ (E - 1) ->
  exists e f j,
    u_mul F E (U Regular na ea fa) (U Regular nb eb fb) = Ok (U Regular (xorb na nb) e f) /\
    1 <= j <= 2 /\ ea + eb <= e <= ea + eb + 1 /\
    cell F e f j (dy (2 ^ F + 2 * (fa / 2)) (ea - F) * dy (2 ^ F + 2 * (fb / 2)) (eb - F)).
Proof.
  intros WF WE Ha Hb E1 E2. pose proof (is_width_pos F WF) as BF. pose proof (is_width_pos E WE) as BE.
  destruct (hidden F fa WF Ha) as [A1 A2]. destruct (hidden F fb WF Hb) as [B1 B2].
  unfold u_mul. cbn [u_isNaN utype_eqb utyp orb uneg uexp ufrac].
  rewrite !pF_shr by (try assumption; unfold pw; lia). cbn [bind].
  rewrite A1, B1. clear A1 B1.
  assert (EF : 2 ^ F = 2 * 2 ^ (F - 1)) by (replace F with ((F - 1) + 1) at 1 by lia; apply pow2_S; lia).
  assert (EF2 : 2 ^ (F - 1) = 2 * 2 ^ (F - 2)) by (replace (F - 1) with ((F - 2) + 1) by lia; apply pow2_S; lia).
  pow_pos 2 (F - 2).
  assert (E2F : 2 ^ (2 * F) = 2 ^ F * 2 ^ F) by (rewrite <- Z.pow_add_r by lia; f_equal; lia).
  set (a := 2 ^ (F - 1) + fa / 2) in *. set (b := 2 ^ (F - 1) + fb / 2) in *.
  assert (Ba : 2 * 2 ^ (F - 2) <= a < 4 * 2 ^ (F - 2)) by (unfold a; lia).
  assert (Bb : 2 * 2 ^ (F - 2) <= b < 4 * 2 ^ (F - 2)) by (unfold b; lia).
  set (T := 2 ^ (F - 2)) in *.
  assert (BP : T * 2 ^ F <= a * b < 2 ^ F * 2 ^ F).
  { rewrite EF, EF2. clear - Ba Bb H. nia. }
  unfold extramul, cmul. rewrite pN_arith by (try assumption; lia). cbn [bind].
  rewrite cast_u_small by lia.
  rewrite pN_shr by (try assumption; lia). cbn [bind].
  pow_pos 2 F.
  set (fr := a * b / 2 ^ F).
  assert (Bfr : T <= fr < 2 ^ F).
  { unfold fr. split; [apply Z.div_le_lower_bound; lia|apply Z.div_lt_upper_bound; lia]. }
  pose proof (Z.div_mod (a * b) (2 ^ F) ltac:(lia)) as DM. fold fr in DM.
  pose proof (Z.mod_pos_bound (a * b) (2 ^ F) ltac:(lia)) as MB.
  set (rm := (a * b) mod 2 ^ F) in *.
  assert (Q : (cand fr (FT_leftmost_bit F) =? 0) = (fr <? 2 ^ (F - 1))).
  { unfold cand, FT_leftmost_bit. rewrite land_pow2_nz by lia.
    rewrite testbit_top by (try lia; replace (F - 1 + 1) with F by lia; lia).
    destruct (Z.leb_spec (2 ^ (F - 1)) fr), (Z.ltb_spec fr (2 ^ (F - 1))); try reflexivity; lia. }
  rewrite Q. clear Q.
  unfold cadd. rewrite pE_arith by (try assumption; lia). 
  (* the exact product *)
  assert (X : (dy (2 ^ F + 2 * (fa / 2)) (ea - F) * dy (2 ^ F + 2 * (fb / 2)) (eb - F)
               == dy (a * b) (ea + eb + 2 - F - F))%Q).
  { rewrite dy_mul. replace (2 ^ F + 2 * (fa / 2)) with (2 * a) by (unfold a; lia).
    replace (2 ^ F + 2 * (fb / 2)) with (2 * b) by (unfold b; lia).
    replace (2 * a * (2 * b)) with (a * b * 2 ^ 2) by ring. rewrite dy_pow by lia.
    replace (ea - F + (eb - F) + 2) with (ea + eb + 2 - F - F) by lia. reflexivity. }
  destruct (Z.ltb_spec fr (2 ^ (F - 1))) as [L|L]; cbn [bind].
  - rewrite pN_shl by (try assumption; change (2 ^ 1) with 2; nia). cbn [bind].
    rewrite pE_arith by (try assumption; lia). cbn [bind].
    rewrite pN_shl by (try assumption; change (2 ^ 1) with 2; nia). cbn [bind].
    unfold u_mk. rewrite cast_s_small by lia.
    change (2 ^ 1) with 2.
    assert (CF : cast (uint F) (fr * 2 * 2) = 4 * fr - 2 ^ F).
    { rewrite cast_u. symmetry. apply (Z.mod_unique _ _ 1); lia. }
    rewrite CF. exists (ea + eb + 0), (4 * fr - 2 ^ F), 2.
    split; [reflexivity|]. split; [lia|]. split; [lia|].
    split; [lia|]. split; [lia|]. split.
    + rewrite EF, EF2. change (2 ^ 2) with 4. replace (4 * fr - 2 * (2 * T)) with ((fr - T) * 4) by ring.
      apply Z.mod_mul. lia.
    + rewrite X. unfold uabs. replace (2 ^ F + (4 * fr - 2 ^ F)) with (fr * 2 ^ 2) by lia.
      replace (fr * 2 ^ 2 + 2 ^ 2) with ((fr + 1) * 2 ^ 2) by ring.
      rewrite !dy_pow by lia.
      rewrite (dy_align fr _ (ea + eb + 2 - F - F)), (dy_align (fr + 1) _ (ea + eb + 2 - F - F)) by lia.
      replace (ea + eb + 0 - F + 2 - (ea + eb + 2 - F - F)) with F by lia.
      split; [apply dy_le|apply dy_lt]; lia.
  - rewrite pE_arith by (try assumption; lia). cbn [bind].
    rewrite pN_shl by (try assumption; change (2 ^ 1) with 2; nia). cbn [bind].
    unfold u_mk. rewrite cast_s_small by lia.
    change (2 ^ 1) with 2.
    assert (CF : cast (uint F) (fr * 2) = 2 * fr - 2 ^ F).
    { rewrite cast_u. symmetry. apply (Z.mod_unique _ _ 1); lia. }
    rewrite CF. exists (ea + eb + 1), (2 * fr - 2 ^ F), 1.
    split; [reflexivity|]. split; [lia|]. split; [lia|].
    split; [lia|]. split; [lia|]. split.
    + rewrite EF. change (2 ^ 1) with 2. replace (2 * fr - 2 * 2 ^ (F - 1)) with ((fr - 2 ^ (F - 1)) * 2) by ring.
      apply Z.mod_mul. lia.
    + rewrite X. unfold uabs. replace (2 ^ F + (2 * fr - 2 ^ F)) with (fr * 2 ^ 1) by lia.
      replace (fr * 2 ^ 1 + 2 ^ 1) with ((fr + 1) * 2 ^ 1) by ring.
      rewrite !dy_pow by lia.
      rewrite (dy_align fr _ (ea + eb + 2 - F - F)), (dy_align (fr + 1) _ (ea + eb + 2 - F - F)) by lia.
      replace (ea + eb + 1 - F + 1 - (ea + eb + 2 - F - F)) with F by lia.
      split; [apply dy_le|apply dy_lt]; lia.
Qed.

(** Quotient of significands, shared by / and inv. [a], [b] have their top bit set. *)
Lemma quot_spec F a b : is_width F -> 2 ^ (F - 1) <= a < 2 ^ F -> 2 ^ (F - 1) <= b < 2 ^ F ->
  (a < b -> b mod 2 = 0) ->
  let lt := a <? b in
  let b' := if lt then b / 2 else b in
  let num := a * 2 ^ F in
  cshl (pN F) a F = Ok num /\
  cshr (pF F) b 1 = Ok (b / 2) /\ cast (uint F) (b / 2) = b / 2 /\
  exists q, extradiv F (cast (uint (2 * F)) num) b' = Ok q /\ 2 ^ F <= q < 2 * 2 ^ F /\
    q * b <= a * 2 ^ F * (if lt then 2 else 1) < (q + 1) * b.
Proof.
  intros WF Ha Hb EV. pose proof (is_width_pos F WF) as BF. cbv zeta.
  assert (EF : 2 ^ F = 2 * 2 ^ (F - 1)) by (replace F with ((F - 1) + 1) at 1 by lia; apply pow2_S; lia).
  assert (E2F : 2 ^ (2 * F) = 2 ^ F * 2 ^ F) by (rewrite <- Z.pow_add_r by lia; f_equal; lia).
  pow_pos 2 (F - 1). set (T := 2 ^ (F - 1)) in *.
  assert (NB : 0 <= a * 2 ^ F < 2 ^ (2 * F)) by (rewrite E2F; nia).
  assert (B2 : 0 <= b / 2 < 2 ^ F) by (split; [apply Z.div_pos; lia|apply Z.div_lt_upper_bound; lia]).
  split; [apply pN_shl; (assumption || lia)|].
  split; [rewrite pF_shr by (try assumption; unfold pw; lia); reflexivity|].
  split; [apply cast_u_small; lia|].
  rewrite cast_u_small by assumption.
  assert (D : forall d, 0 < d -> extradiv F (a * 2 ^ F) d = Ok (a * 2 ^ F / d)).
  { intros d Hd. unfold extradiv, cdiv. destruct (Z.eqb_spec d 0); [lia|].
    rewrite Z.quot_div_nonneg by lia.
    assert (QB : 0 <= a * 2 ^ F / d < 2 ^ (2 * F)).
    { split; [apply Z.div_pos; lia|]. apply Z.div_lt_upper_bound; [lia|]. nia. }
    rewrite pN_arith by assumption. cbn [bind]. rewrite cast_u_small by assumption. reflexivity. }
  destruct (Z.ltb_spec a b) as [L|L].
  - specialize (EV L).
    assert (EB : b = 2 * (b / 2)) by (pose proof (Z.div_mod b 2 ltac:(lia)); lia).
    set (h := b / 2) in *. assert (Hh : 0 < h) by lia.
    rewrite D by assumption. eexists. split; [reflexivity|].
    pose proof (Z.div_mod (a * 2 ^ F) h ltac:(lia)) as DM.
    pose proof (Z.mod_pos_bound (a * 2 ^ F) h ltac:(lia)) as MB.
    split.
    + split; [apply Z.div_le_lower_bound; nia|apply Z.div_lt_upper_bound; nia].
    + nia.
  - rewrite D by lia. eexists. split; [reflexivity|].
    pose proof (Z.div_mod (a * 2 ^ F) b ltac:(lia)) as DM.
    pose proof (Z.mod_pos_bound (a * 2 ^ F) b ltac:(lia)) as MB.
    split.
    + split; [apply Z.div_le_lower_bound; nia|apply Z.div_lt_upper_bound; nia].
    + nia.
Qed.

Lemma dy_div m n e f g : 0 < n -> g <= e - f ->
  (dy m e / dy n f == dy (m * 2 ^ (e - f - g)) g / inject_Z n)%Q.
Proof.
  intros Hn Hg. rewrite dy_pow by lia. replace (g + (e - f - g)) with (e - f) by lia.
  unfold dy. rewrite pow2_sub. apply inj_lt in Hn. change (inject_Z 0) with 0%Q in Hn.
  pose proof (pow2_pos f). field. split; lra.
Qed.

Lemma dy_div_cell a b q s g : 0 < b -> 0 <= s -> q * b <= a * 2 ^ s < (q + 1) * b ->
  forall x, (x == dy (a * 2 ^ s) g / inject_Z b)%Q -> (dy q g <= x)%Q /\ (x < dy (q + 1) g)%Q.
Proof.
  intros Hb Hs [L U] x ->. apply inj_lt in Hb. change (inject_Z 0) with 0%Q in Hb.
  apply (dy_le _ _ g) in L. apply (dy_lt _ _ g) in U. unfold dy in *.
  rewrite inject_Z_mult in L. rewrite (inject_Z_mult (q + 1) b) in U.
  split.
  - apply Qle_shift_div_l; [assumption|]. lra.
  - apply Qlt_shift_div_r; [assumption|]. lra.
Qed.

Lemma u_div_spec F E na nb ea eb fa fb : is_width F -> is_width E ->
  0 <= fa < 2 ^ F -> 0 <= fb < 2 ^ F -> fb mod 4 = 0 ->
  - 2 ^ (E - 1) <= ea - eb - 1 -> ea - eb < 2 ^ (E - 1) ->
  exists e f,
    u_div F E (U Regular na ea fa) (U Regular nb eb fb) = Ok (U Regular (xorb na nb) e f) /\
    ea - eb - 1 <= e <= ea - eb /\
    cell F e f 0 (dy (2 ^ F + 2 * (fa / 2)) (ea - F) / uabs F eb fb).
Proof.
  intros WF WE Ha Hb M4 E1 E2. pose proof (is_width_pos F WF) as BF. pose proof (is_width_pos E WE) as BE.
  destruct (hidden F fa WF Ha) as [A1 A2]. destruct (hidden F fb WF Hb) as [B1 B2].
  unfold u_div. cbn [u_isNaN utype_eqb utyp orb uneg uexp ufrac].
  rewrite !pF_shr by (try assumption; unfold pw; lia). cbn [bind].
  rewrite A1, B1. clear A1 B1.
  assert (EF : 2 ^ F = 2 * 2 ^ (F - 1)) by (replace F with ((F - 1) + 1) at 1 by lia; apply pow2_S; lia).
  assert (EF2 : 2 ^ (F - 1) = 2 * 2 ^ (F - 2)) by (replace (F - 1) with ((F - 2) + 1) by lia; apply pow2_S; lia).
  assert (F4 : fb = 4 * (fb / 4)) by (pose proof (Z.div_mod fb 4 ltac:(lia)); lia).
  assert (F2 : fb / 2 = 2 * (fb / 4)).
  { rewrite F4 at 1. replace (4 * (fb / 4)) with (2 * (fb / 4) * 2) by ring. apply Z.div_mul. lia. }
  set (a := 2 ^ (F - 1) + fa / 2) in *. set (b := 2 ^ (F - 1) + fb / 2) in *.
  assert (Ev : b mod 2 = 0).
  { unfold b. rewrite F2, EF2. replace (2 * 2 ^ (F - 2) + 2 * (fb / 4)) with ((2 ^ (F - 2) + fb / 4) * 2) by ring.
    apply Z.mod_mul. lia. }
  destruct (quot_spec F a b WF ltac:(unfold a; lia) ltac:(unfold b; lia) (fun _ => Ev))
    as [Q1 [Q2 [Q3 [q [Q4 [Q5 Q6]]]]]].
  unfold csub. rewrite pE_arith by (try assumption; lia). cbn [bind].
  unfold cadd. rewrite pE_arith by (try assumption; destruct (a <? b); lia). cbn [bind].
  assert (BB : (if a <? b then let! r := cshr (pF F) b 1 in Ok (cast (uint F) r) else Ok b)
               = Ok (if a <? b then b / 2 else b)).
  { destruct (a <? b); [rewrite Q2; cbn [bind]; rewrite Q3|]; reflexivity. }
  rewrite BB, Q1. cbn [bind]. rewrite Q4. cbn [bind].
  unfold u_mk. rewrite cast_s_small by (destruct (a <? b); lia).
  assert (CF : cast (uint F) q = q - 2 ^ F).
  { rewrite cast_u. symmetry. apply (Z.mod_unique _ _ 1); lia. }
  rewrite CF. clear Q1 Q2 Q3 Q4 BB CF.
  eexists _, _. split; [reflexivity|]. split; [destruct (a <? b); lia|].
  split; [lia|]. split; [lia|]. split; [apply Z.mod_1_r|].
  unfold uabs. change (2 ^ 0) with 1. replace (2 ^ F + (q - 2 ^ F)) with q by lia.
  assert (Hb' : 0 < b) by (unfold b; pow_pos 2 (F - 1); lia).
  set (lt := if a <? b then 1 else 0).
  replace (ea - eb + (if a <? b then -1 else 0)) with (ea - eb - lt) by (unfold lt; destruct (a <? b); lia).
  assert (HL : 0 <= lt <= 1) by (unfold lt; destruct (a <? b); lia).
  apply (dy_div_cell a b q (F + lt)); [assumption|lia| |].
  - rewrite Z.pow_add_r by lia. replace (2 ^ lt) with (if a <? b then 2 else 1) by (unfold lt; destruct (a <? b); reflexivity).
    rewrite Z.mul_assoc. exact Q6.
  - replace (2 ^ F + 2 * (fa / 2)) with (a * 2 ^ 1) by (unfold a; lia).
    replace (2 ^ F + fb) with (b * 2 ^ 1) by (unfold b; lia).
    rewrite (dy_pow a (ea - F) 1), (dy_pow b (eb - F) 1) by lia.
    rewrite (dy_div a b _ _ (ea - eb - lt - F)) by lia.
    replace (ea - F + 1 - (eb - F + 1) - (ea - eb - lt - F)) with (F + lt) by lia. reflexivity.
Qed.

Lemma u_inv_spec F E na ea fa : is_width F -> is_width E ->
  0 < fa < 2 ^ F -> fa mod 4 = 0 ->
  - 2 ^ (E - 1) <= - ea - 1 -> - ea < 2 ^ (E - 1) ->
  exists f,
    u_inv F E (U Regular na ea fa) = Ok (U Regular na (- ea - 1) f) /\
    cell F (- ea - 1) f 0 (1 / uabs F ea fa).
Proof.
  intros WF WE Ha M4 E1 E2. pose proof (is_width_pos F WF) as BF. pose proof (is_width_pos E WE) as BE.
  destruct (hidden F fa WF ltac:(lia)) as [A1 A2].
  unfold u_inv. cbn [utyp uneg uexp ufrac].
  destruct (Z.eqb_spec fa 0); [lia|].
  rewrite !pF_shr by (try assumption; unfold pw; lia). cbn [bind].
  rewrite A1. clear A1.
  assert (EF : 2 ^ F = 2 * 2 ^ (F - 1)) by (replace F with ((F - 1) + 1) at 1 by lia; apply pow2_S; lia).
  assert (EF2 : 2 ^ (F - 1) = 2 * 2 ^ (F - 2)) by (replace (F - 1) with ((F - 2) + 1) by lia; apply pow2_S; lia).
  assert (F4 : fa = 4 * (fa / 4)) by (pose proof (Z.div_mod fa 4 ltac:(lia)); lia).
  assert (F2 : fa / 2 = 2 * (fa / 4)).
  { rewrite F4 at 1. replace (4 * (fa / 4)) with (2 * (fa / 4) * 2) by ring. apply Z.div_mul. lia. }
  unfold FT_leftmost_bit.
  set (a := 2 ^ (F - 1)) in *. set (b := a + fa / 2) in *.
  assert (Ev : b mod 2 = 0).
  { unfold b. rewrite F2, EF2. replace (2 * 2 ^ (F - 2) + 2 * (fa / 4)) with ((2 ^ (F - 2) + fa / 4) * 2) by ring.
    apply Z.mod_mul. lia. }
  assert (Hap : 0 < a) by (unfold a; apply Z.pow_pos_nonneg; lia).
  destruct (quot_spec F a b WF ltac:(unfold a; lia) ltac:(unfold b; lia) (fun _ => Ev))
    as [Q1 [Q2 [Q3 [q [Q4 [Q5 Q6]]]]]].
  unfold cneg, csub. rewrite pE_arith by (try assumption; lia). cbn [bind].
  assert (L : a <? b = true) by (apply Z.ltb_lt; unfold b; lia). rewrite L in *.
  rewrite pE_arith by (try assumption; lia). cbn [bind].
  rewrite Q2. cbn [bind]. rewrite Q1. cbn [bind]. rewrite Q3, Q4. cbn [bind].
  unfold u_mk. rewrite cast_s_small by lia.
  assert (CF : cast (uint F) q = q - 2 ^ F).
  { rewrite cast_u. symmetry. apply (Z.mod_unique _ _ 1); lia. }
  rewrite CF. clear Q1 Q2 Q3 Q4 CF.
  eexists. split; [reflexivity|].
  split; [lia|]. split; [lia|]. split; [apply Z.mod_1_r|].
  unfold uabs. change (2 ^ 0) with 1. replace (2 ^ F + (q - 2 ^ F)) with q by lia.
  assert (Hb' : 0 < b) by (unfold b; lia).
  apply (dy_div_cell a b q (F + 1)); [assumption|lia| |].
  - rewrite Z.pow_add_r by lia. change (2 ^ 1) with 2. rewrite Z.mul_assoc. exact Q6.
  - replace (2 ^ F + fa) with (b * 2 ^ 1) by (unfold b; lia).
    rewrite (dy_pow b (ea - F) 1) by lia.
    assert (O : (1 == dy a (1 - F))%Q).
    { unfold a. rewrite <- (Z.mul_1_l (2 ^ (F - 1))), dy_pow by lia.
      replace (1 - F + (F - 1)) with 0 by lia. reflexivity. }
    rewrite O at 1. rewrite (dy_div a b _ _ (- ea - 1 - F)) by lia.
    replace (1 - F - (ea - F + 1) - (- ea - 1 - F)) with (F + 1) by lia. reflexivity.
Qed.
