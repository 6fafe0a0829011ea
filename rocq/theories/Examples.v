(** Tactics that check the hypotheses of the property theorems on concrete instances. *)
From Coq Require Import ZArith QArith Qabs Lia.
From Verif Require Import Res Cfg Spec Posit Unpacked Traits QPow Ops OpsAdd Room Laws Configs.
Open Scope Z_scope.

Lemma near_by c x y a b : scale x a -> scale y b -> Z.abs (a - b) < Z.max 32 (cF c) -> near c x y.
Proof.
  intros Sa Sb L ea eb Ea Eb.
  rewrite (scale_unique _ _ _ Ea Sa), (scale_unique _ _ _ Eb Sb). assumption.
Qed.
Lemma far_by c x y a b : scale x a -> scale y b -> Z.max 32 (cF c) <= Z.abs (a - b) -> ~ near c x y.
Proof. intros Sa Sb L N. pose proof (N a b Sa Sb). lia. Qed.
Lemma room_by c x e : scale x e -> pack_room c e -> room c x.
Proof. intros S P. right. exists e. split; assumption. Qed.
Lemma noroom_by c x e : scale x e -> ~ pack_room c e -> ~ room c x.
Proof.
  intros S P [Z0|[e' [S' P']]]; [exact (scale_nz _ _ S Z0)|]. rewrite (scale_unique _ _ _ S' S) in P'. contradiction.
Qed.

Ltac conj := repeat match goal with |- _ /\ _ => split end.
Ltac compute_hyp :=
  first [ exact I | vm_compute; reflexivity | vm_compute; discriminate
        | vm_compute; repeat split; solve [reflexivity | discriminate | congruence]
        | vm_compute; left; repeat split; solve [reflexivity | discriminate | congruence]
        | vm_compute; right; repeat split; solve [reflexivity | discriminate | congruence]
        | vm_compute; intuition congruence ].
Ltac valid_hyp :=
  match goal with
  | |- valid_cfg _ => first [exact valid_x1|exact valid_x3|exact valid_x4|exact valid_xmain|exact valid_p8
      |exact valid_p8i|exact valid_p8ni|exact valid_p10|exact valid_p12|exact valid_p16|exact valid_p16i
      |exact valid_p16ni|exact valid_p16w|exact valid_p16_32|exact valid_p32|exact valid_p32_64]
  end.
Ltac no_exists :=
  match goal with
  | |- room _ _ => fail 1 | |- ~ room _ _ => fail 1 | |- near _ _ _ => fail 1 | |- ~ near _ _ _ => fail 1
  | |- room_up _ _ => fail 1 | |- ~ room_up _ _ => fail 1
  | |- _ => idtac
  end.
Ltac ex := conj; no_exists; first [valid_hyp | compute_hyp].
