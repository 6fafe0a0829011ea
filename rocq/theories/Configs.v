(** Instantiations used as examples: those of src/listposits.cpp 37-40, src/main.cpp 7 and
    posit8.hpp/posit10.hpp/posit12.hpp, and the usual sizes. *)
From Coq Require Import ZArith Lia.
From Verif Require Import Cfg.
Open Scope Z_scope.

Definition x1 : cfg := Cfg 32 6 1 32 WithNan.
Definition x3 : cfg := Cfg 16 6 0 8 WithNan.
Definition x4 : cfg := Cfg 8 8 2 8 WithNanInf.
Definition xmain : cfg := Cfg 32 32 0 64 WithNan.
Definition p8 : cfg := Cfg 8 8 0 8 WithNan.
Definition p8i : cfg := Cfg 8 8 0 8 WithInf.
Definition p8ni : cfg := Cfg 8 8 0 8 WithNanInf.
Definition p10 : cfg := Cfg 16 10 0 16 WithNan.
Definition p12 : cfg := Cfg 16 12 2 16 WithNan.
Definition p16 : cfg := Cfg 16 16 1 16 WithNan.
Definition p16i : cfg := Cfg 16 16 1 16 WithInf.
Definition p16ni : cfg := Cfg 16 16 1 16 WithNanInf.
Definition p16_32 : cfg := Cfg 32 16 1 32 WithNan.
Definition p16w : cfg := Cfg 16 16 1 32 WithNan.
Definition p32 : cfg := Cfg 32 32 2 32 WithInf.
Definition p32_64 : cfg := Cfg 64 32 2 32 WithNan.

Ltac cfg_tac := constructor; cbn; unfold is_width; lia.
Lemma valid_x1 : valid_cfg x1. Proof. cfg_tac. Qed.
Lemma valid_x3 : valid_cfg x3. Proof. cfg_tac. Qed.
Lemma valid_x4 : valid_cfg x4. Proof. cfg_tac. Qed.
Lemma valid_xmain : valid_cfg xmain. Proof. cfg_tac. Qed.
Lemma valid_p8 : valid_cfg p8. Proof. cfg_tac. Qed.
Lemma valid_p8i : valid_cfg p8i. Proof. cfg_tac. Qed.
Lemma valid_p8ni : valid_cfg p8ni. Proof. cfg_tac. Qed.
Lemma valid_p10 : valid_cfg p10. Proof. cfg_tac. Qed.
Lemma valid_p12 : valid_cfg p12. Proof. cfg_tac. Qed.
Lemma valid_p16 : valid_cfg p16. Proof. cfg_tac. Qed.
Lemma valid_p16i : valid_cfg p16i. Proof. cfg_tac. Qed.
Lemma valid_p16ni : valid_cfg p16ni. Proof. cfg_tac. Qed.
Lemma valid_p16_32 : valid_cfg p16_32. Proof. cfg_tac. Qed.
Lemma valid_p16w : valid_cfg p16w. Proof. cfg_tac. Qed.
Lemma valid_p32 : valid_cfg p32. Proof. cfg_tac. Qed.
Lemma valid_p32_64 : valid_cfg p32_64. Proof. cfg_tac. Qed.

(** Side conditions of all of them. *)
Lemma exp_p16 : exp_ok p16. Proof. unfold exp_ok. cbn. lia. Qed.
Lemma exp_p32 : exp_ok p32. Proof. unfold exp_ok, maxk. cbn. lia. Qed.
Lemma add_p8 : add_fits p8. Proof. unfold add_fits. cbn. lia. Qed.
Lemma add_p16 : add_fits p16. Proof. unfold add_fits. cbn. lia. Qed.
Lemma add_p32 : add_fits p32. Proof. unfold add_fits. cbn. lia. Qed.
Lemma roomy_p16 : roomy p16. Proof. unfold roomy. cbn. lia. Qed.
Lemma exp_xmain : exp_ok xmain. Proof. unfold exp_ok, maxk. cbn. lia. Qed.
Lemma exp_x4 : exp_ok x4. Proof. unfold exp_ok. cbn. lia. Qed.
Lemma add_xmain : add_fits xmain. Proof. unfold add_fits. cbn. lia. Qed.
Lemma add_x4 : add_fits x4. Proof. unfold add_fits. cbn. lia. Qed.
Lemma roomy_x4 : roomy x4. Proof. unfold roomy. cbn. lia. Qed.
