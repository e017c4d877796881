(** Proofs about MErr.v. *)
From Coq Require Import ZArith List Bool Lia.
From Verif Require Import MErr.
Import ListNotations.
Open Scope Z_scope.

(** The error codes documented in MoorDynAPI.h. *)
Definition documented_codes : list Z := [0; -1; -2; -3; -4; -5; -6; -7; -255].

Lemma throw_catch c : In c documented_codes -> c <> -7 ->
  c_guard (moordyn_throw c) = Returns c.
Proof.
  intros H Hn. cbn in H.
  repeat destruct H as [<-|H]; try contradiction; try reflexivity; congruence.
Qed.

Lemma throw_none c : moordyn_throw c = None <-> c = 0.
Proof.
  unfold moordyn_throw, MOORDYN_SUCCESS. destruct (Z.eqb_spec c 0) as [->|Hc]; [easy|].
  repeat match goal with |- context [if ?b then _ else _] => destruct b end; split; intros H; congruence.
Qed.

Lemma throw_unknown c : ~ In c documented_codes ->
  c_guard (moordyn_throw c) = Returns (-255).
Proof.
  intros H. unfold moordyn_throw, MOORDYN_SUCCESS, MOORDYN_INVALID_INPUT_FILE, MOORDYN_INVALID_OUTPUT_FILE,
    MOORDYN_INVALID_INPUT, MOORDYN_NAN_ERROR, MOORDYN_MEM_ERROR, MOORDYN_INVALID_VALUE, MOORDYN_NON_IMPLEMENTED.
  cbn in H.
  repeat match goal with |- context [Z.eqb c ?k] =>
    destruct (Z.eqb_spec c k) as [->|?]; [exfalso; apply H; tauto|] end.
  reflexivity.
Qed.

Lemma catch_kinds_distinct e1 e2 c :
  moordyn_catcher e1 = Returns c -> moordyn_catcher e2 = Returns c -> e1 = e2.
Proof. destruct e1, e2; cbn; intros H1 H2; try reflexivity; try discriminate; rewrite <- H1 in H2; discriminate. Qed.

Lemma catch_never_success e c : moordyn_catcher e = Returns c -> c < 0 /\ In c documented_codes.
Proof.
  destruct e; cbn; intros H; inversion H; subst c;
  (split; [reflexivity|cbn; tauto]).
Qed.

Lemma nonimpl_escapes : exists c, In c documented_codes /\ forall code, c_guard (moordyn_throw c) <> Returns code.
Proof. exists (-7). split; [cbn; tauto|]. intros code H. discriminate. Qed.
