(** Property C10: errors keep their code through the C API. *)
From Coq Require Import ZArith List.
From Verif Require Import MErr PErr.
Import ListNotations.
Open Scope Z_scope.

(** Missing for the full statement: the code MOORDYN_NON_IMPLEMENTED (see the
    refutation below). *)
Theorem C10_error_code_roundtrip_partial : forall c,
  In c [0; -1; -2; -3; -4; -5; -6; -7; -255] -> c <> -7 ->
  c_guard (moordyn_throw c) = Returns c.
Proof. exact throw_catch. Qed.
Print Assumptions C10_error_code_roundtrip_partial.
Example C10_ex : c_guard (moordyn_throw (-6)) = Returns (-6).
Proof. reflexivity. Qed.

(** A code that is not documented is reported as unhandled error, never as success. *)
Theorem C10_undocumented_code : forall c,
  ~ In c [0; -1; -2; -3; -4; -5; -6; -7; -255] ->
  c_guard (moordyn_throw c) = Returns (-255).
Proof. exact throw_unknown. Qed.
Print Assumptions C10_undocumented_code.
Example C10_undocumented_ex : ~ In 17 [0; -1; -2; -3; -4; -5; -6; -7; -255].
Proof. cbn; intuition discriminate. Qed.

(** Only the success code raises nothing. *)
Theorem C10_only_success_is_silent : forall c, moordyn_throw c = None <-> c = 0.
Proof. exact throw_none. Qed.
Print Assumptions C10_only_success_is_silent.

(** A caught error is reported with a negative documented code, and two
    different kinds of error never share a code. *)
Theorem C10_caught_errors : forall e c, moordyn_catcher e = Returns c ->
  c < 0 /\ In c [0; -1; -2; -3; -4; -5; -6; -7; -255].
Proof. exact catch_never_success. Qed.
Print Assumptions C10_caught_errors.

Theorem C10_kinds_distinguished : forall e1 e2 c,
  moordyn_catcher e1 = Returns c -> moordyn_catcher e2 = Returns c -> e1 = e2.
Proof. exact catch_kinds_distinct. Qed.
Print Assumptions C10_kinds_distinguished.

(** Finding: the documented code -7 becomes an exception that no C function
    catches. *)
Theorem C10_nonimplemented_escapes_refuted :
  exists c, In c [0; -1; -2; -3; -4; -5; -6; -7; -255] /\
  forall code, c_guard (moordyn_throw c) <> Returns code.
Proof. exact nonimpl_escapes. Qed.
Print Assumptions C10_nonimplemented_escapes_refuted.
