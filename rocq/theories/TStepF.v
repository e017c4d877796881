(** Property C25: termination of a coupling step in double precision. *)
From Coq Require Import Reals ZArith List Lra Lia.
From Flocq Require Import Core.
From Verif Require Import MErr MStep MStepF PStepF.
Open Scope R_scope.

(** what holds: steps of up to 2^52 model time steps end *)
Theorem C25_step_terminates_partial : forall X (stp : X -> R -> outcome X) dtM dt, is_double dtM -> is_double dt -> 0 < dtM -> dt <= dtM * bpow radix2 52 ->
  (forall x d, exists x', stp x d = Ok x') -> exists fuel, forall x, exists x', sub_loop64 X stp fuel dtM x dt = Ok x'.
Proof. exact loop64_ends. Qed.
Print Assumptions C25_step_terminates_partial.
(** Finding: with a model time step below dt 2^-54 the remaining time never decreases *)
Theorem C25_small_model_step_never_ends : forall X (stp : X -> R -> outcome X) dtM dt, is_double dt -> 0 < dtM -> dtM < dt * bpow radix2 (-54) ->
  (forall x d, exists x', stp x d = Ok x') -> forall fuel x, sub_loop64 X stp fuel dtM x dt = Diverges.
Proof. exact loop64_stuck. Qed.
Print Assumptions C25_small_model_step_never_ends.
Theorem C25_step_terminates_refuted : exists dtM dt, is_double dtM /\ is_double dt /\ 0 < dtM /\ 0 < dt /\
  forall fuel, sub_loop64 nat (fun n _ => Ok (S n)) fuel dtM 0%nat dt = Diverges.
Proof.
  exists 1, (bpow radix2 55). split; [exact (pow_double 0 ltac:(lia))|]. split; [exact (pow_double 55 ltac:(lia))|]. split; [lra|]. split; [apply bpow_gt_0|].
  intro fuel. apply loop64_stuck; [exact (pow_double 55 ltac:(lia))|lra| |intros x d; exists (S x); reflexivity].
  rewrite <- bpow_plus. change 1 with (bpow radix2 0). apply bpow_lt. lia.
Qed.
Print Assumptions C25_step_terminates_refuted.
Example C25_hypotheses_met : is_double (bpow radix2 (-10)) /\ is_double 1 /\ 0 < bpow radix2 (-10) /\ 1 <= bpow radix2 (-10) * bpow radix2 52.
Proof.
  split; [exact (pow_double (-10) ltac:(lia))|]. split; [exact (pow_double 0 ltac:(lia))|]. split; [apply bpow_gt_0|]. rewrite <- bpow_plus. change 1 with (bpow radix2 0). apply bpow_le. lia.
Qed.
