(** C66, C89: bending forces of segments that stretch. *)
From Coq Require Import Reals List Lra Lia Arith.
From Verif Require Import MErr MVec MStateOps MMat MInterp MLine SMat SLine SLineU SBend SBendU PMat PLine PLineB PBend PLineU PBendU.
Import ListNotations.
Open Scope R_scope.

(** In every motion, stretching or not, the power of the bending forces is that of the moments of the bends against the
    changes of the angles between the segments. Missing: clamped ends, bends below the tolerances. *)
Theorem C89_power_partial : forall L p t Bs, (0 < lN L)%nat -> 0 <= lEI L -> lcantA L = false -> lcantB L = false -> lBs L = Some Bs -> long L -> moves_as L p t ->
  (forall i, (S i < lN L)%nat -> bent (seg L i) (seg L (S i))) ->
  exists m d, (forall i, (S i < lN L)%nat -> moment_of L i (m i) /\ derivable_pt_lim (fun s => angle (p s) i) t (d i)) /\
    power L Bs = - nsum (lN L - 1) (fun i => m i * d i).
Proof. exact bending_power. Qed.
Print Assumptions C89_power_partial.
(** The energy balance of all the internal forces, with curves or constants for stiffness, damping and bending.
    Missing: clamped ends, bends below the tolerances. *)
Theorem C66_bending_partial : forall L G e k F p t, (0 < lN L)%nat -> 0 <= lEI L -> lcantA L = false -> lcantB L = false -> stores L G ->
  (forall i, (i < lN L)%nat -> 0 < ll L i /\ tol < norm (seg L i)) -> (forall i, (S i < lN L)%nat -> bent (seg L i) (seg L (S i))) ->
  line_forces L e k = Some F -> moves_as L p t ->
  exists dU Y m d, derivable_pt_lim (fun s => strain_energy L G (p s)) t dU /\
    (forall i, (i < lN L)%nat -> damping_stress L (stretch_rate L i / ll L i) (Y i)) /\
    (forall i, (S i < lN L)%nat -> moment_of L i (m i) /\ derivable_pt_lim (fun s => angle (p s) i) t (d i)) /\
    power L (internal L e k F) = - dU - nsum (lN L) (fun i => larea L * Y i * stretch_rate L i) - nsum (lN L - 1) (fun i => m i * d i).
Proof. exact full_balance. Qed.
Print Assumptions C66_bending_partial.
(** The power of the bending forces is not, in general, what an energy of the shape loses: for a line of two segments with
    pinned ends and constant bending stiffness there is no such energy, whatever its form. *)
Theorem C89_energy_refuted : exists L, lN L = 2%nat /\ 0 < lEI L /\ lbx L = [] /\ lcantA L = false /\ lcantB L = false /\
  ~ exists U, bending_energy_of L U.
Proof. exists angled. cbn [lN lEI lbx lcantA lcantB angled]. repeat split; [lra|exact no_bending_energy]. Qed.
Print Assumptions C89_energy_refuted.
(** the motions an energy is asked for exist: the second segment turns or stretches *)
Example C89_case_motions : long (in_state angled (shape 0 1) (going (-1) 0)) /\ (exists Bs, lBs (in_state angled (shape 0 1) (going (-1) 0)) = Some Bs) /\
  (forall i, (S i < 2)%nat -> bent (seg (in_state angled (shape 0 1) (going (-1) 0)) i) (seg (in_state angled (shape 0 1) (going (-1) 0)) (S i))) /\
  stores angled (fun x => lE angled * (Rmax 0 x * Rmax 0 x) / 2) /\ (forall e k, exists F, line_forces (in_state angled (shape 0 1) (going (-1) 0)) e k = Some F) /\
  moves_as (in_state angled (shape 0 1) (going (-1) 0)) (fun v => shape v 1) 0.
Proof.
  assert (Hs : Rabs 0 < / 2) by (rewrite Rabs_R0; lra).
  split; [apply shape_long; [lra|exact Hs]|split; [apply angled_Bs|]]. split; [intros i Hi; apply shape_bent; [lra|exact Hs|exact Hi]|].
  split; [apply linear_stores; reflexivity|]. split.
  - intros e k. destruct (angled_Bs (shape 0 1) (going (-1) 0)) as [Bs E]. unfold line_forces. rewrite E. cbn. eauto.
  - split; [reflexivity|]. intros [|[|i]]; cbn; repeat split; try apply const_d.
    replace (-1) with (0 - (1 * 1 + 0 * 0)) by ring. apply PLineE.deriv_sub; [apply const_d|]. apply (deriv_mul (fun v => v) (fun _ => 1)); [apply derivable_pt_lim_id|apply const_d].
Qed.
