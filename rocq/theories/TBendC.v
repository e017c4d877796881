(** C66, C89: energy of lines with clamped ends. *)
From Coq Require Import Reals List Lra Lia Arith.
From Verif Require Import MErr MVec MStateOps MMat MInterp MLine SMat SLine SLineU SBend SBendU PMat PLine PLineB PLineE PLineU PBend PBendU PBendC.
Import ListNotations.
Open Scope R_scope.

(** for the cases: an elbow of two segments, clamped along y at one end and along x at the other; the last segment turns *)
Definition zigzag : line :=
  Line 2 0.1 (PI / 4 * 0.1 * 0.1) 1000 1000 50 10 1 0 1.2 0.1 [] [] [] [] [] [] false (fun _ => 0)
    (shape 0 1) (going (-1) 0) (fun _ => 1) (fun _ => 1) true true (V3 0 1 0) (V3 1 0 0).

(** In every motion the power of the bending forces, at clamps too, is that of the moments against the changes of the angles.
    Missing: clamps that turn, bends below the tolerances. *)
Theorem C89_clamped_power_partial : forall L p t Bs, (0 < lN L)%nat -> lisEI L = true -> lBs L = Some Bs -> long L -> moves_as L p t ->
  (forall i, (S i < lN L)%nat -> bent (seg L i) (seg L (S i))) -> ends_bent L ->
  exists m d mA dA mB dB, (forall i, (S i < lN L)%nat -> moment_of L i (m i) /\ derivable_pt_lim (fun s => angle (p s) i) t (d i)) /\
    clamp_bend (lcantA L) L (curvature_A L) (fun s => angle_A L (p s)) t mA dA /\ clamp_bend (lcantB L) L (curvature_B L) (fun s => angle_B L (p s)) t mB dB /\
    power L Bs = - nsum (lN L - 1) (fun i => m i * d i) - mA * dA - mB * dB.
Proof. exact clamped_power. Qed.
Print Assumptions C89_clamped_power_partial.
(** The energy balance of all the internal forces of a line with bending stiffness and ends of any kind.
    Missing: clamps that turn, bends below the tolerances. *)
Theorem C66_clamped_partial : forall L G e k F p t, (0 < lN L)%nat -> lisEI L = true -> stores L G ->
  (forall i, (i < lN L)%nat -> 0 < ll L i /\ tol < norm (seg L i)) -> (forall i, (S i < lN L)%nat -> bent (seg L i) (seg L (S i))) -> ends_bent L ->
  line_forces L e k = Some F -> moves_as L p t ->
  exists dU Y m d mA dA mB dB, derivable_pt_lim (fun s => strain_energy L G (p s)) t dU /\
    (forall i, (i < lN L)%nat -> damping_stress L (stretch_rate L i / ll L i) (Y i)) /\
    (forall i, (S i < lN L)%nat -> moment_of L i (m i) /\ derivable_pt_lim (fun s => angle (p s) i) t (d i)) /\
    clamp_bend (lcantA L) L (curvature_A L) (fun s => angle_A L (p s)) t mA dA /\ clamp_bend (lcantB L) L (curvature_B L) (fun s => angle_B L (p s)) t mB dB /\
    power L (internal L e k F) = - dU - nsum (lN L) (fun i => larea L * Y i * stretch_rate L i) - nsum (lN L - 1) (fun i => m i * d i) - mA * dA - mB * dB.
Proof. exact clamped_balance. Qed.
Print Assumptions C66_clamped_partial.
Example C66_case_clamped : lisEI zigzag = true /\ stores zigzag (fun x => lE zigzag * (Rmax 0 x * Rmax 0 x) / 2) /\ long zigzag /\ ends_bent zigzag /\
  (forall i, (S i < 2)%nat -> bent (seg zigzag i) (seg zigzag (S i))) /\ (forall e k, exists F, line_forces zigzag e k = Some F) /\ moves_as zigzag (fun v => shape v 1) 0.
Proof.
  assert (Hs : Rabs 0 < / 2) by (rewrite Rabs_R0; lra). pose proof tol_tiny. pose proof eps_tiny.
  assert (N0 : norm (seg zigzag 0) = 2) by exact (seg0 0 1 (going (-1) 0)).
  assert (N1 : norm (seg zigzag 1) = 1). { pose proof (seg1 0 1 (going (-1) 0) ltac:(lra)) as E. replace (1 + 0 * 0) with 1 in E by ring. rewrite sqrt_1 in E. transitivity (1 * 1); [exact E|ring]. }
  assert (R2 : / 2 <= sqrt (/ 2)). { rewrite <- (sqrt_square (/ 2)) at 1 by lra. apply sqrt_le_1; lra. }
  assert (IE : lisEI zigzag = true) by (unfold lisEI; cbn; destruct (Rlt_dec 0 50); [reflexivity|lra]).
  split; [exact IE|]. split; [apply linear_stores; reflexivity|].
  split; [exact (shape_long 0 1 (going (-1) 0) ltac:(lra) Hs)|]. split; [|split; [exact (fun i Hi => shape_bent 0 1 (going (-1) 0) i ltac:(lra) Hs Hi)|split]].
  - split; intros _; (split; [cbn; unfold dot; cbn; ring|]); unfold bent_at; change (lN zigzag - 1)%nat with 1%nat.
    + assert (C : cos_between (lqA zigzag) (seg zigzag 0) = 0) by (unfold cos_between; unfold seg, dot, vsub; cbn; unfold Rdiv; ring).
      rewrite C, N0. replace ((1 - 0) / 2) with (/ 2) by field. replace (1 - 0 * 0) with 1 by ring. rewrite sqrt_1. repeat split; lra.
    + assert (C : cos_between (seg zigzag 1) (lqB zigzag) = 0) by (unfold cos_between; unfold seg, dot, vsub; cbn; unfold Rdiv; ring).
      rewrite C, N1. replace ((1 - 0) / 2) with (/ 2) by field. replace (1 - 0 * 0) with 1 by ring. rewrite sqrt_1. repeat split; lra.
  - intros e k. unfold line_forces. destruct (lBs zigzag) as [Bs|] eqn:E. { cbn. eauto. }
    exfalso. unfold lBs in E. rewrite IE in E. now apply (linear_bend zigzag 3) in E.
  - split; [reflexivity|]. intros [|[|i]]; cbn; repeat split; try apply const_d.
    replace (-1) with (0 - (1 * 1 + 0 * 0)) by ring. apply PLineE.deriv_sub; [apply const_d|]. apply (deriv_mul (fun v => v) (fun _ => 1)); [apply derivable_pt_lim_id|apply const_d].
Qed.
