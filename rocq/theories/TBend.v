(** C89: bending stiffness. *)
From Coq Require Import Reals List Lra Lia Psatz Arith.
From Verif Require Import MErr MVec MStateOps MMat MLine SMat SLine SBend PLine PLineB PBend.
Import ListNotations.
Open Scope R_scope.

(** The inner nodes of a line laid along a circle have the direction, the curvature and the normal of the circle. *)
Theorem C89_circle : forall L c e1 e2 rad phi theta i, frame e1 e2 -> laid L c e1 e2 rad phi theta -> resolved rad theta -> (0 < i < lN L)%nat ->
  lq L i = heading e1 e2 (phi + INR i * theta) /\ lKurv L i = / rad /\ lpvec L i = cross e1 e2.
Proof.
  intros L c e1 e2 rad phi theta i F H R Hi. split; [exact (circle_tangent L c e1 e2 rad phi theta i F H R Hi)|].
  split; [exact (circle_curvature L c e1 e2 rad phi theta i F H R Hi)|exact (circle_axis L c e1 e2 rad phi theta i F H R Hi)].
Qed.
Print Assumptions C89_circle.
(** At a clamped end in the direction of the circle the curvature is that of the circle but for a
    factor that tends to one with the angle between the nodes. *)
Theorem C89_clamped_end_partial : forall L c e1 e2 rad phi theta, frame e1 e2 -> laid L c e1 e2 rad phi theta -> resolved rad theta -> cos (theta / 2) + eps64 <= 1 ->
  (0 < lN L)%nat -> lcantA L = true -> lisEI L = true -> lqA L = heading e1 e2 phi -> lKurv L 0 * (rad * cos (theta / 4)) = 1.
Proof. exact circle_clamped. Qed.
Print Assumptions C89_clamped_end_partial.
(** Uniform bending exerts no force on the nodes away from the ends. *)
Theorem C89_uniform_bending : forall L c e1 e2 rad phi theta Bs, frame e1 e2 -> laid L c e1 e2 rad phi theta -> resolved rad theta ->
  lbx L = [] -> lcantA L = false -> lcantB L = false -> lBs L = Some Bs -> forall j, (2 <= j)%nat -> (j + 2 <= lN L)%nat -> Bs j = vzero.
Proof. exact uniform_bending. Qed.
Print Assumptions C89_uniform_bending.
(** While the segments do not stretch, the bending forces of a line with pinned ends take their
    power from the bending energy. Missing: clamped ends, stretching segments, bends below the
    tolerances. *)
Theorem C89_energy_partial : forall L p t Bs, (0 < lN L)%nat -> lbx L = [] -> 0 < lEI L -> lcantA L = false -> lcantB L = false -> lBs L = Some Bs -> long L -> moves_as L p t ->
  (forall i, (i < lN L)%nat -> stretch_rate L i = 0) -> (forall i, (S i < lN L)%nat -> bent (seg L i) (seg L (S i))) ->
  derivable_pt_lim (fun s => line_bend_energy L (p s)) t (- power L Bs).
Proof. exact bending_energy. Qed.
Print Assumptions C89_energy_partial.

(** ** Cases *)
Definition hoop (cA : bool) : line :=
  Line 5 0.1 (PI / 4 * 0.1 * 0.1) 1000 1000 50 10 1 0 1.2 0.1 [] [] [] [] [] [] false (fun _ => 0)
    (fun i => arc vzero (V3 1 0 0) (V3 0 1 0) 10 (0 + INR i * (PI / 2)))
    (fun _ => vzero) (fun _ => 1) (fun _ => 1) cA false (V3 0 1 0) (V3 1 0 0).
Lemma tol_tenth : tol < / 10.
Proof. unfold tol. assert (1000 < 2 ^ 52) by (apply (Rlt_trans _ (2 ^ 10)); [lra|apply Rlt_pow; [lra|lia]]). apply (Rmult_lt_reg_r (2 ^ 52)); [lra|]. unfold Rdiv. rewrite Rmult_assoc, Rinv_l by lra. lra. Qed.
Lemma eps_tenth : eps64 < / 10.
Proof. unfold eps64. assert (1000 < 2 ^ 52) by (apply (Rlt_trans _ (2 ^ 10)); [lra|apply Rlt_pow; [lra|lia]]). apply Rinv_lt_contravar; lra. Qed.
Lemma root_half : / 2 < sqrt (/ 2) < 0.8.
Proof. split; [rewrite <- (sqrt_square (/ 2)) at 1 by lra|rewrite <- (sqrt_square 0.8) by lra]; apply sqrt_lt_1; lra. Qed.
Lemma quarter : sin (PI / 4) = sqrt (/ 2) /\ cos (PI / 4) = sqrt (/ 2).
Proof. rewrite sin_PI4, cos_PI4. rewrite sqrt_inv by lra. split; field; apply Rgt_not_eq; apply sqrt_lt_R0; lra. Qed.
Lemma hoop_resolved : resolved 10 (PI / 2).
Proof.
  pose proof PI_RGT_0. pose proof tol_tenth. pose proof eps_tenth. pose proof root_half. unfold resolved. rewrite cos_PI2, sin_PI2. replace (PI / 2 / 2) with (PI / 4) by field. rewrite (proj1 quarter). repeat split; lra.
Qed.
Lemma plain_frame : frame (V3 1 0 0) (V3 0 1 0). Proof. unfold frame, dot. cbn. repeat split; lra. Qed.
Example C89_case_circle : lKurv (hoop false) 2 = / 10 /\ exists Bs, lBs (hoop false) = Some Bs /\ Bs 2%nat = vzero /\ lKurv (hoop true) 0 * (10 * cos (PI / 2 / 4)) = 1.
Proof.
  assert (LD : forall b, laid (hoop b) vzero (V3 1 0 0) (V3 0 1 0) 10 0 (PI / 2)) by (intros b j Hj; reflexivity).
  assert (IE : forall b, lisEI (hoop b) = true) by (intro b; unfold lisEI; cbn; destruct (Rlt_dec 0 50); [reflexivity|lra]).
  split; [apply (C89_circle (hoop false) _ _ _ _ _ _ 2 plain_frame (LD false) hoop_resolved); cbn; lia|].
  destruct (lBs (hoop false)) as [Bs|] eqn:E. 2:{ exfalso. unfold lBs in E. rewrite IE in E. now apply (linear_bend (hoop false) 6) in E. }
  exists Bs. split; [reflexivity|]. split; [apply (C89_uniform_bending (hoop false) _ _ _ _ _ _ Bs plain_frame (LD false) hoop_resolved); try reflexivity; try exact E; cbn; lia|].
  apply (C89_clamped_end_partial (hoop true) _ _ _ _ _ _ plain_frame (LD true) hoop_resolved); try reflexivity; try (cbn; lia); try apply IE.
  - replace (PI / 2 / 2) with (PI / 4) by field. rewrite (proj2 quarter). pose proof root_half. pose proof eps_tenth. lra.
  - unfold heading. rewrite sin_0, cos_0. cbn. unfold vadd, vscale. cbn. f_equal; ring.
Qed.
Definition elbow : line :=
  Line 2 0.1 (PI / 4 * 0.1 * 0.1) 1000 1000 50 10 1 0 1.2 0.1 [] [] [] [] [] [] false (fun _ => 0)
    (fun i => match i with O => V3 0 0 0 | S O => V3 2 0 0 | _ => V3 2 1 0 end)
    (fun i => match i with S (S _) => V3 (-1) 0 0 | _ => vzero end) (fun _ => 1) (fun _ => 1) false false (V3 1 0 0) (V3 1 0 0).
Definition closing (s : R) (i : nat) : v3 := match i with O => V3 0 0 0 | S O => V3 2 0 0 | _ => V3 (2 - s) 1 0 end.
Example C89_case_energy : exists Bs, lBs elbow = Some Bs /\ derivable_pt_lim (fun s => line_bend_energy elbow (closing s)) 0 (- power elbow Bs).
Proof.
  assert (N0 : norm (seg elbow 0) = 2) by (unfold norm, seg, dot, vsub; cbn; replace ((2 - 0) * (2 - 0) + (0 - 0) * (0 - 0) + (0 - 0) * (0 - 0)) with (2 * 2) by ring; apply sqrt_square; lra).
  assert (N1 : norm (seg elbow 1) = 1) by (unfold norm, seg, dot, vsub; cbn; replace ((2 - 2) * (2 - 2) + (1 - 0) * (1 - 0) + (0 - 0) * (0 - 0)) with (1 * 1) by ring; apply sqrt_square; lra).
  pose proof tol_tenth. pose proof eps_tenth. pose proof root_half.
  destruct (lBs elbow) as [Bs|] eqn:E. 2:{ exfalso. unfold lBs, lisEI in E. cbn [lEI elbow] in E. destruct (Rlt_dec 0 50) in E; [|lra]. cbn [orb] in E. now apply (linear_bend elbow 3) in E. }
  exists Bs. split; [reflexivity|]. apply C89_energy_partial; try reflexivity; try exact E; try (cbn; lia); try (cbn; lra).
  - intros i Hi. cbn in Hi. fold (seg elbow i). destruct i as [|[|i]]; [rewrite N0; lra|rewrite N1; lra|lia].
  - split; [intros [|[|i]]; cbn; f_equal; ring|]. intros [|[|i]]; cbn; repeat split; try apply derivable_pt_lim_const.
    replace (-1) with (0 - 1) by ring. apply (derivable_pt_lim_minus (fct_cte 2) id); [apply derivable_pt_lim_const|apply derivable_pt_lim_id].
  - intros i Hi. cbn in Hi. unfold stretch_rate. destruct i as [|[|i]]; [rewrite N0|rewrite N1|lia]; unfold seg, dot, vsub; cbn; field.
  - intros i Hi. cbn in Hi. assert (i = 0)%nat by lia. subst i. assert (C : cos_between (seg elbow 0) (seg elbow 1) = 0) by (unfold cos_between; rewrite N0, N1; unfold seg, dot, vsub; cbn; field).
    unfold bent. rewrite C, N0, N1. replace ((1 - 0) / 2) with (/ 2) by field. replace (1 - 0 * 0) with 1 by ring. rewrite sqrt_1. repeat split; lra.
Qed.
