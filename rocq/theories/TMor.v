(** C106: the forces of the water on lines, rods and bodies are those of Morison's equation with the documented areas. *)
From Coq Require Import Reals List Lra Lia Arith.
From Verif Require Import MErr MVec MStateOps MMat MInterp MLine MRod MBody SMat SLine SRod SBody SMor PMat PLine PLineB PRod PRodB PRodC PMor PMorB.
Import ListNotations.
Open Scope R_scope.

(** A straight line under water that moves with the velocity V in a uniform flow: the whole force on it is its weight
    less its buoyancy, the drag on its frontal area d L across it and on its surface pi d L along it, and the inertia of
    the water. *)
Theorem C106_line : forall L e k t U V A vp vq ap aq F, (0 < lN L)%nat -> round L -> straight L t -> in_water L k -> uniform k (lN L) U A ->
  (forall i, (i <= lN L)%nat -> lrd L i = V) -> splits t (vsub U V) vp vq -> splits t A ap aq -> line_forces L e k = Some F ->
  vsum (lN L + 1) F = total [wet_weight e (lrho L * line_volume L) (line_volume L);
    drag_law (rho_w e) (lCdn L * (ldia L * line_length L)) vp; drag_law (rho_w e) (lCdt L * (PI * ldia L * line_length L)) vq;
    vscale (rho_w e * line_volume L * (1 + lCan L)) ap; vscale (rho_w e * line_volume L * (1 + lCat L)) aq].
Proof. exact morison_line. Qed.
Print Assumptions C106_line.
(** Its mass is that of the line and of Can or Cat times the water that it displaces. *)
Theorem C106_line_mass : forall L e k t u up uq, (0 < lN L)%nat -> round L -> straight L t -> in_water L k -> splits t u up uq ->
  vsum (lN L + 1) (fun i => mmulv (lM L e k i) u) =
  vadd (vscale (lrho L * line_volume L + rho_w e * line_volume L * lCan L) up) (vscale (lrho L * line_volume L + rho_w e * line_volume L * lCat L) uq).
Proof. exact morison_line_mass. Qed.
Print Assumptions C106_line_mass.
(** A slack line of any shape that has the density of the water and moves with it is accelerated like the water, at every
    node and however the acceleration of the water varies. *)
Theorem C106_line_drifts : forall L e k F i, (0 < lN L)%nat -> (i <= lN L)%nat -> sensible L -> round L -> in_water L k -> 0 <= rho_w e -> lrho L = rho_w e -> lisPb L = false ->
  lsx L = [] -> ldx L = [] -> lisEI L = false -> (forall j, (j < lN L)%nat -> norm (seg L j) <= ll L j) -> (forall j, (j <= lN L)%nat -> lrd L j = wU k j /\ wU k j = wU k 0) ->
  line_forces L e k = Some F -> mmulv (minv (lM L e k i)) (F i) = wUd k i.
Proof. exact line_drifts. Qed.
Print Assumptions C106_line_drifts.
(** A rod under water that moves with the velocity of its end A and does not turn, in a uniform flow: the forces of the
    water act as one force at its middle, with the frontal area d L, the area of its two ends and half a sphere of water
    at each of them. *)
Theorem C106_rod : forall D e k ph be zeta U A vp vq ap aq, sensible_rod D -> headed (rq D) -> rangles D = Ok (ph, be) ->
  (forall j, wzeta k j = zeta) -> below D ph zeta -> off_bottom D k -> uniform k (rn D) U A -> rw D = vzero -> splits (rq D) (vsub U (rvA D)) vp vq -> splits (rq D) A ap aq ->
  rF6net D e k ph be [] [] = wrench_at (vscale (rlen D / 2) (rq D)) (total [wet_weight e (rrho D * rod_volume D) (rod_volume D);
    drag_law (rho_w e) (rCdn D * (rdia D * rlen D)) vp; drag_law (rho_w e) (2 * rCdEnd D * rod_end_area D) vq;
    vscale (rho_w e * rod_volume D * (1 + rCan D)) ap; vscale (2 * (rho_w e * rCaEnd D * half_sphere D)) aq; vscale (rod_end_area D * (wpdyn k 0 - wpdyn k (rn D))) (rq D)]).
Proof. exact morison_rod. Qed.
Print Assumptions C106_rod.
Theorem C106_rod_mass : forall D e k ph be zeta u up uq M, sensible_rod D -> dot (rq D) (rq D) = 1 ->
  (forall j, wzeta k j = zeta) -> below D ph zeta -> splits (rq D) u up uq -> rM6net D e k ph be [] [] = Some M ->
  m6mulv M (V6 u vzero) = wrench_at (vscale (rlen D / 2) (rq D)) (vadd (vscale (rrho D * rod_volume D + rho_w e * rod_volume D * rCan D) up)
    (vscale (rrho D * rod_volume D + rho_w e * rod_volume D * rCat D + 2 * (rho_w e * rCaEnd D * half_sphere D)) uq)).
Proof. exact morison_rod_mass. Qed.
Print Assumptions C106_rod_mass.
(** A rod of the density of the water that moves with it: the acceleration of the water without rotation solves its
    equation of motion. The dynamic pressure is that of the accelerated water, and Cat of rods is zero (it is not read
    from the file, MoorDyn2.cpp l.1785). *)
Theorem C106_rod_drifts : forall D e k ph be zeta A M, sensible_rod D -> headed (rq D) -> rangles D = Ok (ph, be) -> rCat D = 0 -> rrho D = rho_w e ->
  (forall j, wzeta k j = zeta) -> below D ph zeta -> off_bottom D k -> uniform k (rn D) (rvA D) A -> rw D = vzero ->
  wpdyn k 0 - wpdyn k (rn D) = rho_w e * rlen D * dot A (rq D) -> rM6net D e k ph be [] [] = Some M ->
  m6mulv M (V6 A vzero) = rF6net D e k ph be [] [].
Proof. exact rod_drifts. Qed.
Print Assumptions C106_rod_drifts.
(** The drag on a body, in the axes of the body: s is the flow and w the turning of the water relative to the body. *)
Theorem C106_body_drag : forall b e U s w, orthogonal (b_Or b) -> vsub U (v6hd (b_v b)) = mmulv (b_Or b) s -> vscale (-1) (v6tl (b_v b)) = mmulv (b_Or b) w ->
  body_drag b e U = V6 (mmulv (b_Or b) (V3 (1 / 2 * rho_w e * vx (v6hd (b_CdA b)) * norm s * vx s) (1 / 2 * rho_w e * vy (v6hd (b_CdA b)) * norm s * vy s) (1 / 2 * rho_w e * vz (v6hd (b_CdA b)) * norm s * vz s)))
    (mmulv (b_Or b) (V3 (1 / 2 * rho_w e * vx (v6tl (b_CdA b)) * norm w * vx w) (1 / 2 * rho_w e * vy (v6tl (b_CdA b)) * norm w * vy w) (1 / 2 * rho_w e * vz (v6tl (b_CdA b)) * norm w * vz w))).
Proof. exact body_drag_is. Qed.
Print Assumptions C106_body_drag.
(** The acceleration of the water does not act on points and bodies: one that has the density of the water and moves with
    it is not accelerated, whatever the acceleration A of the water. *)
Theorem C106_point_drifts_refuted : forall p e U A, p_type p = PFree -> p_att p = [] -> p_F p = vzero -> p_rd p = U -> p_M p = rho_w e * p_V p -> A <> vzero ->
  exists a, point_deriv p e U = Ok (U, a) /\ a <> A.
Proof. intros p e U A H1 H2 H3 H4 H5 HA. exists vzero. split; [now apply point_stays|congruence]. Qed.
Print Assumptions C106_point_drifts_refuted.
Theorem C106_body_drifts_refuted : forall b e U A, b_type b = BFree -> b_v b = V6 U vzero -> b_M b = rho_w e * b_V b -> A <> vzero ->
  exists a, body_solves b (fst (body_rhs b e U [])) (snd (body_rhs b e U [])) a /\ v6hd a <> A.
Proof. intros b e U A H1 H2 H3 HA. exists v6zero. split; [now apply body_stays|cbn; congruence]. Qed.
Print Assumptions C106_body_drifts_refuted.

(** cases: a level line of two segments in a flow of (1, 2, 0) m/s that grows by (0.5, 0, 0.3) m/s in a second, and a slanting rod *)
Definition level_line : line :=
  Line 2 0.1 (PI / 4 * 0.1 * 0.1) 1025 1000 0 10 1 0.2 1.2 0.1 [] [] [] [] [] [] false (fun _ => 0)
    (fun i => V3 (INR i) 0 (-10)) (fun i => V3 1 2 0) (fun _ => 1) (fun _ => PI / 4 * 0.1 * 0.1 * 1) false false (V3 1 0 0) (V3 1 0 0).
Definition stream : wkin := Wkin (fun _ => 0) (fun _ => V3 1 2 0) (fun _ => V3 0.5 0 0.3) (fun i => if Nat.eqb i 0 then 0 else - (1025 * 4 * 0.54)) (fun _ _ => -1000).
Example C106_line_met : (0 < lN level_line)%nat /\ sensible level_line /\ round level_line /\ straight level_line (V3 1 0 0) /\ in_water level_line stream /\ uniform stream (lN level_line) (V3 1 2 0) (V3 0.5 0 0.3) /\
  splits (V3 1 0 0) (vsub (V3 1 2 0) vzero) (V3 0 2 0) (V3 1 0 0) /\ (forall j, (j < lN level_line)%nat -> norm (seg level_line j) <= ll level_line j) /\ lrho level_line = rho_w demo_env /\ exists F, line_forces level_line demo_env stream = Some F.
Proof.
  pose proof PI_RGT_0. pose proof tol_small. assert (SG : forall i, seg level_line i = vscale 1 (V3 1 0 0)). { intro i. unfold seg, level_line, vsub, vscale. cbn [lr vx vy vz]. rewrite S_INR. apply v3eq; cbn [vx vy vz]; ring. }
  split; [cbn; lia|]. split; [unfold sensible, dot; cbn; repeat split; intros; try lra; nra|]. split; [split; intros; cbn; reflexivity|].
  split; [split; [unfold dot; cbn; ring|]; split; [intros i _; exists 1; split; [lra|apply SG]|split; discriminate]|].
  split; [intros i _; cbn; repeat split; lra|]. split; [intros i _; split; reflexivity|].
  split; [split; [apply v3eq; cbn; ring|]; split; [unfold dot; cbn; ring|]; exists 1; apply v3eq; cbn; ring|].
  split; [|split; [cbn; reflexivity|apply linear_total; reflexivity]]. intros j _. rewrite SG. cbn [ll level_line]. unfold norm, dot, vscale. cbn [vx vy vz]. replace (_ + _) with 1 by ring. rewrite sqrt_1. lra.
Qed.
Definition slant_rod : rod := Rod 2 0.5 1025 4 1 0 1.2 0.8 0.6 (V3 0.6 0 0.8) (V3 0 0 (-20)) (V3 1 2 0) vzero.
Example C106_rod_met : sensible_rod slant_rod /\ headed (rq slant_rod) /\ (exists ph be, rangles slant_rod = Ok (ph, be)) /\ (forall ph, below slant_rod ph 0) /\ off_bottom slant_rod stream /\
  uniform stream (rn slant_rod) (V3 1 2 0) (V3 0.5 0 0.3) /\ splits (rq slant_rod) (vsub (V3 1 2 0) vzero) (V3 0.64 2 (-0.48)) (V3 0.36 0 0.48) /\ rrho slant_rod = rho_w demo_env /\
  wpdyn stream 0 - wpdyn stream (rn slant_rod) = rho_w demo_env * rlen slant_rod * dot (V3 0.5 0 0.3) (rq slant_rod).
Proof.
  split; [unfold sensible_rod; cbn; repeat split; try lra; lia|]. split; [exact slant_headed|]. split; [apply headed_angles; [cbn; lia|exact slant_headed]|].
  assert (Z : forall i, (i <= 2)%nat -> -20 <= vz (rnode slant_rod i) <= -16).
  { intros [|[|[|i]]] Hi; [| | |lia]; unfold rnode, rB, slant_rod, vadd, vscale, vsub; cbn; lra. }
  split. { intros ph i Hi. destruct (Z i Hi). cbn [rdia slant_rod]. assert (Rabs (sin ph) <= 1) by (apply Rabs_le; pose proof (SIN_bound ph); lra). pose proof (Rabs_pos (sin ph)). nra. }
  split. { intros i Hi. destruct (Z i Hi). cbn [wdepth stream]. lra. }
  split; [intros i _; split; reflexivity|]. split.
  { split; [apply v3eq; cbn; lra|]. split; [unfold dot; cbn; lra|]. exists 0.6. apply v3eq; cbn; lra. }
  split; [reflexivity|]. unfold dot. cbn. lra.
Qed.
Example C106_point_met : let p := Point PFree (V3 0 0 (-5)) (V3 1 0 0) (1025 * 2) 2 vzero 0.3 1 [] in p_type p = PFree /\ p_att p = [] /\ p_F p = vzero /\ p_M p = rho_w demo_env * p_V p.
Proof. cbn. auto. Qed.
