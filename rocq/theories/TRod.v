(** Property theorems about rods: C39, C44, C45, C67 - C70.
    Everywhere [rangles D = Ok (ph, be)] gives the inclination and heading the code computes for the
    direction of the rod; it never fails for a unit direction (first theorem of C69). *)
From Coq Require Import Reals List Lra Lia Arith ZArith.
From Verif Require Import MErr MVec MMat MLine MRod SMat SLine SRod PRod PRodB PRodC.
Import ListNotations.
Open Scope R_scope.

(** *** C39 (rods) *)
Theorem C39_rod_drag_dissipates : forall D e k ph i, sensible_rod D -> 0 <= rho_w e -> dot (rq D) (rq D) <= 1 ->
  dot (vadd (rDp D e k ph i) (rDq D e k ph i)) (vsub (rvel D i) (wU k i)) <= 0.
Proof. exact rod_drag. Qed.
Print Assumptions C39_rod_drag_dissipates.
Example C39_rod_met : sensible_rod (rod1 (V3 0.6 0 0.8) vzero (V3 0 1 0)) /\ dot (V3 0.6 0 0.8) (V3 0.6 0 0.8) <= 1.
Proof. split; [apply rod1_sensible|]. unfold dot. cbn. lra. Qed.

(** *** C44.  In vacuum the 6x6 mass matrix is that of the uniform solid cylinder about its end, for every
    number of segments whose square times six fits 32 bits *)
Theorem C44_cylinder_partial : forall D e k ph be, sensible_rod D -> few_segments D -> headed (rq D) -> rangles D = Ok (ph, be) -> rho_w e = 0 ->
  exists M, rM6net D e k ph be [] [] = Some M /\ symmetric6 M /\
  forall t, energy6 M t = cylinder_energy (rmass D) (rlen D) (rdia D / 2) (rq D) t.
Proof. exact rod_inertia. Qed.
Print Assumptions C44_cylinder_partial.
(** in water and with lines it is never less, and always positive definite *)
Theorem C44_positive_definite_partial : forall D e k ph be a b, sensible_rod D -> few_segments D -> headed (rq D) -> rangles D = Ok (ph, be) -> 0 <= rho_w e ->
  proper_lines a -> proper_lines b ->
  exists M, rM6net D e k ph be a b = Some M /\ symmetric6 M /\
  (forall t, cylinder_energy (rmass D) (rlen D) (rdia D / 2) (rq D) t <= energy6 M t) /\ forall t, t <> v6zero -> 0 < energy6 M t.
Proof. exact rod_inertia_wet. Qed.
Print Assumptions C44_positive_definite_partial.
(** with 65536 segments the correction divides by zero: 6*N*N wraps to 0 *)
Theorem C44_many_segments_refuted : forall D e k ph be a b, rn D = Z.to_nat 65536 -> rM6net D e k ph be a b = None.
Proof. exact many_segments. Qed.
Print Assumptions C44_many_segments_refuted.
Example C44_met : let D := rod1 (V3 0.6 0 0.8) vzero (V3 0 1 0) in
  sensible_rod D /\ few_segments D /\ headed (rq D) /\ exists ph be, rangles D = Ok (ph, be).
Proof. split; [apply rod1_sensible|]. split; [apply rod1_few|]. split; [exact slant_headed|]. apply headed_angles; [cbn; lia | exact slant_headed]. Qed.

(** *** C45 *)
(** an upright rod that pierces the surface at distance [h] of end A: each node counts the part of its
    share of the axis that is below the surface *)
Theorem C45_upright_partial : forall D zeta ph be i h, (0 < rn D)%nat -> 0 < rlen D -> rq D = V3 0 0 1 -> rangles D = Ok (ph, be) ->
  vz (rA D) < zeta < vz (rB D) -> vz (rA D) + h = zeta -> (i <= rn D)%nat ->
  let a := share_lo (rn D) (rlen D) i in let b := share_hi (rn D) (rlen D) i in
  rVOF D zeta ph i * (b - a) = before a b h.
Proof. exact upright_submergence. Qed.
Print Assumptions C45_upright_partial.
(** any rod wholly below, or wholly above, the surface *)
Theorem C45_submerged_partial : forall D zeta ph i, (0 < rn D)%nat -> 0 < rdia D -> 0 <= rlen D -> (i <= rn D)%nat ->
  vz (rA D) < zeta -> vz (rB D) < zeta -> rz1hi D ph i < zeta -> rVOF D zeta ph i = 1.
Proof. exact submerged_VOF. Qed.
Print Assumptions C45_submerged_partial.
Theorem C45_dry_partial : forall D zeta ph i, (0 < rn D)%nat -> 0 < rdia D -> 0 < rlen D -> (i <= rn D)%nat ->
  zeta < vz (rA D) -> zeta < vz (rB D) -> zeta < rz1lo D ph i -> rVOF D zeta ph i = 0.
Proof. exact dry_VOF. Qed.
Print Assumptions C45_dry_partial.
(** the same rod upside down: all its nodes count as under water, also those above the surface, and its
    "Sub" channel reads 1 *)
Theorem C45_upside_down_refuted : forall D zeta ph be, (0 < rn D)%nat -> 0 < rlen D -> rq D = V3 0 0 (-1) -> rangles D = Ok (ph, be) ->
  vz (rB D) < zeta < vz (rA D) -> (forall i, (i <= rn D)%nat -> rVOF D zeta ph i = 1) /\ rod_sub D zeta ph = 1.
Proof.
  exact (fun D zeta ph be HN HL Hq HA Hz =>
    conj (fun i => upside_down_all_wet D zeta ph be i HN HL Hq HA Hz)
         (all_wet_sub D zeta ph (fun i => upside_down_all_wet D zeta ph be i HN HL Hq HA Hz))).
Qed.
Print Assumptions C45_upside_down_refuted.
(** a rod under water whose upper end is exactly at the surface counts as dry *)
Theorem C45_touching_refuted : forall D zeta ph be i, (0 < rn D)%nat -> 0 < rlen D -> rq D = V3 0 0 1 -> rangles D = Ok (ph, be) ->
  vz (rB D) = zeta -> (i <= rn D)%nat -> rVOF D zeta ph i = 0.
Proof. exact touching_dry. Qed.
Print Assumptions C45_touching_refuted.
Example C45_met : let D := rod1 (V3 0 0 1) (V3 0 0 (-1)) vzero in
  (0 < rn D)%nat /\ (exists ph be, rangles D = Ok (ph, be)) /\ vz (rA D) < 0 < vz (rB D) /\ vz (rA D) + 1 = 0 /\ before (share_lo 2 4 0) (share_hi 2 4 0) 1 = 1
  /\ before (share_lo 2 4 1) (share_hi 2 4 1) 1 = 0.
Proof.
  split; [cbn; lia|]. split; [apply headed_angles; [cbn; lia | exact (proj1 up_headed)]|]. split; [cbn; lra|]. split; [cbn; lra|].
  unfold before, share_lo, share_hi. cbn [INR]. split.
  - rewrite (Rmax_left 0 ((0 - 1 / 2) * (4 / (1 + 1)))) by lra. rewrite (Rmin_right 4) by lra. rewrite Rmin_left by lra. rewrite Rmax_right; lra.
  - rewrite (Rmax_right 0 ((1 - 1 / 2) * (4 / (1 + 1)))) by lra. rewrite (Rmin_right 4) by lra. rewrite Rmin_right by lra. rewrite Rmax_left; lra.
Qed.
Example C45_down_met : let D := rod1 (V3 0 0 (-1)) (V3 0 0 3) vzero in
  (exists ph be, rangles D = Ok (ph, be)) /\ vz (rB D) < 0 < vz (rA D) /\ 0 < vz (rnode D 1).
Proof. split; [apply headed_angles; [cbn; lia | exact (proj2 up_headed)]|]. cbn. lra. Qed.

(** *** C67.  A rod at rest wholly under still water: the net force is weight minus the weight of the displaced
    water, applied at the middle of the rod, whatever the inclination *)
Theorem C67_archimedes_partial : forall D e k ph be zeta, sensible_rod D -> headed (rq D) -> rangles D = Ok (ph, be) ->
  calm k zeta -> off_bottom D k -> rvA D = vzero -> rw D = vzero -> below D ph zeta ->
  rF6net D e k ph be [] [] =
  wrench_at (vscale (rlen D / 2) (rq D)) (V3 0 0 ((rho_w e * (PI / 4 * rdia D * rdia D * rlen D) - rmass D) * gr e)).
Proof. exact rod_archimedes. Qed.
Print Assumptions C67_archimedes_partial.
(** an upright rod immersed by [h]: the buoyancy is that of the immersed part times min (1, h / (L / 2N)), so
    it is too small when less than half a segment is immersed *)
Theorem C67_light_immersion_refuted : forall D e k ph be, sensible_rod D -> rq D = V3 0 0 1 -> rangles D = Ok (ph, be) ->
  calm k 0 -> off_bottom D k -> rvA D = vzero -> rw D = vzero -> vz (rA D) < 0 < vz (rB D) ->
  let h := - vz (rA D) in
  v6hd (rF6net D e k ph be [] []) =
  V3 0 0 (rho_w e * (PI / 4 * rdia D * rdia D * h) * gr e * Rmin 1 (h / (rlen D / (2 * INR (rn D)))) - rmass D * gr e).
Proof. exact rod_partly. Qed.
Print Assumptions C67_light_immersion_refuted.
Example C67_met : let D := rod1 (V3 0 0 1) (V3 0 0 (-10)) vzero in let k := pool 0 in
  sensible_rod D /\ calm k 0 /\ off_bottom D k /\ forall ph, Rabs (sin ph) <= 1 -> below D ph 0.
Proof.
  split; [apply rod1_sensible|]. split; [apply pool_calm|]. split.
  - intros i Hi. cbn in Hi. destruct i as [|[|[|i]]]; [| | |lia]; cbn; lra.
  - intros ph Hp i Hi. cbn in Hi. destruct i as [|[|[|i]]]; [| | |lia]; cbn; lra.
Qed.
Example C67_light_met : let D := rod1 (V3 0 0 1) (V3 0 0 (-0.5)) vzero in
  vz (rA D) < 0 < vz (rB D) /\ Rmin 1 (0.5 / (rlen D / (2 * INR (rn D)))) = 1 / 2.
Proof. split; [cbn; lra|]. cbn [rod1 rlen rn INR]. rewrite Rmin_right; lra. Qed.

(** *** C68.  Free fall of a free rod in vacuum: its equation of motion gives the centre of mass the acceleration of
    gravity plus w x (w x rc), because the centripetal terms are left out *)
Theorem C68_centre_of_mass_refuted : forall D e k ph be zeta M a, sensible_rod D -> rho_w e = 0 -> calm k zeta -> off_bottom D k ->
  rM6net D e k ph be [] [] = Some M -> m6mulv M a = rF6net D e k ph be [] [] ->
  let rc := vscale (rlen D / 2) (rq D) in
  acceleration_at rc (v6hd a) (v6tl a) (rw D) = vadd (V3 0 0 (- gr e)) (cross (rw D) (cross (rw D) rc)).
Proof. exact rod_com. Qed.
Print Assumptions C68_centre_of_mass_refuted.
(** ... which is not zero for a rod that tumbles *)
Theorem C68_extra_not_zero_refuted : forall w q L, dot q q = 1 -> dot w q = 0 -> w <> vzero -> L <> 0 ->
  cross w (cross w (vscale (L / 2) q)) <> vzero.
Proof. exact spin_extra. Qed.
Print Assumptions C68_extra_not_zero_refuted.
(** a rod that does not rotate falls as it should *)
Theorem C68_no_rotation_partial : forall D e k ph be zeta M a, sensible_rod D -> rho_w e = 0 -> calm k zeta -> off_bottom D k -> rw D = vzero ->
  rM6net D e k ph be [] [] = Some M -> m6mulv M a = rF6net D e k ph be [] [] ->
  acceleration_at (vscale (rlen D / 2) (rq D)) (v6hd a) (v6tl a) (rw D) = V3 0 0 (- gr e).
Proof. exact rod_com_still. Qed.
Print Assumptions C68_no_rotation_partial.
Example C68_met : let D := rod1 (V3 0 0 1) vzero (V3 1 0 0) in sensible_rod D /\ calm (pool 0) 0 /\ off_bottom D (pool 0) /\ dot (rw D) (rq D) = 0 /\ rw D <> vzero.
Proof.
  split; [apply rod1_sensible|]. split; [apply pool_calm|]. split.
  - intros i Hi. cbn in Hi. destruct i as [|[|[|i]]]; [| | |lia]; cbn; lra.
  - split; [unfold dot; cbn; ring|]. intros C. injection C. lra.
Qed.

(** *** C69.  The nodes of a rod are equally spaced along its direction, span its length and move as one rigid body *)
Theorem C69_angles : forall D, (0 < rn D)%nat -> headed (rq D) -> exists ph be, rangles D = Ok (ph, be).
Proof. exact headed_angles. Qed.
Print Assumptions C69_angles.
Theorem C69_rigid : forall D i j, (0 < rn D)%nat -> (i <= rn D)%nat -> (j <= rn D)%nat ->
  rvel D i = vadd (rvel D j) (cross (rw D) (vsub (rnode D i) (rnode D j))).
Proof. exact rod_rigid. Qed.
Print Assumptions C69_rigid.
Theorem C69_spacing : forall D i, (0 < rn D)%nat -> dot (rq D) (rq D) = 1 -> 0 <= rlen D -> (i < rn D)%nat ->
  norm (vsub (rnode D (S i)) (rnode D i)) = rlen D / INR (rn D).
Proof. exact rod_spacing. Qed.
Print Assumptions C69_spacing.
Theorem C69_far_end : forall D, (0 < rn D)%nat -> dot (rq D) (rq D) = 1 -> 0 <= rlen D ->
  rnode D (rn D) = vadd (rA D) (vscale (rlen D) (rq D)) /\ norm (vsub (rnode D (rn D)) (rnode D 0)) = rlen D.
Proof. exact rod_far_end. Qed.
Print Assumptions C69_far_end.
Example C69_met : let D := rod1 (V3 0.6 0 0.8) vzero (V3 0 1 0) in (0 < rn D)%nat /\ dot (rq D) (rq D) = 1 /\ 0 <= rlen D.
Proof. cbn. unfold dot. cbn. repeat split; try lia; lra. Qed.

(** *** C70.  The submerged fraction of a node lies between 0 and 1, except when an almost vertical rod of small
    diameter has the disc of a node across the surface *)
Theorem C70_not_negative : forall D zeta ph i, (0 < rn D)%nat -> 0 < rdia D -> 0 <= rlen D -> 0 <= rVOF D zeta ph i.
Proof. exact rVOF_nonneg. Qed.
Print Assumptions C70_not_negative.
Theorem C70_at_most_one_partial : forall D zeta ph i, (0 < rn D)%nat -> 0 < rdia D -> 0 <= rlen D -> ~ odd_section D zeta ph i -> rVOF D zeta ph i <= 1.
Proof. exact rVOF_le1. Qed.
Print Assumptions C70_at_most_one_partial.
Theorem C70_above_one_refuted : exists D ph be zeta, sensible_rod D /\ headed (rq D) /\ rangles D = Ok (ph, be) /\ 1 < rVOF D zeta ph (rn D).
Proof. exact fraction_above_one. Qed.
Print Assumptions C70_above_one_refuted.
