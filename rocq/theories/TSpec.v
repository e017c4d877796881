(** Property theorems: waves summed over the components of a spectrum (C90). *)
From Coq Require Import Reals ZArith List Arith Lra Lia.
From Verif Require Import MErr MVec MMat MStateOps MInterp MSeafloor MWaves MSpec SInterp SWaves SMat SSpec PSpec.
Import ListNotations.
Open Scope R_scope.

(** C90: for every spectrum of non-negative frequencies there is one elevation and one flow, defined
    over the undisturbed water column, which satisfy the equations of linear waves, and every query
    returns the elevation, and the flow at the depth that the stretching of the water column assigns to
    the position.  The elevation is the sum of the waves of the file, each travelling in its direction. *)
Theorem C90_linear_waves : forall fs g h, 0 < g -> 0 < h -> Forall (fun f => 0 <= f_omega f) fs ->
  exists (eta : R -> R -> R -> R) (U A : field v3) (kappa : R -> R),
    (forall x y t, eta x y t = lsum (fun f => let psi := f_omega f * t - kappa (f_omega f) * (cos (f_beta f) * x + sin (f_beta f) * y) in
                                              f_re f * sin psi + f_im f * cos psi) fs) /\
    (forall w, 0 < w -> 0 < kappa w) /\ kappa 0 = 0 /\
    (forall w, 0 < w -> 4.8 * g < w * w * h -> Rabs (g * (kappa w * tanh (kappa w * h)) - w * w) <= 2 / 10000000 * (w * w)) /\
    surface_moves eta U /\ rate_of_change U A /\ incompressible U /\ irrotational U /\
    (forall x y t, Rabs (vz (U x y (- h) t)) <= exp (- 89.4) * lsum (fun f => f_omega f * sqrt (f_re f * f_re f + f_im f * f_im f)) fs) /\
    forall pos t sf bottom, getAverageDepth sf = - h -> getDepth sf (vx pos) (vy pos) = Ok bottom -> bottom < eta (vx pos) (vy pos) t ->
      exists out s, spectrum_kin (setup g h fs) pos t sf = Ok out /\ o_zeta out = eta (vx pos) (vy pos) t /\
        column (- h) bottom (o_zeta out) (vz pos) s /\ o_vel out = U (vx pos) (vy pos) s t /\ o_acc out = A (vx pos) (vy pos) s t.
Proof.
  intros fs g h Hg Hh H. pose proof (setup_all g h fs Hg Hh H) as K.
  exists (elev (setup g h fs)), (total (setup g h fs) h), (totacc (setup g h fs) h), (fun w => WaveNumber w g h).
  split; [intros; apply elev_setup|]. split; [intros; apply wavenumber_pos; assumption|]. split; [apply wavenumber_0|].
  split; [intros; apply wavenumber_dispersion; assumption|].
  split; [apply sum_surface; assumption|]. split; [apply sum_rate; assumption|].
  split; [|split; [|split]].
  - intros x y s t. destruct (sum_grad h Hh _ x y s t K) as (d & D1 & D2 & D3 & D4 & _). exists (d 0%nat 0%nat), (d 1%nat 1%nat), (d 2%nat 2%nat).
    split; [apply D1|]. split; [apply D2|]. split; [apply D3|exact D4].
  - intros x y s t. destruct (sum_grad h Hh _ x y s t K) as (d & D1 & D2 & D3 & _ & E1 & E2 & E3). exists (d 0%nat 1%nat), (d 0%nat 2%nat), (d 1%nat 2%nat).
    split; [apply D1|]. split; [rewrite E1; apply D2|]. split; [apply D1|]. split; [rewrite E2; apply D3|]. split; [apply D2|rewrite E3; apply D3].
  - intros x y t. rewrite <- (amp_setup g h). apply sum_bottom; assumption.
  - intros pos t sf bottom Ha Hd He. apply kin_run; assumption.
Qed.
Print Assumptions C90_linear_waves.

(** the wave number solves the dispersion relation k tanh(k h) = w^2 / g to seven digits; missing:
    depths h < 4.8 g / w^2, where the wave number is shown positive only *)
Theorem C90_dispersion_partial : forall w g h, 0 < w -> 0 < g -> 0 < h -> 4.8 * g < w * w * h ->
  Rabs (g * (WaveNumber w g h * tanh (WaveNumber w g h * h)) - w * w) <= 2 / 10000000 * (w * w).
Proof. exact wavenumber_dispersion. Qed.
Print Assumptions C90_dispersion_partial.

(** at a fixed position the acceleration is not the rate of change of the velocity: the stretching moves
    with the surface *)
Theorem C90_acceleration_refuted : exists fs g h pos sf (out : R -> wout), Forall (fun f => 0 <= f_omega f) fs /\ 0 < g /\ 0 < h /\
  (forall t, spectrum_kin (setup g h fs) pos t sf = Ok (out t)) /\
  ~ moving (fun t => o_vel (out t)) 0 (o_acc (out 0)).
Proof.
  exists one_wave, 10, 100, (V3 0 0 (-1)), deep100.
  exists (fun t => match spectrum_kin (setup 10 100 one_wave) (V3 0 0 (-1)) t deep100 with Ok o => o | _ => WOut 0 vzero vzero 0 end).
  split; [repeat constructor; cbn; lra|]. split; [lra|]. split; [lra|]. split.
  - intros t. destruct (one_vel t) as (o & -> & _). reflexivity.
  - intros (_ & _ & D). destruct (one_vel 0) as (o & E & _ & _ & A & _). rewrite E, A in D. replace (10 * 0) with 0 in D by ring. rewrite sin_0 in D.
    replace (- 100 * 0 * exp (k1 * s1 0)) with 0 in D by ring.
    assert (D' : derivable_pt_lim (fun t => 10 * cos (10 * t) * exp (k1 * s1 t)) 0 0).
    { eapply PBend.deriv_ext; [|exact D]. intros t. cbv beta. destruct (one_vel t) as (o' & -> & -> & _). reflexivity. }
    pose proof (uniqueness_limite _ _ _ _ one_vel_deriv D') as Q. pose proof k1_deep. pose proof (exp_pos (- k1)). nra.
Qed.
Print Assumptions C90_acceleration_refuted.

(** the dynamic pressure is always 0, although the water accelerates *)
Theorem C90_pressure_refuted : (forall cs pos t sf out, spectrum_kin cs pos t sf = Ok out -> o_pdyn out = 0) /\
  exists fs g h pos t sf out, Forall (fun f => 0 <= f_omega f) fs /\ 0 < g /\ 0 < h /\ spectrum_kin (setup g h fs) pos t sf = Ok out /\ 0 < vx (o_acc out).
Proof.
  split.
  - intros cs pos t sf out H. unfold spectrum_kin in H. destruct (getDepth sf (vx pos) (vy pos)); try discriminate. cbn [obind] in H.
    destruct (stretched _ _ _ _); try discriminate. cbn [obind] in H. match type of H with Ok ?w = Ok _ => assert (Q : out = w) by congruence end.
    rewrite Q. reflexivity.
  - destruct (one_vel 0) as (o & E & _ & A & _). exists one_wave, 10, 100, (V3 0 0 (-1)), 0, deep100, o.
    split; [repeat constructor; cbn; lra|]. split; [lra|]. split; [lra|]. split; [exact E|]. rewrite A. replace (10 * 0) with 0 by ring. rewrite cos_0.
    pose proof (exp_pos (k1 * s1 0)). lra.
Qed.
Print Assumptions C90_pressure_refuted.

(* ------------------------------ the hypotheses are met ------------------------------ *)
(** two waves across each other over 10 m of water, seen below the surface *)
Definition cross_sea : list fcomp := [FComp 0 0 0 0; FComp 1 0.5 0 0; FComp 2 0 0.25 (PI / 2)].
Example C90_case : exists out, spectrum_kin (setup 9.8 10 cross_sea) (V3 1 2 (-3)) 4 (Prov (-10) None) = Ok out /\ -1 < o_zeta out < 1.
Proof.
  destruct (C90_linear_waves cross_sea 9.8 10) as (eta & U & A & kap & E & _ & _ & _ & _ & _ & _ & _ & _ & R); [lra|lra|repeat constructor; cbn; lra|].
  assert (B : forall x y t, -1 < eta x y t < 1).
  { intros. rewrite E. cbn [lsum cross_sea f_re f_im f_omega f_beta]. cbv zeta.
    match goal with |- -1 < 0 * sin ?a + 0 * cos ?a + (0.5 * sin ?b + 0 * cos ?b + (0 * sin ?c + 0.25 * cos ?c + 0)) < 1 =>
      pose proof (SIN_bound b); pose proof (COS_bound c) end. lra. }
  destruct (R (V3 1 2 (-3)) 4 (Prov (-10) None) (-10)) as (out & s & Q & Z & _); [cbn; lra|reflexivity|cbn; pose proof (B 1 2 4); lra|].
  exists out. split; [exact Q|]. rewrite Z. apply B.
Qed.
(** a wave of 10 s in 150 m of water is deep *)
Example C90_dispersion_case : 4.8 * 9.8 < 0.63 * 0.63 * 150.
Proof. lra. Qed.
