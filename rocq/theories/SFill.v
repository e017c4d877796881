(** Specification vocabulary for wave grids made from components or from a record. *)
From Coq Require Import Reals List Arith.
From Verif Require Import MErr MVec MSpec MWaves MFFT SWaves SSpec SFFT.
Import ListNotations.
Open Scope R_scope.

(** the part of component i of n that reaches the grid: the mean and the highest frequency are halved *)
Definition share (n i : nat) : R := if orb (Nat.eqb i 0) (Nat.eqb i (n - 1)) then 1 / 2 else 1.
(** real part of a component with wave number k at a place and an instant *)
Definition real_wave (k : R) (c : fcomp) (x y t : R) : R :=
  let psi := f_omega c * t - k * (cos (f_beta c) * x + sin (f_beta c) * y) in f_re c * cos psi - f_im c * sin psi.
Definition nc (l : list fcomp) (i : nat) : fcomp := nth i l (FComp 0 0 0 0).
(** a wave field: elevation, velocity, acceleration and dynamic pressure *)
Record wave_field := WField { wf_eta : R -> R -> R -> R; wf_vel : field v3; wf_acc : field v3; wf_p : field R }.
(** [F] are linear waves over water of depth h, the sum of the components cs with the shares sh, every
    one with the wave number of its frequency *)
Definition linear_waves (g h rho : R) (cs : list fcomp) (sh : nat -> R) (F : wave_field) : Prop :=
  exists kappa Q : R -> R -> R, let kp w := kappa w h in
    (forall x y t, wf_eta F x y t = rsum (length cs) (fun i => sh i * real_wave (kp (f_omega (nc cs i))) (nc cs i) x y t)) /\
    (forall w, 0 < w -> 0 < kp w) /\ kp 0 = 0 /\
    (forall w, 0 < w -> 4.8 * g < w * w * h -> Rabs (g * (kp w * tanh (kp w * h)) - w * w) <= 2 / 10000000 * (w * w)) /\
    surface_moves (wf_eta F) (wf_vel F) /\ rate_of_change (wf_vel F) (wf_acc F) /\ incompressible (wf_vel F) /\ irrotational (wf_vel F) /\
    (forall x y t, Rabs (vz (wf_vel F x y (- h) t)) <= exp (- 89.4) * rsum (length cs) (fun i => f_omega (nc cs i) * sqrt (f_re (nc cs i) * f_re (nc cs i) + f_im (nc cs i) * f_im (nc cs i)))) /\
    (forall x y s t, wf_p F x y s t = rsum (length cs) (fun i => rho * g * Q (kp (f_omega (nc cs i))) s * (sh i * real_wave (kp (f_omega (nc cs i))) (nc cs i) x y t))) /\
    (forall s, Q 0 s = 1) /\
    (forall k s, 0 < k -> cosh (k * (s + h)) / cosh (k * h) <= Q k s <= cosh (k * (s + h)) / cosh (k * h) * (1 + exp (- 178.8))).
(** the tables of [G] hold the samples of [F] at its nodes and instants *)
Definition samples (G : wgrid) (F : wave_field) : Prop :=
  let a := wg_axes G in
  shape3 (length (px a)) (length (py a)) (nt a) (wg_zeta G) /\ shape4 (length (px a)) (length (py a)) (length (pz a)) (nt a) (wg_pdyn G) /\
  shape4 (length (px a)) (length (py a)) (length (pz a)) (nt a) (wg_vel G) /\ shape4 (length (px a)) (length (py a)) (length (pz a)) (nt a) (wg_acc G) /\
  forall ix iy r, (ix < length (px a))%nat -> (iy < length (py a))%nat -> (r < nt a)%nat ->
    let x := nth ix (px a) 0 in let y := nth iy (py a) 0 in let t := INR r * dtWave a in
    cell3 0 (wg_zeta G) ix iy r = wf_eta F x y t /\
    forall iz, (iz < length (pz a))%nat -> let z := nth iz (pz a) 0 in
      cell4 vzero (wg_vel G) ix iy iz r = wf_vel F x y z t /\ cell4 vzero (wg_acc G) ix iy iz r = wf_acc F x y z t /\ cell4 0 (wg_pdyn G) ix iy iz r = wf_p F x y z t.
