(** Specification vocabulary for rods: textbook cylinders, shares of a segmented axis, heading *)
From Coq Require Import Reals List Arith.
From Verif Require Import MErr MVec MMat MLine MRod SMat SLine.
Import ListNotations.
Open Scope R_scope.

(** kinetic energy of a uniform solid cylinder of mass [m], length [L] and radius [r] whose axis goes
    from the reference point along the unit vector [q], carried with the twist [t] *)
Definition cylinder_energy (m L r : R) (q : v3) (t : v6) : R :=
  let vc := velocity_at (vscale (L / 2) q) t in
  let w := v6tl t in
  m * dot vc vc / 2
  + (m * (r * r / 4 + L * L / 12) * (dot w w - dot w q * dot w q) + m * (r * r) / 2 * (dot w q * dot w q)) / 2.
(** the part of the axis attributed to node [i] of [N] equal segments of an axis of length [L] *)
Definition share_lo (N : nat) (L : R) (i : nat) : R := Rmax 0 ((INR i - 1 / 2) * (L / INR N)).
Definition share_hi (N : nat) (L : R) (i : nat) : R := Rmin L ((INR i + 1 / 2) * (L / INR N)).
(** length of the part of [a, b] before [h] *)
Definition before (a b h : R) : R := Rmax 0 (Rmin b h - a).
(** a unit direction whose heading is well conditioned: vertical, or off the vertical by more than the
    millionth below which the heading is dropped *)
Definition headed (q : v3) : Prop :=
  dot q q = 1 /\ (vx q * vx q + vy q * vy q = 0 \/ 1e-6 <= sqrt (vx q * vx q + vy q * vy q)).
(** positive size and density, non-negative coefficients *)
Definition sensible_rod (D : rod) : Prop :=
  (0 < rn D)%nat /\ 0 < rdia D /\ 0 < rrho D /\ 0 < rlen D /\ 0 <= rCan D /\ 0 <= rCat D /\ 0 <= rCdn D /\ 0 <= rCdEnd D /\ 0 <= rCaEnd D.
(** the square of the segment count times six fits an unsigned int *)
Definition few_segments (D : rod) : Prop := (6 * Z.of_nat (rn D) * Z.of_nat (rn D) < 2 ^ 32)%Z.
(** still water at level [zeta], nothing under the rod *)
Definition calm (k : wkin) (zeta : R) : Prop :=
  (forall i, wzeta k i = zeta) /\ (forall i, wU k i = vzero) /\ (forall i, wUd k i = vzero) /\ (forall i, wpdyn k i = 0).
Definition off_bottom (D : rod) (k : wkin) : Prop :=
  forall i, (i <= rn D)%nat -> wdepth k (vx (rnode D i)) (vy (rnode D i)) <= vz (rnode D i).
(** a force [f] applied at the offset [r] *)
Definition wrench_at (r f : v3) : v6 := V6 f (cross r f).
(** acceleration of the point at offset [r] of a rigid body: [a] of the reference point, angular [al],
    angular velocity [w] *)
Definition acceleration_at (r a al w : v3) : v3 := vadd (vadd a (cross al r)) (cross w (cross w r)).
(** a rod inclined by [ph] wholly below the level [zeta]: node [i] is the centre of a disc whose highest
    point is half a diameter times |sin ph| above it *)
Definition below (D : rod) (ph zeta : R) : Prop :=
  forall i, (i <= rn D)%nat -> vz (rnode D i) + 0.5 * rdia D * Rabs (sin ph) < zeta.
(** the disc at node [i] meets the level and the rod is almost vertical *)
Definition odd_section (D : rod) (zeta ph : R) (i : nat) : Prop :=
  vz (rnode D i) - 0.5 * rdia D * Rabs (sin ph) <= zeta <= vz (rnode D i) + 0.5 * rdia D * Rabs (sin ph) /\ Rabs (sin ph) < 0.001.
(** symmetric and never negative masses of the attached lines *)
Definition proper_lines (l : list endstuff) : Prop :=
  Forall (fun s => symmetric3 (esMass s) /\ forall u, 0 <= energy3 (esMass s) u) l.
