(** Shapes of a line with bending stiffness. *)
From Coq Require Import Reals List.
From Verif Require Import MErr MVec MMat MInterp MLine SLine SBend.
Open Scope R_scope.

(** the same line with other node positions and velocities *)
Definition in_state (L : line) (r rd : nat -> v3) : line :=
  Line (lN L) (ldia L) (larea L) (lrho L) (lE L) (lEI L) (lc L) (lCan L) (lCat L) (lCdn L) (lCdt L) (lsx L) (lsy L) (lbx L) (lby L) (ldx L) (ldy L)
    (lisPb L) (lpin L) r rd (ll L) (lV L) (lcantA L) (lcantB L) (lqA L) (lqB L).
(** [U] is an energy of the shape whose loss is the power of the bending forces, in all motions above the tolerances *)
Definition bending_energy_of (L : line) (U : (nat -> v3) -> R) : Prop :=
  forall p rd t Bs, let M := in_state L (p t) rd in
    moves_as M p t -> long M -> (forall i, (S i < lN M)%nat -> bent (seg M i) (seg M (S i))) -> lBs M = Some Bs ->
    derivable_pt_lim (fun s => U (p s)) t (- power M Bs).
(** the angle between segment [i] and the next one *)
Definition angle (p : nat -> v3) (i : nat) : R := acos (cos_between (vsub (p (S i)) (p i)) (vsub (p (S (S i))) (p (S i)))).
(** the curvature of the bend between them: four over the length of both segments times the sine of half the angle *)
Definition curvature (L : line) (i : nat) : R := 4 / (norm (seg L i) + norm (seg L (S i))) * sin (angle (lr L) i / 2).
(** the moment at a curvature: the stiffness times the curvature, or what the curve has *)
Definition moment_at (L : line) (K m : R) : Prop :=
  match lbx L with nil => m = lEI L * K | _ => interp (lbx L) (lby L) K = Ok m end.
Definition moment_of (L : line) (i : nat) (m : R) : Prop := moment_at L (curvature L i) m.

(** the bends at clamped ends, between the direction of the clamp and the segment there *)
Definition angle_A (L : line) (p : nat -> v3) : R := acos (cos_between (lqA L) (vsub (p 1%nat) (p 0%nat))).
Definition angle_B (L : line) (p : nat -> v3) : R := acos (cos_between (vsub (p (lN L)) (p (lN L - 1)%nat)) (lqB L)).
Definition curvature_A (L : line) : R := 4 / norm (seg L 0) * sin (angle_A L (lr L) / 2).
Definition curvature_B (L : line) : R := 4 / norm (seg L (lN L - 1)) * sin (angle_B L (lr L) / 2).
(** above the tolerances *)
Definition bent_at (l : R) (u w : v3) : Prop :=
  cos_between u w + eps64 <= 1 /\ tol < 4 / l * sqrt ((1 - cos_between u w) / 2) /\ tol < sqrt (1 - cos_between u w * cos_between u w).
(** the moment [m] and the turning rate [d] of the bend at an end, if it is clamped *)
Definition clamp_bend (clamped : bool) (L : line) (K : R) (a : R -> R) (t m d : R) : Prop :=
  if clamped then moment_at L K m /\ derivable_pt_lim a t d else m = 0.
(** clamps have unit directions and their bends are above the tolerances *)
Definition ends_bent (L : line) : Prop :=
  (lcantA L = true -> dot (lqA L) (lqA L) = 1 /\ bent_at (norm (seg L 0)) (lqA L) (seg L 0)) /\
  (lcantB L = true -> dot (lqB L) (lqB L) = 1 /\ bent_at (norm (seg L (lN L - 1))) (seg L (lN L - 1)) (lqB L)).
