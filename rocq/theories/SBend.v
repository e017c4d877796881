(** Specification vocabulary for bending: circles, angles and bending energy. *)
From Coq Require Import Reals List.
From Verif Require Import MVec MMat MLine SMat SLine.
Open Scope R_scope.

(** two perpendicular directions *)
Definition frame (e1 e2 : v3) : Prop := dot e1 e1 = 1 /\ dot e2 e2 = 1 /\ dot e1 e2 = 0.
(** the point at the angle [phi] of a circle, and the direction of the circle there *)
Definition arc (c e1 e2 : v3) (rad phi : R) : v3 := vadd c (vadd (vscale (rad * cos phi) e1) (vscale (rad * sin phi) e2)).
Definition heading (e1 e2 : v3) (phi : R) : v3 := vadd (vscale (- sin phi) e1) (vscale (cos phi) e2).
(** the angle between neighbours is above the tolerances *)
Definition resolved (rad theta : R) : Prop :=
  0 < rad /\ 0 < theta < PI /\ cos theta + eps64 <= 1 /\ tol < / rad /\ tol < sin theta /\ tol < 2 * rad * sin (theta / 2) /\ tol < 2 * rad * sin theta.
(** the nodes of a line are at equal angles on a circle *)
Definition laid (L : line) (c e1 e2 : v3) (rad phi theta : R) : Prop := forall j, (j <= lN L)%nat -> lr L j = arc c e1 e2 rad (phi + INR j * theta).

(** cosine of the angle between two vectors *)
Definition cos_between (u w : v3) : R := dot u w / (norm u * norm w).
(** energy of a bend between two segments *)
Definition bend_energy (EI : R) (u w : v3) : R := 8 * EI * (1 - sqrt ((1 + cos_between u w) / 2)) / (norm u + norm w).
Definition line_bend_energy (L : line) (p : nat -> v3) : R :=
  nsum (lN L - 1) (fun i => bend_energy (lEI L) (vsub (p (S i)) (p i)) (vsub (p (S (S i))) (p (S i)))).
(** the bend between two segments is above the tolerances *)
Definition bent (u w : v3) : Prop :=
  cos_between u w + eps64 <= 1 /\ tol < 4 / (norm u + norm w) * sqrt ((1 - cos_between u w) / 2) /\ tol < sqrt (1 - cos_between u w * cos_between u w).
