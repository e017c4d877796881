(** Bending moments at the ends of lines with a bending curve. *)
From Coq Require Import Reals List Arith ZArith Bool.
From Verif Require Import MErr MVec MMat MInterp MLine SLine SEnd.
Open Scope R_scope.

(** the curvature of the bend at an end *)
Definition end_curvature (L : line) (ep : Z) : R := 4 / end_length L ep * sqrt ((1 - dot (bend_from L ep) (bend_to L ep)) / 2).
(** [m] is the bending moment of the line at an end: none at a pinned end or in a straight line, else what the curve has at
    the curvature, about the normal of the bend *)
Definition bends_by_curve (L : line) (ep : Z) (m : v3) : Prop :=
  end_clamped L ep = false /\ m = vzero \/
  end_clamped L ep = true /\ straight (bend_from L ep) (bend_to L ep) /\ m = vzero \/
  end_clamped L ep = true /\ clear (end_length L ep) (bend_from L ep) (bend_to L ep) /\
    exists Y, interp (lbx L) (lby L) (end_curvature L ep) = Ok Y /\ m = vscale (Y / norm (cross (bend_from L ep) (bend_to L ep))) (cross (bend_from L ep) (bend_to L ep)).
