(** Specification vocabulary for the forces of the water on slender objects (Morison's equation) *)
From Coq Require Import Reals List.
From Verif Require Import MVec MMat MLine MRod MBody SMat SLine SRod SBody.
Import ListNotations.
Open Scope R_scope.

(** [w] is the sum of [p] across the unit vector [t] and [q] along it *)
Definition splits (t w p q : v3) : Prop := w = vadd p q /\ dot p t = 0 /\ exists c, q = vscale c t.
(** the sum of a list of vectors *)
Definition total (l : list v3) : v3 := fold_right vadd vzero l.
(** weight of a mass [m] less the buoyancy of a volume [V], upwards *)
Definition wet_weight (e : envc) (m V : R) : v3 := V3 0 0 (gr e * (rho_w e * V - m)).
(** a straight line along the unit vector [t], with segments longer than the tolerance; ends that are held by a rod
    are held in this direction *)
Definition straight (L : line) (t : v3) : Prop :=
  dot t t = 1 /\ (forall i, (i < lN L)%nat -> exists s, tol < s /\ seg L i = vscale s t) /\
  (lcantA L = true -> lqA L = t) /\ (lcantB L = true -> lqB L = t).
(** all nodes lie below the surface and not below the sea bed *)
Definition in_water (L : line) (k : wkin) : Prop := forall i, (i <= lN L)%nat ->
  wzeta k i = wzeta k 0 /\ vz (lr L i) < wzeta k 0 /\ wdepth k (vx (lr L i)) (vy (lr L i)) <= vz (lr L i).
(** the same flow everywhere, up to node [n] *)
Definition uniform (k : wkin) (n : nat) (U A : v3) : Prop := forall i, (i <= n)%nat -> wU k i = U /\ wUd k i = A.
(** length and volume of a line *)
Definition line_length (L : line) : R := nsum (lN L) (ll L).
Definition line_volume (L : line) : R := PI * (ldia L / 2) ^ 2 * line_length L.
(** round section, as Line::setup computes it *)
Definition round (L : line) : Prop := larea L = PI / 4 * ldia L * ldia L /\ forall i, (i < lN L)%nat -> lV L i = larea L * ll L i.
(** area, volume and mass of a rod, and the half sphere of water at an end *)
Definition rod_end_area (D : rod) : R := PI * (rdia D / 2) ^ 2.
Definition rod_volume (D : rod) : R := rod_end_area D * rlen D.
Definition half_sphere (D : rod) : R := 2 / 3 * PI * (rdia D / 2) ^ 3.
