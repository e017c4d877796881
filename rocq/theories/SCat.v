(** Specification vocabulary for the initial shape of lines. *)
From Coq Require Import Reals List.
From Verif Require Import MVec.
Import ListNotations.
Open Scope R_scope.

(** An elastic line in a vertical plane, described by the unstretched length s from one end: horizontal and
    vertical position X s, Z s, horizontal and vertical tension h s, v s. *)
Section Line.
Variables (L EA W CB : R).
Variables X Z h v : R -> R.
Definition tension (s : R) : R := sqrt (h s * h s + v s * v s).
(** Hooke's law: the tangent has the length 1 + T / EA and the direction of the tension *)
Definition elastic (s : R) : Prop := exists dx dz,
  derivable_pt_lim X s dx /\ derivable_pt_lim Z s dz /\ dx * dx + dz * dz = (1 + tension s / EA) * (1 + tension s / EA) /\
  tension s * dx = (1 + tension s / EA) * h s /\ tension s * dz = (1 + tension s / EA) * v s.
(** balance of the forces on an element in the water: the weight W per unstretched length *)
Definition suspended (s : R) : Prop := derivable_pt_lim h s 0 /\ derivable_pt_lim v s W.
(** balance on the sea bed at the height zb: the bed carries the weight, with friction up to CB times the weight *)
Definition resting (zb s : R) : Prop := 0 <= CB /\ Z s = zb /\ v s = 0 /\ exists f, derivable_pt_lim h s f /\ Rabs f <= CB * W.
(** static equilibrium, except for a few points [kinks] where only continuity is claimed *)
Definition static_line (zb : R) (kinks : list R) : Prop :=
  (forall s, 0 <= s <= L -> continuity_pt X s /\ continuity_pt Z s /\ continuity_pt h s /\ continuity_pt v s) /\
  (forall s, 0 <= s <= L -> 0 < W -> 0 <= CB -> zb <= Z s) /\
  forall s, 0 < s < L -> ~ In s kinks -> elastic s /\ (suspended s \/ resting zb s).
End Line.

(** [E h v] is where the far end of a line of length L comes to lie, seen from its lower end, when it is pulled
    with the tension (h, v): without a sea bed, or with a part of it lying on a sea bed without friction *)
Definition end_map (L EA W : R) (bed : bool) (E : R -> R -> R * R) : Prop :=
  forall h v, 0 < h -> (bed = true -> 0 < v <= W * L) -> exists X Z H V kinks,
    (length kinks <= 2)%nat /\ static_line L EA W (if bed then 0 else -1) X Z H V 0 kinks /\ X 0 = 0 /\ Z 0 = 0 /\ H L = h /\ V L = v /\
    (bed = true -> V 0 = 0) /\ E h v = (X L, Z L).
(** to first order, changing the tension (HF, VF) by (a, b) brings the end to (x, z): Newton's step *)
Definition newton (E : R -> R -> R * R) (HF VF x z a b : R) : Prop := exists p q r t,
  derivable_pt_lim (fun h => fst (E h VF)) HF p /\ derivable_pt_lim (fun v => fst (E HF v)) VF q /\
  derivable_pt_lim (fun h => snd (E h VF)) HF r /\ derivable_pt_lim (fun v => snd (E HF v)) VF t /\
  fst (E HF VF) + p * a + q * b = x /\ snd (E HF VF) + r * a + t * b = z.
(** the point (x, z) is reached from [E HF VF] to first order by a change of the tension of at most (eh, ev) *)
Definition reaches (E : R -> R -> R * R) (HF VF x z eh ev : R) : Prop := exists a b, newton E HF VF x z a b /\ Rabs a <= eh /\ Rabs b <= ev.
(** the N + 1 nodes of a line between r0 and rN, whose horizontal distance is d: evenly along the straight line, or at
    even unstretched distances along a line in static equilibrium in the vertical plane through both ends, which
    starts at its lower end (the length d and the difference of the heights are not taken below 1e-5) *)
Definition straight_between (r0 rN : v3) (N : nat) (ps : list v3) : Prop :=
  forall i, (i <= N)%nat -> nth i ps (V3 0 0 0) = vadd r0 (vscale (INR i / INR N) (vsub rN r0)).
Definition static_between (U EA W CB : R) (r0 rN : v3) (d : R) (N : nat) (ps : list v3) : Prop :=
  exists X Z h v kinks, let low := if Rlt_dec (vz rN) (vz r0) then U else 0 in
    (length kinks <= 2)%nat /\ static_line U EA W CB X Z h v (Z low) kinks /\
    (if Rlt_dec (vz rN) (vz r0) then X U = Rmax d (1 / 100000) /\ Z U = - Rmax (vz r0 - vz rN) (1 / 100000) else X 0 = 0 /\ Z 0 = 0) /\
    forall i, (0 < i < N)%nat -> let s := INR i * U / INR N in
      nth i ps (V3 0 0 0) = vadd r0 (V3 (X s * ((vx rN - vx r0) / d)) (X s * ((vy rN - vy r0) / d)) (Z s)).
(** the mass, damping and stiffness with which a node moves along the line when its neighbours move against it:
    nodes of the mass m, segments of the stiffness k and the damping c; the fraction of critical damping *)
Definition damping_ratio (m c k : R) : R := (4 * c) / (2 * sqrt ((4 * k) * m)).
