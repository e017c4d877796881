(** Specification vocabulary for masses, rotations and rigid motion: textbook definitions that do
    not mention the functions of the model. *)
From Coq Require Import Reals List.
From Verif Require Import MVec.
Import ListNotations.
Open Scope R_scope.

(** kinetic energy of a translating mass and of a 6 degree of freedom one *)
Definition energy3 (M : m3) (v : v3) : R := dot v (mmulv M v) / 2.
Definition energy6 (M : m6) (v : v6) : R := v6dot v (m6mulv M v) / 2.
(** velocity at the offset [r] of a body whose reference point moves with twist (v, w) *)
Definition velocity_at (r : v3) (t : v6) : v3 := vadd (v6hd t) (cross (v6tl t) r).
(** the same twist described at the offset [r] *)
Definition twist_at (r : v3) (t : v6) : v6 := V6 (velocity_at r t) (v6tl t).
Definition rotate_twist (Q : m3) (t : v6) : v6 := V6 (mmulv Q (v6hd t)) (mmulv Q (v6tl t)).
Definition symmetric3 (M : m3) : Prop := mtr M = M.
Definition symmetric6 (M : m6) : Prop := m6tran M = M.
Definition orthogonal (Q : m3) : Prop := mmul (mtr Q) Q = mid /\ mmul Q (mtr Q) = mid.
(** energy of particles (mass, offset) rigidly carried with a twist *)
Definition particles_energy (ps : list (R * v3)) (t : v6) : R :=
  fold_right (fun p a => fst p * dot (velocity_at (snd p) t) (velocity_at (snd p) t) / 2 + a) 0 ps.
Definition dist3 (a b : v3) : R := norm (vsub a b).
Definition m6zero : m6 := M6 mzero mzero mzero mzero.
Definition vopp (a : v3) : v3 := vscale (-1) a.
(** squared length of a quaternion *)
Definition qnorm2 (q : quat) : R := qw q * qw q + qx q * qx q + qy q * qy q + qz q * qz q.
(** a moving point has velocity v at time t *)
Definition moving (f : R -> v3) (t : R) (v : v3) : Prop :=
  derivable_pt_lim (fun s => vx (f s)) t (vx v) /\ derivable_pt_lim (fun s => vy (f s)) t (vy v) /\ derivable_pt_lim (fun s => vz (f s)) t (vz v).
