(** Specification vocabulary for state arithmetic: a system state seen as a flat list
    of numbers together with its shape (numbers of nodes and objects). *)
From Coq Require Import Reals List.
From Verif Require Import MVec MStateOps.
Import ListNotations.
Open Scope R_scope.

Definition l3 (v : v3) := [vx v; vy v; vz v].
Definition l6 (v : v6) := l3 (v6hd v) ++ l3 (v6tl v).
Definition lq (v : xyzquat) := l3 (xq_pos v) ++ [qw (xq_quat v); qx (xq_quat v); qy (xq_quat v); qz (xq_quat v)].

Definition flat_line (s : lst) := flat_map l3 (pos s) ++ flat_map l3 (vel s).
Definition flat_point (s : pst) := l3 (pos s) ++ l3 (vel s).
Definition flat_rigid (s : rst) := lq (pos s) ++ l6 (vel s).
Definition flat (s : mst) : list R :=
  flat_map flat_line (s_lines s) ++ flat_map flat_point (s_points s) ++
  flat_map flat_rigid (s_rods s) ++ flat_map flat_rigid (s_bodies s).

Definition flat_dline (s : dlst) := flat_map l3 (dvel s) ++ flat_map l3 (dacc s).
Definition flat_dpoint (s : dpst) := l3 (dvel s) ++ l3 (dacc s).
Definition flat_drigid (s : drst) := lq (dvel s) ++ l6 (dacc s).
Definition flatd (s : mdst) : list R :=
  flat_map flat_dline (d_lines s) ++ flat_map flat_dpoint (d_points s) ++
  flat_map flat_drigid (d_rods s) ++ flat_map flat_drigid (d_bodies s).

(** number of inner nodes of each line, numbers of points, rods and bodies *)
Definition shape (s : mst) := (map (fun l => length (pos l)) (s_lines s), length (s_points s), length (s_rods s), length (s_bodies s)).
Definition shaped (s : mdst) := (map (fun l => length (dvel l)) (d_lines s), length (d_points s), length (d_rods s), length (d_bodies s)).
(** every node has a position and a velocity *)
Definition regular (s : mst) := Forall (fun l : lst => length (vel l) = length (pos l)) (s_lines s).
Definition regulard (s : mdst) := Forall (fun l : dlst => length (dacc l) = length (dvel l)) (d_lines s).

(** entry by entry combination *)
Definition each (op : R -> R -> R) (a b : list R) : list R := map (fun p => op (fst p) (snd p)) (combine a b).
