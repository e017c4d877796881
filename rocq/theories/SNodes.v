(** Specification vocabulary for the water kinematics at nodes. *)
From Coq Require Import List Arith ZArith Bool Reals.
From Verif Require Import MErr MVec MNodes.
Import ListNotations.
Local Open Scope nat_scope.

(** a node of the system *)
Inductive addr := ALine (l j : nat) | ARod (r j : nat) | APoint (p : nat) | ABody (b : nat).
Definition get2 {A} (l : list (list A)) (r j : nat) : option A := match nth_error l r with Some row => nth_error row j | None => None end.
Definition position (s : nodes) (a : addr) : option v3 :=
  match a with ALine l j => get2 (n_lines s) l j | ARod r j => get2 (n_rods s) r j | APoint p => nth_error (n_points s) p | ABody b => nth_error (n_bodies s) b end.
Definition water (t : wtab) (a : addr) : option wkin :=
  match a with ALine l j => get2 (t_lines t) l j | ARod r j => get2 (t_rods t) r j | APoint p => get2 (t_points t) p 0 | ABody b => get2 (t_bodies t) b 0 end.
(** a table with one entry for each node *)
Definition fits (s : nodes) (t : wtab) :=
  map (@length wkin) (t_lines t) = map (@length v3) (n_lines s) /\ map (@length wkin) (t_rods t) = map (@length v3) (n_rods s) /\
  map (@length wkin) (t_points t) = map (fun _ => 1) (n_points s) /\ map (@length wkin) (t_bodies t) = map (fun _ => 1) (n_bodies s).
(** a numbering of the nodes from 0 to n - 1 *)
Definition numbering (s : nodes) (n : nat) (idx : addr -> nat) :=
  (forall a p, position s a = Some p -> idx a < n) /\
  (forall a b p q, position s a = Some p -> position s b = Some q -> idx a = idx b -> a = b) /\
  (forall i, i < n -> exists a p, position s a = Some p /\ idx a = i).
