(** Specification vocabulary for gridded wave and current data. *)
From Coq Require Import Reals ZArith List.
From Verif Require Import MVec SInterp.
Import ListNotations.
Open Scope R_scope.

(** a table of nx by ny by nz by nw samples, and its cells *)
Definition shape1 {A} (n : nat) (v : list A) := length v = n.
Definition shape2 {A} (n m : nat) (v : list (list A)) := length v = n /\ Forall (shape1 m) v.
Definition shape3 {A} (n m k : nat) (v : list (list (list A))) := length v = n /\ Forall (shape2 m k) v.
Definition shape4 {A} (n m k w : nat) (v : list (list (list (list A)))) := length v = n /\ Forall (shape3 m k w) v.
Definition cell3 {A} (d : A) (v : list (list (list A))) (i j k : nat) : A := nth k (nth j (nth i v []) []) d.
Definition cell4 {A} (d : A) (v : list (list (list (list A)))) (i j k w : nat) : A := cell3 d (nth i v []) j k w.

(** a place between two samples: lower and upper index, and fraction of the way *)
Definition place : Type := nat * nat * R.
(** nearest value inside of the axis *)
Definition clamp (xp : list R) (x : R) : R := Rmax (nth 0 xp 0) (Rmin (nth (length xp - 1) xp 0) x).
(** the place of x on an axis: the same or neighbouring indices, whose coordinates average to x *)
Definition on_axis (xp : list R) (x : R) (p : place) : Prop :=
  let '(a, b, f) := p in
  (a < length xp)%nat /\ (b < length xp)%nat /\ (b = a \/ b = S a) /\ 0 <= f <= 1 /\
  nth a xp 0 + f * (nth b xp 0 - nth a xp 0) = clamp xp x.
(** the place of an instant in a series of n samples every dt seconds, periodically continued *)
Definition in_time (n : nat) (dt t : R) (p : place) : Prop :=
  exists k : nat, INR k * dt <= t < INR (S k) * dt /\ p = (Nat.modulo k n, Nat.modulo (S k) n, t / dt - INR k).

Definition between (f a b : R) : R := a + f * (b - a).
Definition linear1 (g : nat -> R) (p : place) : R := let '(a, b, f) := p in between f (g a) (g b).
(** the multilinear interpolations of real samples *)
Definition linear3 (g : nat -> nat -> nat -> R) (X Y T : place) : R :=
  linear1 (fun i => linear1 (fun j => linear1 (fun t => g i j t) T) Y) X.
Definition linear4 (g : nat -> nat -> nat -> nat -> R) (X Y Z T : place) : R :=
  linear1 (fun i => linear3 (g i) Y Z T) X.

(** componentwise multilinear interpolation of vectors *)
Definition vlinear4 (v : list (list (list (list v3)))) (X Y Z T : place) : v3 :=
  V3 (linear4 (fun i j k t => vx (cell4 vzero v i j k t)) X Y Z T) (linear4 (fun i j k t => vy (cell4 vzero v i j k t)) X Y Z T)
     (linear4 (fun i j k t => vz (cell4 vzero v i j k t)) X Y Z T).
(** the affine map of the actual water column, from the sea bed at [bottom] to the surface at [zeta],
    onto the reference column from [avg] to 0; everything above the surface counts as the surface *)
Definition column (avg bottom zeta z s : R) : Prop :=
  (z <= zeta -> (s - avg) * (zeta - bottom) = (0 - avg) * (z - bottom)) /\ (zeta <= z -> s = 0).

(** tables as the code allocates them: increasing axes and one sample per node and instant *)
Definition axes_ok (px py pz : list R) : Prop := increasing px /\ px <> [] /\ increasing py /\ py <> [] /\ increasing pz /\ pz <> [].
