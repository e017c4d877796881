(** Specification vocabulary for line forces *)
From Coq Require Import Reals List.
From Verif Require Import MVec MLine SMat.
Import ListNotations.
Open Scope R_scope.

(** sums over the indices 0 .. n-1 *)
Fixpoint vsum (n : nat) (f : nat -> v3) : v3 := match n with O => vzero | S n' => vadd (vsum n' f) (f n') end.
Fixpoint nsum (n : nat) (f : nat -> R) : R := match n with O => 0 | S n' => nsum n' f + f n' end.
(** everything that acts on a node from outside the line: weight, drag, fluid inertia, sea bed and
    pressure *)
Definition external (L : line) (e : envc) (k : wkin) (i : nat) : v3 :=
  vadd (lW L e k i) (vadd (vadd (lDp L e k i) (lDq L e k i)) (vadd (vadd (lAp L e k i) (lAq L e k i)) (vadd (lB L e k i) (lPb L e k i)))).
(** what the line exerts on its own node [i] *)
Definition internal (L : line) (e : envc) (k : wkin) (F : nat -> v3) (i : nat) : v3 := vsub (F i) (external L e k i).
(** tolerance of the unit vector computation: shorter segments are not normalised *)
Definition tol : R := 50 / 2 ^ 52.

(** the same line without internal damping *)
Definition undamped (L : line) : line :=
  Line (lN L) (ldia L) (larea L) (lrho L) (lE L) (lEI L) 0 (lCan L) (lCat L) (lCdn L) (lCdt L)
    (lsx L) (lsy L) (lbx L) (lby L) [] [] (lisPb L) (lpin L) (lr L) (lrd L) (ll L) (lV L)
    (lcantA L) (lcantB L) (lqA L) (lqB L).
(** rate at which forces [F] do work on the moving nodes *)
Definition power (L : line) (F : nat -> v3) : R := nsum (lN L + 1) (fun i => dot (F i) (lrd L i)).
(** the length of segment [i] and the rate at which it grows *)
Definition seg (L : line) (i : nat) : v3 := vsub (lr L (S i)) (lr L i).
Definition stretch_rate (L : line) (i : nat) : R := dot (seg L i) (vsub (lrd L (S i)) (lrd L i)) / norm (seg L i).
(** physically sensible line: positive size and density, non-negative coefficients, unit end
    directions *)
Definition sensible (L : line) : Prop :=
  0 < ldia L /\ 0 < lrho L /\ 0 < larea L /\ 0 <= lCan L /\ 0 <= lCat L /\ 0 <= lCdn L /\ 0 <= lCdt L
  /\ (forall i, (i < lN L)%nat -> 0 < ll L i /\ 0 <= lV L i) /\ dot (lqA L) (lqA L) <= 1 /\ dot (lqB L) (lqB L) <= 1.

(** elastic energy stored in a line of linear stiffness with its nodes at [p]: each segment is a
    spring of stiffness EA / l that carries no compression *)
Definition elastic_energy (L : line) (p : nat -> v3) : R :=
  nsum (lN L) (fun i => lE L * larea L / (2 * ll L i)
                        * (Rmax 0 (norm (vsub (p (S i)) (p i)) - ll L i) * Rmax 0 (norm (vsub (p (S i)) (p i)) - ll L i))).
(** [p] is at time [t] in the position of the nodes of [L] and moves with their velocities *)
Definition moves_as (L : line) (p : R -> nat -> v3) (t : R) : Prop :=
  (forall i, p t i = lr L i) /\
  forall i, derivable_pt_lim (fun s => vx (p s i)) t (vx (lrd L i)) /\
            derivable_pt_lim (fun s => vy (p s i)) t (vy (lrd L i)) /\
            derivable_pt_lim (fun s => vz (p s i)) t (vz (lrd L i)).

(** half the height of the end disc of a segment from [a] to [b] of diameter [d]: d / 2 times the cosine of its slope *)
Definition disc_rise (d : R) (a b : v3) : R :=
  let s := vsub b a in d / 2 * (sqrt (vx s * vx s + vy s * vy s) / norm s).
(** all segments are longer than the tolerance *)
Definition long (L : line) : Prop := forall i, (i < lN L)%nat -> tol < norm (vsub (lr L (S i)) (lr L i)).
(** non-negative sea bed and friction coefficients *)
Definition env_ok (e : envc) : Prop := 0 <= kb e /\ 0 <= cb e /\ 0 <= fric e /\ 0 <= fricDamp e /\ 0 <= statDyn e.
