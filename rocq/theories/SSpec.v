(** Specification vocabulary for linear water waves. *)
From Coq Require Import Reals List.
From Verif Require Import MVec SMat.
Import ListNotations.
Open Scope R_scope.

(** a field over the horizontal position, the height above the mean level (negative under water) and
    the time *)
Definition field (A : Type) := R -> R -> R -> R -> A.
(** partial derivatives *)
Definition ddx (f : field R) (x y s t d : R) : Prop := derivable_pt_lim (fun u => f u y s t) x d.
Definition ddy (f : field R) (x y s t d : R) : Prop := derivable_pt_lim (fun u => f x u s t) y d.
Definition ddz (f : field R) (x y s t d : R) : Prop := derivable_pt_lim (fun u => f x y u t) s d.
Definition ddt (f : field R) (x y s t d : R) : Prop := derivable_pt_lim (fun u => f x y s u) t d.
Definition cx (U : field v3) : field R := fun x y s t => vx (U x y s t).
Definition cy (U : field v3) : field R := fun x y s t => vy (U x y s t).
Definition cz (U : field v3) : field R := fun x y s t => vz (U x y s t).

(** water does not accumulate *)
Definition incompressible (U : field v3) : Prop := forall x y s t, exists a b c,
  ddx (cx U) x y s t a /\ ddy (cy U) x y s t b /\ ddz (cz U) x y s t c /\ a + b + c = 0.
(** water does not rotate *)
Definition irrotational (U : field v3) : Prop := forall x y s t, exists a b c,
  ddy (cx U) x y s t a /\ ddx (cy U) x y s t a /\ ddz (cx U) x y s t b /\ ddx (cz U) x y s t b /\
  ddz (cy U) x y s t c /\ ddy (cz U) x y s t c.
(** the acceleration is the rate of change of the velocity *)
Definition rate_of_change (U A : field v3) : Prop := forall x y s t,
  ddt (cx U) x y s t (vx (A x y s t)) /\ ddt (cy U) x y s t (vy (A x y s t)) /\ ddt (cz U) x y s t (vz (A x y s t)).
(** the surface rises with the water at the mean level *)
Definition surface_moves (eta : R -> R -> R -> R) (U : field v3) : Prop := forall x y t,
  derivable_pt_lim (fun u => eta x y u) t (vz (U x y 0 t)).

(** sum over a list *)
Fixpoint lsum {A} (f : A -> R) (l : list A) : R := match l with [] => 0 | a :: r => f a + lsum f r end.
