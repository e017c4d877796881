(** Specification vocabulary for the ends of lines at rods. *)
From Coq Require Import Reals List Arith ZArith Bool.
From Verif Require Import MErr MVec MStateOps MMat MLine MRod MBody MEnd SMat SLine SBody.
Import ListNotations.
Open Scope R_scope.

(** an end of a line: 0 is A, 1 is B *)
Definition an_end (ep : Z) : Prop := ep = 0%Z \/ ep = 1%Z.
Definition is_B (ep : Z) : bool := Z.eqb ep 1.
(** node, position, velocity, clamp and prescribed direction of an end *)
Definition end_node (L : line) (ep : Z) : nat := if is_B ep then lN L else 0%nat.
Definition end_pos (L : line) (ep : Z) : v3 := lr L (end_node L ep).
Definition end_vel (L : line) (ep : Z) : v3 := lrd L (end_node L ep).
Definition end_clamped (L : line) (ep : Z) : bool := if is_B ep then lcantB L else lcantA L.
Definition end_dir (L : line) (ep : Z) : v3 := if is_B ep then lqB L else lqA L.
(** the last segment at an end, from A to B, its length and its direction *)
Definition end_seg (L : line) (ep : Z) : v3 := seg L (if is_B ep then (lN L - 1)%nat else 0%nat).
Definition end_length (L : line) (ep : Z) : R := norm (end_seg L ep).
Definition end_unit (L : line) (ep : Z) : v3 := vscale (/ end_length L ep) (end_seg L ep).
(** 1 if one goes from A to B both in the line and in the rod when one passes from one to the other, else -1 *)
Definition travel (ep rod_end : Z) : R := if Bool.eqb (is_B ep) (is_B rod_end) then -1 else 1.

(** bending moment of a bend from the direction u to v: stiffness times curvature 4 / l sin (angle / 2), about the normal *)
Definition bending_moment (EI l : R) (u v : v3) : v3 := vscale (EI * (4 / l * sqrt ((1 - dot u v) / 2)) / norm (cross u v)) (cross u v).
(** below and above the tolerances *)
Definition straight (u v : v3) : Prop := 1 < dot u v + eps64.
Definition clear (l : R) (u v : v3) : Prop := dot u v + eps64 <= 1 /\ tol < 4 / l * sqrt ((1 - dot u v) / 2) /\ tol < norm (cross u v).
(** from which direction to which the line bends at an end *)
Definition bend_from (L : line) (ep : Z) : v3 := if is_B ep then end_unit L ep else end_dir L ep.
Definition bend_to (L : line) (ep : Z) : v3 := if is_B ep then end_dir L ep else end_unit L ep.
(** [m] is the bending moment of the line at an end: none at a pinned end or in a straight line *)
Definition bends (L : line) (ep : Z) (m : v3) : Prop :=
  end_clamped L ep = false /\ m = vzero \/
  end_clamped L ep = true /\ straight (bend_from L ep) (bend_to L ep) /\ m = vzero \/
  end_clamped L ep = true /\ clear (end_length L ep) (bend_from L ep) (bend_to L ep) /\
    m = bending_moment (lEI L) (end_length L ep) (bend_from L ep) (bend_to L ep).
(** the moment with which it acts on what holds the end *)
Definition on_holder (ep : Z) (m : v3) : v3 := if is_B ep then vscale (-1) m else m.

(** stiffness of an end against rotation, and the direction of its segment in the sense of the rod *)
Definition end_stiff (L : line) (ep : Z) : R := lEI L / end_length L ep.
Definition in_rod_sense (L : line) (ep rod_end : Z) : v3 := vscale (travel ep rod_end) (end_unit L ep).
(** attachments as they can be: ends of lines with at least one segment, each in one place *)
Definition proper (A B : list (nat * Z)) (ls : nat -> line) : Prop :=
  (forall i ep, In (i, ep) (A ++ B) -> an_end ep /\ (0 < lN (ls i))%nat) /\ NoDup (A ++ B).
