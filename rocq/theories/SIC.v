(** Specification vocabulary for the generation of initial conditions. *)
From Coq Require Import Reals List Arith Bool.
From Verif Require Import MErr MVec MStateOps MStep SStep MIC.
Import ListNotations.
Open Scope R_scope.

(** a differs from b by at most the fraction th of b *)
Definition within (th a b : R) : Prop := Rabs (a - b) <= th * Rabs b.
(** the coefficients d' are k times the coefficients d, for every object and in every direction *)
Definition drag_times (k : R) (d d' : drags) : Prop :=
  Forall2 (fun c c' => fst c' = k * fst c /\ snd c' = k * snd c) (d_lines d) (d_lines d') /\
  Forall2 (fun c c' => c' = k * c) (d_points d) (d_points d') /\
  Forall2 (fun c c' => fst (fst c') = k * fst (fst c) /\ snd (fst c') = k * snd (fst c) /\ snd c' = k * snd c) (d_rods d) (d_rods d') /\
  Forall2 (fun c c' => vx (v6hd c') = k * vx (v6hd c) /\ vy (v6hd c') = k * vy (v6hd c) /\ vz (v6hd c') = k * vz (v6hd c) /\
    vx (v6tl c') = k * vx (v6tl c) /\ vy (v6tl c') = k * vy (v6tl c) /\ vz (v6tl c') = k * vz (v6tl c)) (d_bodies d) (d_bodies d').
Section S.
Variables (X : Type) (stp : drags -> X -> R -> outcome X) (nxt : X -> X) (tim : X -> R).
(** x' is x simulated for a time dt with the drag coefficients d, in steps of at most dtM *)
Definition simulated (dtM : R) (d : drags) (dt : R) (x x' : X) : Prop := exists l, cut dtM dt l /\ ofold (stp d) l (nxt x) = Ok x'.
(** every system of a list is the next one simulated for a time dt: the latest is at the head *)
Fixpoint chained (dtM : R) (d : drags) (dt : R) (h : list X) : Prop :=
  match h with
  | x :: (y :: _) as t => simulated dtM d dt y x /\ chained dtM d dt t
  | _ => True
  end.
(** a clock: steps advance it by what they are asked to, Next does not move it, SetTime sets it *)
Definition clock (settime : X -> R -> X) : Prop :=
  (forall d x h x', stp d x h = Ok x' -> tim x' = tim x + h) /\ (forall x, tim (nxt x) = tim x) /\ (forall x t, tim (settime x t) = t).
(** no step fails *)
Definition runs : Prop := forall d x h, exists x', stp d x h = Ok x'.
End S.
