(** Specification vocabulary for points and bodies *)
From Coq Require Import Reals List Arith ZArith.
From Verif Require Import MErr MVec MMat MLine MRod MBody SMat SLine SRod.
Import ListNotations.
Open Scope R_scope.

Definition vtotal {A} (f : A -> v3) (l : list A) : v3 := fold_right (fun x s => vadd (f x) s) vzero l.
Definition rtotal {A} (f : A -> R) (l : list A) : R := fold_right (fun x s => f x + s) 0 l.

(** the end of a line an attachment means: end A (0) is the first node, end B (1) the last *)
Definition is_end (a : lineout * Z) : Prop := snd a = 0%Z \/ snd a = 1%Z.
Definition end_node (a : lineout * Z) : nat := if Z.eqb (snd a) 1 then loN (fst a) else O.
Definition end_force (a : lineout * Z) : v3 := loF (fst a) (end_node a).
Definition end_energy (u : v3) (a : lineout * Z) : R := energy3 (loM (fst a) (end_node a)) u.
Definition both_ends (l : lineout) : list (lineout * Z) := [(l, 0%Z); (l, 1%Z)].

(** quadratic drag with drag area [CdA] in a flow [v] relative to the object *)
Definition drag_law (rho CdA : R) (v : v3) : v3 := vscale (1 / 2 * rho * CdA * norm v) v.
(** what acts on a point apart from lines: applied force, buoyancy less weight, drag *)
Definition point_own (p : point) (e : envc) (U : v3) : v3 :=
  vadd (p_F p) (vadd (V3 0 0 (rho_w e * p_V p * gr e - p_M p * gr e)) (drag_law (rho_w e) (p_CdA p) (vsub U (p_rd p)))).

(** a line of the system with the sea at its nodes and its forces, and what it shows to its ends *)
Record sline := SLine { sl_line : line; sl_sea : wkin; sl_F : nat -> v3; sl_A : v3; sl_B : v3 }.
Definition sl_out (e : envc) (s : sline) : lineout :=
  LineOut (lN (sl_line s)) (sl_F s) (lM (sl_line s) e (sl_sea s)) (sl_A s) (sl_B s).
Definition computed (e : envc) (s : sline) : Prop :=
  (0 < lN (sl_line s))%nat /\ line_forces (sl_line s) e (sl_sea s) = Some (sl_F s).
(** total force on the nodes of a line between its ends *)
Definition between (s : sline) : v3 := vsum (lN (sl_line s) - 1) (fun i => sl_F s (S i)).
Definition outside (e : envc) (s : sline) : v3 := vsum (lN (sl_line s) + 1) (external (sl_line s) e (sl_sea s)).

(** mass matrix of a body without the water's share *)
Definition dry (b : body) (e : envc) : Prop := b_V b * rho_w e = 0.
(** force needed to carry masses [M] at offsets [r] along with a moving body *)
Definition carried (w a al : v3) (x : v3 * m3) : v3 := mmulv (snd x) (acceleration_at (fst x) a al w).
(** the force on the body in excess of its share of the inertia: an attached object consisting of the
    masses [ms] and subject to the force [f] *)
Definition balanced_part (w : v3) (x : v6 * m6) (ms : list (v3 * m3)) (f : v3) : Prop :=
  forall a al, vsub (v6hd (m6mulv (snd x) (V6 a al))) (v6hd (fst x)) = vsub (vtotal (carried w a al) ms) f.
(** positive mass and moments of inertia, non-negative volume and added mass *)
Definition sensible_body (b : body) : Prop :=
  0 < b_M b /\ 0 < vx (b_I b) /\ 0 < vy (b_I b) /\ 0 < vz (b_I b) /\ 0 <= b_V b /\
  0 <= vx (v6hd (b_Ca b)) /\ 0 <= vy (v6hd (b_Ca b)) /\ 0 <= vz (v6hd (b_Ca b)) /\
  0 <= vx (v6tl (b_Ca b)) /\ 0 <= vy (v6tl (b_Ca b)) /\ 0 <= vz (v6tl (b_Ca b)).
Definition drag_areas (b : body) : Prop :=
  0 <= vx (v6hd (b_CdA b)) /\ 0 <= vy (v6hd (b_CdA b)) /\ 0 <= vz (v6hd (b_CdA b)) /\
  0 <= vx (v6tl (b_CdA b)) /\ 0 <= vy (v6tl (b_CdA b)) /\ 0 <= vz (v6tl (b_CdA b)).
(** symmetric, never negative 6x6 masses *)
Definition proper_parts (l : list (v6 * m6)) : Prop :=
  Forall (fun x => symmetric6 (snd x) /\ forall t, 0 <= energy6 (snd x) t) l.
(** inertia about the centre of gravity in the axes of the world; [spin_rate] is the rate of change of
    the angular momentum of a body turning with [w] and angular acceleration [al] *)
Definition world_inertia (b : body) : m3 := rotateMass (b_Or b) (mdiag (b_I b)).
Definition spin_rate (I : m3) (w al : v3) : v3 := vadd (mmulv I al) (cross w (mmulv I w)).
(** a proper rotation *)
Definition rotation (Q : m3) : Prop := orthogonal Q /\ mdet Q = 1.
(** kinetic energy of a body of mass [m] with its centre of gravity at [c] and moments of inertia [I],
    in its own axes *)
Definition rigid_energy (m : R) (c I : v3) (t : v6) : R :=
  let v := velocity_at c t in let w := v6tl t in
  m * dot v v / 2 + (vx I * (vx w * vx w) + vy I * (vy w * vy w) + vz I * (vz w * vz w)) / 2.
(** energy of the water moving along, with coefficients [C] of the displaced mass [k] *)
Definition water_energy (k : R) (C t : v6) : R :=
  k * (vx (v6hd C) * (vx (v6hd t) * vx (v6hd t)) + vy (v6hd C) * (vy (v6hd t) * vy (v6hd t)) + vz (v6hd C) * (vz (v6hd t) * vz (v6hd t))
     + vx (v6tl C) * (vx (v6tl t) * vx (v6tl t)) + vy (v6tl C) * (vy (v6tl t) * vy (v6tl t)) + vz (v6tl C) * (vz (v6tl t) * vz (v6tl t))) / 2.
