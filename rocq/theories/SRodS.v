(** Specification vocabulary for rods with kinematics: the rigid cylinder on a pin, placed objects, angle rates *)
From Coq Require Import Reals List Arith ZArith.
From Verif Require Import MErr MVec MLine MRod MEnd MRodS SMat SEnd SRod.
Import ListNotations.
Open Scope R_scope.

(** a uniform cylinder of mass [m], length [L], radius [r], end A at the reference point, axis [q].
    Its centre, and its inertia about the centre applied to [v] *)
Definition centre (L : R) (q : v3) : v3 := vscale (L / 2) q.
Definition cyl_inertia (m L r : R) (q v : v3) : v3 :=
  vadd (vscale (m * (r * r / 4 + L * L / 12)) (vsub v (vscale (dot v q) q))) (vscale (m * (r * r) / 2 * dot v q) q).
(** Newton and Euler: the force and the moment about end A that give end A the acceleration [a] and the cylinder the
    angular acceleration [al] while it turns with [w] *)
Definition cyl_force (m L : R) (q a al w : v3) : v3 := vscale m (acceleration_at (centre L q) a al w).
Definition cyl_moment (m L r : R) (q a al w : v3) : v3 :=
  vadd (cross (centre L q) (cyl_force m L q a al w)) (vadd (cyl_inertia m L r q al) (cross w (cyl_inertia m L r q w))).
(** weight of a mass *)
Definition weight (m g : R) : v3 := V3 0 0 (- (m * g)).
(** the unit vector from one point to another *)
Definition heading (A B : v3) : v3 := vscale (/ dist3 B A) (vsub B A).
(** where a point given in the frame of a body is *)
Definition placed (pos : v3) (Q : m3) (p : v3) : v3 := vadd pos (mmulv Q p).
(** angular velocity of a body turned by roll about x, pitch about the turned y, yaw about the twice turned z, when these
    three angles have the rates [d] *)
Definition angular_velocity (a d : v3) : v3 :=
  V3 (vx d + sin (vy a) * vz d)
     (cos (vx a) * vy d - sin (vx a) * cos (vy a) * vz d)
     (sin (vx a) * vy d + cos (vx a) * cos (vy a) * vz d).
(** a rod lies from [A] to [B], its ends move with [vA] and [vB], it points along [q], and so do the ends of the lines attached to it *)
Definition rod_lies (k : rodk) (ls : lines) (A vA B vB q : v3) : Prop :=
  k_rA k = A /\ k_rdA k = vA /\ k_rB k = B /\ k_rdB k = vB /\ k_q k = q /\
  (forall i ep, In (i, ep) (k_attA k) -> end_pos (ls i) ep = A /\ end_vel (ls i) ep = vA /\ end_dir (ls i) ep = vscale (travel ep 0) q) /\
  (forall i ep, In (i, ep) (k_attB k) -> end_pos (ls i) ep = B /\ end_vel (ls i) ep = vB /\ end_dir (ls i) ep = vscale (travel ep 1) q).
(** a rod with segments, well conditioned heading, no water, above the sea bed *)
Definition in_vacuum (D : rod) (e : envc) (wk : wkin) (ph be zeta : R) : Prop :=
  sensible_rod D /\ few_segments D /\ headed (rq D) /\ rangles D = Ok (ph, be) /\ rho_w e = 0 /\ calm wk zeta /\ off_bottom D wk.
(** what happens to a rod pinned to a body: it is set up, its body moves it, its state is set, its derivative is computed *)
Inductive pinned_life (op : v3 -> v3 -> quat) (K : nat -> Z -> R) : rodk -> Prop :=
| life_setup : forall n A B aA aB j7 j6, pinned_life op K (rod_setup op RodPinned n A B aA aB j7 j6)
| life_init : forall k ls p v k' ls', pinned_life op K k -> rod_initialize K k ls = Ok (p, v, k', ls') -> pinned_life op K k'
| life_move : forall k ls r rd k' ls', pinned_life op K k -> rod_setKinematics op K k r rd ls = Ok (k', ls') -> pinned_life op K k'
| life_state : forall k ls p v k' ls', pinned_life op K k -> rod_setState K k p v ls = Ok (k', ls') -> pinned_life op K k'
| life_rate : forall k F M a, pinned_life op K k -> rod_solves k F M a -> pinned_life op K (rod_keeps k a).
