(** C109: velocities of coupled bodies and rods *)
From Coq Require Import Reals List Lra Lia Arith ZArith.
From Verif Require Import MErr MVec MStateOps MMat MInterp MLine MRod MBody MEnd MRodS SMat SLine SRod SRodS PMat PEuler PLine PBodyB PRodS PRate SEnd.
Import ListNotations.
Open Scope R_scope.

(** Between two calls a coupled body with the given position and angles [r] and rates [rd] moves with these rates. A point attached to it moves with the velocity of a rigid
    body with the angular velocity that belongs to the angle rates; the velocity the program gives to the point takes the angle rates for the angular velocity.
    So it is the derivative of its position exactly if the difference of the two is along the arm *)
Theorem C109_attached_point_refuted : forall r rd rel t, let a := vadd (v6tl r) (vscale t (v6tl rd)) in
  moving (fun s => fst (point_on r rd rel s)) t (velocity_at (mmulv (RotXYZ a) rel) (V6 (v6hd rd) (angular_velocity a (v6tl rd)))) /\
  snd (point_on r rd rel t) = velocity_at (mmulv (RotXYZ a) rel) rd /\
  (moving (fun s => fst (point_on r rd rel s)) t (snd (point_on r rd rel t)) <->
   cross (vsub (angular_velocity a (v6tl rd)) (v6tl rd)) (mmulv (RotXYZ a) rel) = vzero).
Proof. intros r rd rel t a. destruct (point_moves r rd rel t) as [H1 H2]. split; [exact H1|]. split; [exact H2|]. exact (point_right r rd rel t). Qed.
Print Assumptions C109_attached_point_refuted.
(** The velocity is right when the body is level (roll and pitch zero) or only its roll changes *)
Theorem C109_attached_point_partial : forall r rd rel t, let a := vadd (v6tl r) (vscale t (v6tl rd)) in
  ((vx a = 0 /\ vy a = 0) \/ (vy (v6tl rd) = 0 /\ vz (v6tl rd) = 0)) ->
  moving (fun s => fst (point_on r rd rel s)) t (snd (point_on r rd rel t)).
Proof.
  intros r rd rel t a H. apply point_right. fold a. assert (E : angular_velocity a (v6tl rd) = v6tl rd) by (destruct H as [[H1 H2]|[H1 H2]]; [apply rates_level|apply rates_roll]; assumption).
  rewrite E. generalize (mmulv (RotXYZ a) rel) (v6tl rd). intros [x y z] [x1 y1 z1]. unfold cross, vsub, vzero. cbn [vx vy vz]. apply v3eq; cbn [vx vy vz]; ring.
Qed.
Print Assumptions C109_attached_point_partial.
(** Coupled rods: end A moves with the given velocity; end B has the velocity of a rigid rod whose angular velocity is the given rates (and hands it to the
    lines attached there), while its position moves as above *)
Theorem C109_rod_refuted : forall K k ls r rd rdd, k_type k = RodCoupled -> (0 < k_n k)%nat -> proper (k_attA k) (k_attB k) ls -> k_ves k = (r, rd, rdd) ->
  exists B : R -> v3,
  (forall s, let Q := RotXYZ (vadd (v6tl r) (vscale s (v6tl rd))) in let arm := mmulv Q (vscale (k_len k) (k_q0 k)) in
   exists k' ls', rod_updateFairlead K k s ls = Ok (k', ls') /\
    rod_lies k' ls' (vadd (v6hd r) (vscale s (v6hd rd))) (v6hd rd) (B s) (velocity_at arm rd) (mmulv Q (k_q0 k))) /\
  (forall t, let a := vadd (v6tl r) (vscale t (v6tl rd)) in let arm := mmulv (RotXYZ a) (vscale (k_len k) (k_q0 k)) in
   moving B t (velocity_at arm (V6 (v6hd rd) (angular_velocity a (v6tl rd)))) /\
   (moving B t (velocity_at arm rd) <-> cross (vsub (angular_velocity a (v6tl rd)) (v6tl rd)) arm = vzero)).
Proof.
  intros K k ls r rd rdd T HN HP HV.
  exists (fun s => vadd (vadd (v6hd r) (vscale s (v6hd rd))) (mmulv (RotXYZ (vadd (v6tl r) (vscale s (v6tl rd)))) (vscale (k_len k) (k_q0 k)))).
  split; [intro s; exact (coupled_rod K k ls r rd rdd s T HN HP HV)|]. intro t. pose proof (rod_end_moves r rd (vscale (k_len k) (k_q0 k)) t) as H. cbv zeta in H. cbv zeta. split; [exact H|].
  set (a := vadd (v6tl r) (vscale t (v6tl rd))) in *. set (arm := mmulv (RotXYZ a) (vscale (k_len k) (k_q0 k))) in *.
  set (w := angular_velocity a (v6tl rd)) in *. unfold velocity_at in *. cbn [v6hd v6tl] in H. cbn [v6hd v6tl].
  assert (D : cross (vsub w (v6tl rd)) arm = vsub (vadd (v6hd rd) (cross w arm)) (vadd (v6hd rd) (cross (v6tl rd) arm))) by (generalize w (v6tl rd) arm (v6hd rd); vring).
  split; intro X.
  - rewrite D. rewrite (mv_unique _ _ _ _ H X). generalize (vadd (v6hd rd) (cross (v6tl rd) arm)). intros [x y z]. unfold vsub, vzero. cbn [vx vy vz]. apply v3eq; cbn [vx vy vz]; ring.
  - rewrite D in X. refine (mv_ext _ _ _ _ _ _ _ H); [reflexivity|]. revert X. generalize (vadd (v6hd rd) (cross w arm)) (vadd (v6hd rd) (cross (v6tl rd) arm)). clear. intros [x y z] [x1 y1 z1] X.
    unfold vsub, vzero in X. cbn [vx vy vz] in X. injection X as X1 X2 X3. apply v3eq; cbn [vx vy vz]; lra.
Qed.
Print Assumptions C109_rod_refuted.

(** ** A wrong velocity: a body rolled by a quarter turn and yawing with 1 rad/s turns about the axis (0,-1,0); a point at (1,0,0) moves with (0,0,1) and is given (0,1,0) *)
Example C109_case : let r := V6 vzero (V3 (PI / 2) 0 0) in let rd := V6 vzero (V3 0 0 1) in let rel := V3 1 0 0 in
  fst (point_on r rd rel 0) = V3 1 0 0 /\ moving (fun s => fst (point_on r rd rel s)) 0 (V3 0 0 1) /\ snd (point_on r rd rel 0) = V3 0 1 0.
Proof.
  intros r rd rel. destruct (C109_attached_point_refuted r rd rel 0) as (H1 & H2 & _).
  assert (A0 : vadd (v6tl r) (vscale 0 (v6tl rd)) = V3 (PI / 2) 0 0) by (unfold r, rd, vadd, vscale; cbn; apply v3eq; cbn; ring). rewrite A0 in H1, H2.
  assert (P0 : mmulv (RotXYZ (V3 (PI / 2) 0 0)) rel = V3 1 0 0).
  { unfold RotXYZ. rewrite !mm_assoc. unfold rel, RotX, RotY, RotZ, mmulv, dot. cbn [mr0 mr1 mr2 vx vy vz]. rewrite cos_PI2, sin_PI2, cos_0, sin_0. apply v3eq; cbn [vx vy vz]; ring. }
  rewrite P0 in H1, H2. split; [|split].
  - unfold point_on. unfold body_fairlead, body_point, transformKinematics. cbn [fst snd]. unfold fromVec6. cbn [xq_pos xq_quat]. rewrite fairlead_or. cbn [v6add v6scale v6tl v6hd]. change (vadd (V3 (PI / 2) 0 0) (vscale 0 (V3 0 0 1))) with (vadd (v6tl r) (vscale 0 (v6tl rd))).
    rewrite A0, P0. unfold r, rd, vadd, vscale, vzero. cbn. apply v3eq; cbn; ring.
  - refine (mv_ext _ _ _ _ _ _ _ H1); [reflexivity|]. unfold velocity_at, angular_velocity, cross, vadd, rd, vzero. cbn [v6hd v6tl vx vy vz]. rewrite cos_PI2, sin_PI2, cos_0, sin_0. apply v3eq; cbn [vx vy vz]; ring.
  - rewrite H2. unfold velocity_at, cross, vadd, rd, vzero. cbn [v6hd v6tl vx vy vz]. apply v3eq; cbn [vx vy vz]; ring.
Qed.
(** the hypothesis of C109_attached_point_partial: a level body that yaws and pitches *)
Example C109_level : let r := V6 vzero (V3 0 0 1) in let rd := V6 (V3 1 0 0) (V3 0 1 2) in moving (fun s => fst (point_on r rd (V3 1 2 3) s)) 0 (snd (point_on r rd (V3 1 2 3) 0)).
Proof. intros r rd. apply C109_attached_point_partial. left. unfold r, rd, vadd, vscale. cbn. split; ring. Qed.
