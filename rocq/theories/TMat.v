(** C32 to C36 and C60 to C62: masses, rotations and rigid motion *)
From Coq Require Import Reals List Lra Lia.
From Verif Require Import MErr MVec MStateOps MMat SMat PMat PEuler PRigid.
Import ListNotations.
Open Scope R_scope.

(** C32, point masses: the energy of the moved mass is that of the mass at the moved point *)
Theorem C32_move_mass : forall M r t, symmetric3 M ->
  energy6 (translateMass r M) t = energy3 M (velocity_at r t) /\ symmetric6 (translateMass r M).
Proof. intros M r t H. exact (conj (translate3_energy M r t H) (translate3_sym M r H)). Qed.
Print Assumptions C32_move_mass.

Theorem C32_move_inertia : forall M r t, symmetric6 M ->
  energy6 (translateMass6 r M) t = energy6 M (twist_at r t) /\ symmetric6 (translateMass6 r M).
Proof. intros M r t H. exact (conj (translate6_energy M r t H) (translate6_sym M r H)). Qed.
Print Assumptions C32_move_inertia.

Theorem C32_moves_compose : forall M r s, symmetric6 M ->
  translateMass6 r (translateMass6 s M) = translateMass6 (vadd r s) M /\ translateMass6 vzero M = M.
Proof. intros M r s H. exact (conj (translate6_add M r s H) (translate6_zero M H)). Qed.
Print Assumptions C32_moves_compose.

Theorem C32_mass_then_inertia : forall M r s, symmetric3 M ->
  translateMass6 r (translateMass s M) = translateMass (vadd r s) M.
Proof. exact translate3_then_6. Qed.
Print Assumptions C32_mass_then_inertia.

(** a body assembled from any number of particles has the sum of their energies *)
Theorem C32_assembled_body : forall ps t,
  energy6 (fold_right (fun p M => m6add (translateMass (snd p) (mscale (fst p) mid)) M) m6zero ps) t
  = particles_energy ps t.
Proof. exact particles_ok. Qed.
Print Assumptions C32_assembled_body.

Theorem C32_stays_nonnegative : forall M r, symmetric6 M ->
  (forall t, 0 <= energy6 M t) -> forall t, 0 <= energy6 (translateMass6 r M) t.
Proof. exact translate6_nonneg. Qed.
Print Assumptions C32_stays_nonnegative.

Example C32_case : symmetric3 (M3 (V3 2 1 0) (V3 1 3 0) (V3 0 0 5)) /\
  symmetric6 (translateMass (V3 1 2 3) (M3 (V3 2 1 0) (V3 1 3 0) (V3 0 0 5))) /\
  mget (m6tr (translateMass (V3 1 2 3) (M3 (V3 2 1 0) (V3 1 3 0) (V3 0 0 5)))) 0 0 = -3.
Proof.
  split; [reflexivity|]. split; [apply translate3_sym; reflexivity|].
  unfold mget, v3get, translateMass, getH, mmul, mmulv, mtr, dot. cbn. lra.
Qed.

(** C33 *)
Theorem C33_rotate_mass : forall Q M t, orthogonal Q -> symmetric6 M ->
  energy6 (rotateMass6 Q M) (rotate_twist Q t) = energy6 M t /\ symmetric6 (rotateMass6 Q M)
  /\ rotateMass6 (mtr Q) (rotateMass6 Q M) = M.
Proof.
  intros Q M t H1 H2.
  exact (conj (rotate6_energy Q M t H1 H2) (conj (rotate6_sym Q M H2) (rotate6_back Q M H1 H2))).
Qed.
Print Assumptions C33_rotate_mass.

Theorem C33_rotate_3x3 : forall Q M v, orthogonal Q ->
  energy3 (rotateMass Q M) (mmulv Q v) = energy3 M v /\ rotateMass (mtr Q) (rotateMass Q M) = M.
Proof. intros Q M v H. exact (conj (rotate3_energy Q M v H) (rotate3_back Q M H)). Qed.
Print Assumptions C33_rotate_3x3.

Example C33_case : forall a, orthogonal (RotXYZ a) /\ symmetric6 (M6 mid mzero mzero mid).
Proof. intros. split; [apply RotXYZ_orth | reflexivity]. Qed.

(** C34: points of a body keep their distances, and no segment between them stretches *)
Theorem C34_rigid_motion : forall Q r rd a b, orthogonal Q ->
  let pa := transformKinematics a Q r rd in let pb := transformKinematics b Q r rd in
  dist3 (fst pa) (fst pb) = dist3 a b /\ dot (vsub (snd pa) (snd pb)) (vsub (fst pa) (fst pb)) = 0.
Proof. intros Q r rd a b H. exact (conj (rigid_positions Q r rd a b H) (rigid_velocities Q r rd a b)). Qed.
Print Assumptions C34_rigid_motion.

Theorem C34_reference_point : forall Q r rd, transformKinematics vzero Q r rd = (r, v6hd rd).
Proof. exact rigid_origin. Qed.
Print Assumptions C34_reference_point.

(** ... and the velocity of a point of a moving and turning body is the rate of its position;
    w is the angular velocity of the body *)
Theorem C34_velocity : forall Q r t w v a,
  moving (fun s => mmulv (Q s) (V3 1 0 0)) t (cross w (mmulv (Q t) (V3 1 0 0))) ->
  moving (fun s => mmulv (Q s) (V3 0 1 0)) t (cross w (mmulv (Q t) (V3 0 1 0))) ->
  moving (fun s => mmulv (Q s) (V3 0 0 1)) t (cross w (mmulv (Q t) (V3 0 0 1))) ->
  moving r t v ->
  moving (fun s => fst (transformKinematics a (Q s) (r s) (V6 v w))) t (snd (transformKinematics a (Q t) (r t) (V6 v w))).
Proof. exact rigid_velocity. Qed.
Print Assumptions C34_velocity.

Example C34_turning : forall w t e, moving (fun s => mmulv (RotZ (w * s)) e) t (cross (V3 0 0 w) (mmulv (RotZ (w * t)) e)).
Proof. exact turning_z. Qed.

Example C34_case : snd (transformKinematics (V3 1 0 0) (RotZ 0) vzero (V6 vzero (V3 0 0 2))) = V3 0 2 0.
Proof.
  unfold transformKinematics, RotZ, vzero, mmulv, dot, cross, vadd. cbn. rewrite sin_0, cos_0.
  apply v3eq; cbn; lra.
Qed.

(** C35: the matrix is documented as r x a, and is a x r *)
Theorem C35_cross_product_matrix_refuted : ~ (forall r a, mmulv (getH r) a = cross r a).
Proof.
  intros H. pose proof (H (V3 1 0 0) (V3 0 1 0)) as E. rewrite getH_cross in E.
  unfold cross in E. cbn in E. injection E. lra.
Qed.
Print Assumptions C35_cross_product_matrix_refuted.

Theorem C35_cross_product_matrix_partial : forall r a,
  mmulv (getH r) a = cross a r /\ mmulv (mtr (getH r)) a = cross r a.
Proof.
  intros r a. split; [apply getH_cross|].
  destruct r, a. unfold mmulv, mtr, getH, cross, dot. cbn. apply v3eq; cbn; lra.
Qed.
Print Assumptions C35_cross_product_matrix_partial.

(** C36 *)
Theorem C36_whole_matrix_refuted : ~ (forall M a i j, (i < 6)%nat -> (j < 6)%nat -> getM_api M a i j = m6get M i j).
Proof.
  intros H. specialize (H (M6 mid mzero mzero mid) (fun _ _ => 0) 3%nat 3%nat ltac:(lia) ltac:(lia)).
  rewrite api_lost in H by lia. unfold m6get, mget in H. cbn in H. lra.
Qed.
Print Assumptions C36_whole_matrix_refuted.

(** the last three rows hold whatever the caller's array held before *)
Theorem C36_whole_matrix_partial : forall M a i j,
  ((i < 3)%nat -> getM_api M a i j = m6get M i j) /\ ((3 <= i)%nat -> getM_api M a i j = a i j).
Proof. intros. exact (conj (api_rows M a i j) (api_lost M a i j)). Qed.
Print Assumptions C36_whole_matrix_partial.

(** C60 *)
Theorem C60_stored_orientation : forall a, qnorm2 (euler2quat a) = 1 /\ qrot (euler2quat a) = RotXYZ a.
Proof. intros a. exact (conj (euler2quat_unit a) (euler2quat_rot a)). Qed.
Print Assumptions C60_stored_orientation.

Theorem C60_reported_angles : forall q, qnorm2 q <> 0 ->
  RotXYZ (quat2euler q) = qrot (qnormalized q) /\ qnorm2 (qnormalized q) = 1.
Proof. intros q H. exact (conj (quat2euler_rot q H) (qnormalized_unit q H)). Qed.
Print Assumptions C60_reported_angles.

Theorem C60_reported_ranges : forall q,
  - PI <= vx (quat2euler q) < PI /\ - (PI / 2) <= vy (quat2euler q) <= PI / 2 /\ - PI <= vz (quat2euler q) < PI.
Proof. exact quat2euler_range. Qed.
Print Assumptions C60_reported_ranges.

Theorem C60_set_then_read : forall v, - PI <= vx (v6tl v) < PI -> - (PI / 2) < vy (v6tl v) < PI / 2 ->
  - PI <= vz (v6tl v) < PI -> toVec6 (fromVec6 v) = v.
Proof. exact vec6_roundtrip. Qed.
Print Assumptions C60_set_then_read.

(** a unit quaternion's matrix is a rotation, so these are orientations *)
Theorem C60_orientation_is_rotation : forall q, qnorm2 q = 1 -> orthogonal (qrot q).
Proof. exact qrot_orth. Qed.
Print Assumptions C60_orientation_is_rotation.

Example C60_case : RotXYZ (quat2euler (Q4 1 0 1 0)) = qrot (qnormalized (Q4 1 0 1 0)) /\
  toVec6 (fromVec6 (V6 (V3 1 2 3) (V3 1 (1 / 2) (-1)))) = V6 (V3 1 2 3) (V3 1 (1 / 2) (-1)).
Proof.
  split.
  - apply quat2euler_rot. unfold qnorm2. cbn. lra.
  - assert (H := PI_4). pose proof PI2_1 as P. apply vec6_roundtrip; cbn; split; lra.
Qed.

(** C61 *)
Theorem C61_direction_rebuilt : forall v phi beta, orientationAngles v = Ok (phi, beta) ->
  1e-6 <= hypot (vx v) (vy v) ->
  v = V3 (norm v * sin phi * cos beta) (norm v * sin phi * sin beta) (norm v * cos phi).
Proof. exact orientation_ok. Qed.
Print Assumptions C61_direction_rebuilt.

(** also for vertical directions, whose heading is reported as zero *)
Theorem C61_ranges : forall v phi beta, orientationAngles v = Ok (phi, beta) ->
  0 <= phi <= PI /\ - PI < beta <= PI /\ norm v * cos phi = vz v /\ norm v * sin phi = hypot (vx v) (vy v).
Proof. exact orientation_range. Qed.
Print Assumptions C61_ranges.

Theorem C61_short_vector_rejected : forall v, dot v v < 1e-12 <-> orientationAngles v = Throw ExNan.
Proof.
  intros v. split; [apply orientation_throws|]. unfold orientationAngles.
  destruct (Rlt_dec (dot v v) 1e-12); [auto | discriminate].
Qed.
Print Assumptions C61_short_vector_rejected.

Example C61_case : exists phi beta, orientationAngles (V3 3 0 4) = Ok (phi, beta) /\ 5 * cos phi = 4.
Proof.
  unfold orientationAngles. destruct (Rlt_dec (dot (V3 3 0 4) (V3 3 0 4)) 1e-12) as [H|H].
  - exfalso. unfold dot in H. cbn in H. lra.
  - do 2 eexists. split; [reflexivity|]. cbn [vx vy vz].
    rewrite (hypot_unique 3 0 3) by lra. rewrite <- (hypot_unique 4 3 5) by lra. apply atan2_cos.
Qed.

(** C62: to first order in the time [e], the orientation turns with angular velocity [w] *)
Theorem C62_orientation_rate_partial : forall w q v, qnorm2 q = 1 ->
  (exists E, forall e, mmulv (qrot (qadd q (qscale e (quatRate w q)))) v
     = vadd (mmulv (qrot q) v) (vadd (vscale e (cross w (mmulv (qrot q) v))) (vscale (e * e) E)))
  /\ (forall e, qnorm2 (qadd q (qscale e (quatRate w q))) = qnorm2 q * (1 + e * e * dot w w / 4))
  /\ (forall n, n <> 0%nat -> freeRodRate n w q = quatRate w q).
Proof.
  intros w q v H.
  exact (conj (rate_rot w q v H) (conj (fun e => rate_norm w q e) (fun n => rod_rate_pos n w q))).
Qed.
Print Assumptions C62_orientation_rate_partial.

(** a free rod of zero length turns on its own, whatever its angular velocity *)
Theorem C62_orientation_rate_refuted : exists q, qnorm2 q = 1 /\ forall w e, 0 < e ->
  qrot (qnormalized (qadd q (qscale e (freeRodRate 0 w q)))) <> qrot q.
Proof.
  exists (Q4 0 1 0 0). split; [unfold qnorm2; cbn; lra|].
  intros w e H E. apply (rod0_turns w e H). rewrite E. reflexivity.
Qed.
Print Assumptions C62_orientation_rate_refuted.
