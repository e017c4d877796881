(** Proofs about the velocities of coupled bodies and rods (MRodS): angle rates and angular velocity *)
From Coq Require Import Reals List Lra Lia Arith ZArith.
From Verif Require Import MErr MVec MStateOps MMat MInterp MLine MRod MBody MEnd MRodS SMat SLine SRod SRodS PMat PEuler PLine PBodyB PRodS SEnd.
Import ListNotations.
Open Scope R_scope.

Lemma dl_ext : forall f g t l, (forall s, f s = g s) -> derivable_pt_lim f t l -> derivable_pt_lim g t l.
Proof. intros f g t l E H eps He. destruct (H eps He) as [d Hd]. exists d. intros h H1 H2. rewrite <- !E. exact (Hd h H1 H2). Qed.
Lemma dl_val : forall f t l l', l = l' -> derivable_pt_lim f t l -> derivable_pt_lim f t l'. Proof. intros f t l l' ->. exact (fun H => H). Qed.
Lemma lin_d : forall a b t, derivable_pt_lim (fun s => a + s * b) t b.
Proof.
  intros a b t. apply (dl_ext (plus_fct (fct_cte a) (mult_fct id (fct_cte b)))); [reflexivity|].
  apply (dl_val _ _ (0 + (1 * fct_cte b t + id t * 0))); [unfold fct_cte; ring|]. apply derivable_pt_lim_plus; [apply derivable_pt_lim_const|]. apply derivable_pt_lim_mult; [apply derivable_pt_lim_id|apply derivable_pt_lim_const].
Qed.
Lemma cos_d : forall a b t, derivable_pt_lim (fun s => cos (a + s * b)) t (- sin (a + t * b) * b).
Proof. intros. apply (dl_ext (comp cos (fun s => a + s * b))); [reflexivity|]. apply derivable_pt_lim_comp; [apply lin_d|apply derivable_pt_lim_cos]. Qed.
Lemma sin_d : forall a b t, derivable_pt_lim (fun s => sin (a + s * b)) t (cos (a + t * b) * b).
Proof. intros. apply (dl_ext (comp sin (fun s => a + s * b))); [reflexivity|]. apply derivable_pt_lim_comp; [apply lin_d|apply derivable_pt_lim_sin]. Qed.
Lemma add_d : forall f g t a b, derivable_pt_lim f t a -> derivable_pt_lim g t b -> derivable_pt_lim (fun s => f s + g s) t (a + b).
Proof. intros. apply (dl_ext (plus_fct f g)); [reflexivity|]. now apply derivable_pt_lim_plus. Qed.
Lemma sub_d : forall f g t a b, derivable_pt_lim f t a -> derivable_pt_lim g t b -> derivable_pt_lim (fun s => f s - g s) t (a - b).
Proof. intros. apply (dl_ext (minus_fct f g)); [reflexivity|]. now apply derivable_pt_lim_minus. Qed.
Lemma mul_d : forall f g t a b, derivable_pt_lim f t a -> derivable_pt_lim g t b -> derivable_pt_lim (fun s => f s * g s) t (a * g t + f t * b).
Proof. intros. apply (dl_ext (mult_fct f g)); [reflexivity|]. now apply derivable_pt_lim_mult. Qed.
Lemma mv_ext : forall f g t v w, (forall s, f s = g s) -> v = w -> moving f t v -> moving g t w.
Proof. intros f g t v w E -> (A & B & C). split; [|split]; eapply dl_ext; try eassumption; intro s; cbn; now rewrite E. Qed.
Lemma mv_unique : forall f t v w, moving f t v -> moving f t w -> v = w.
Proof. intros f t v w (A & B & C) (A' & B' & C'). apply v3eq; eapply uniqueness_limite; eassumption. Qed.
Lemma mv_add : forall f g t a b, moving f t a -> moving g t b -> moving (fun s => vadd (f s) (g s)) t (vadd a b).
Proof. intros f g t a b (A & B & C) (A' & B' & C'). split; [|split]; unfold vadd; cbn [vx vy vz]; now apply add_d. Qed.
Lemma mv_const : forall c t, moving (fun _ => c) t vzero.
Proof. intros c t. split; [apply (dl_ext (fct_cte (vx c)))|split; [apply (dl_ext (fct_cte (vy c)))|apply (dl_ext (fct_cte (vz c)))]]; try reflexivity; apply derivable_pt_lim_const. Qed.
Lemma mv_lin : forall a b t, moving (fun s => vadd a (vscale s b)) t b.
Proof. intros a b t. split; [|split]; unfold vadd, vscale; cbn [vx vy vz]; apply lin_d. Qed.
Lemma mv_X : forall a b f t v, moving f t v -> moving (fun s => mmulv (RotX (a + s * b)) (f s)) t (vadd (cross (V3 b 0 0) (mmulv (RotX (a + t * b)) (f t))) (mmulv (RotX (a + t * b)) v)).
Proof.
  intros a b f t v (A & B & C). pose proof (cos_d a b t) as Dc. pose proof (sin_d a b t) as Ds. split; [|split].
  - apply (dl_ext (fun s => vx (f s))). { intro s. unfold RotX, mmulv, dot. cbn [mr0 mr1 mr2 vx vy vz]. ring. }
    eapply dl_val; [|exact A]. unfold RotX, mmulv, dot, cross, vadd. cbn [mr0 mr1 mr2 vx vy vz]. ring.
  - apply (dl_ext (fun s => cos (a + s * b) * vy (f s) - sin (a + s * b) * vz (f s))). { intro s. unfold RotX, mmulv, dot. cbn [mr0 mr1 mr2 vx vy vz]. ring. }
    eapply dl_val; [|exact (sub_d _ _ _ _ _ (mul_d _ _ _ _ _ Dc B) (mul_d _ _ _ _ _ Ds C))]. unfold RotX, mmulv, dot, cross, vadd. cbn [mr0 mr1 mr2 vx vy vz]. ring.
  - apply (dl_ext (fun s => sin (a + s * b) * vy (f s) + cos (a + s * b) * vz (f s))). { intro s. unfold RotX, mmulv, dot. cbn [mr0 mr1 mr2 vx vy vz]. ring. }
    eapply dl_val; [|exact (add_d _ _ _ _ _ (mul_d _ _ _ _ _ Ds B) (mul_d _ _ _ _ _ Dc C))]. unfold RotX, mmulv, dot, cross, vadd. cbn [mr0 mr1 mr2 vx vy vz]. ring.
Qed.
Lemma mv_Y : forall a b f t v, moving f t v -> moving (fun s => mmulv (RotY (a + s * b)) (f s)) t (vadd (cross (V3 0 b 0) (mmulv (RotY (a + t * b)) (f t))) (mmulv (RotY (a + t * b)) v)).
Proof.
  intros a b f t v (A & B & C). pose proof (cos_d a b t) as Dc. pose proof (sin_d a b t) as Ds. split; [|split].
  - apply (dl_ext (fun s => cos (a + s * b) * vx (f s) + sin (a + s * b) * vz (f s))). { intro s. unfold RotY, mmulv, dot. cbn [mr0 mr1 mr2 vx vy vz]. ring. }
    eapply dl_val; [|exact (add_d _ _ _ _ _ (mul_d _ _ _ _ _ Dc A) (mul_d _ _ _ _ _ Ds C))]. unfold RotY, mmulv, dot, cross, vadd. cbn [mr0 mr1 mr2 vx vy vz]. ring.
  - apply (dl_ext (fun s => vy (f s))). { intro s. unfold RotY, mmulv, dot. cbn [mr0 mr1 mr2 vx vy vz]. ring. }
    eapply dl_val; [|exact B]. unfold RotY, mmulv, dot, cross, vadd. cbn [mr0 mr1 mr2 vx vy vz]. ring.
  - apply (dl_ext (fun s => cos (a + s * b) * vz (f s) - sin (a + s * b) * vx (f s))). { intro s. unfold RotY, mmulv, dot. cbn [mr0 mr1 mr2 vx vy vz]. ring. }
    eapply dl_val; [|exact (sub_d _ _ _ _ _ (mul_d _ _ _ _ _ Dc C) (mul_d _ _ _ _ _ Ds A))]. unfold RotY, mmulv, dot, cross, vadd. cbn [mr0 mr1 mr2 vx vy vz]. ring.
Qed.
Lemma mv_Z : forall a b f t v, moving f t v -> moving (fun s => mmulv (RotZ (a + s * b)) (f s)) t (vadd (cross (V3 0 0 b) (mmulv (RotZ (a + t * b)) (f t))) (mmulv (RotZ (a + t * b)) v)).
Proof.
  intros a b f t v (A & B & C). pose proof (cos_d a b t) as Dc. pose proof (sin_d a b t) as Ds. split; [|split].
  - apply (dl_ext (fun s => cos (a + s * b) * vx (f s) - sin (a + s * b) * vy (f s))). { intro s. unfold RotZ, mmulv, dot. cbn [mr0 mr1 mr2 vx vy vz]. ring. }
    eapply dl_val; [|exact (sub_d _ _ _ _ _ (mul_d _ _ _ _ _ Dc A) (mul_d _ _ _ _ _ Ds B))]. unfold RotZ, mmulv, dot, cross, vadd. cbn [mr0 mr1 mr2 vx vy vz]. ring.
  - apply (dl_ext (fun s => sin (a + s * b) * vx (f s) + cos (a + s * b) * vy (f s))). { intro s. unfold RotZ, mmulv, dot. cbn [mr0 mr1 mr2 vx vy vz]. ring. }
    eapply dl_val; [|exact (add_d _ _ _ _ _ (mul_d _ _ _ _ _ Ds A) (mul_d _ _ _ _ _ Dc B))]. unfold RotZ, mmulv, dot, cross, vadd. cbn [mr0 mr1 mr2 vx vy vz]. ring.
  - apply (dl_ext (fun s => vz (f s))). { intro s. unfold RotZ, mmulv, dot. cbn [mr0 mr1 mr2 vx vy vz]. ring. }
    eapply dl_val; [|exact C]. unfold RotZ, mmulv, dot, cross, vadd. cbn [mr0 mr1 mr2 vx vy vz]. ring.
Qed.
(* the orientation with angles that move at constant rates *)
Lemma mm_assoc : forall A B v, mmulv (mmul A B) v = mmulv A (mmulv B v).
Proof. intros [[a b c] [d e f] [g h i]] [[a' b' c'] [d' e' f'] [g' h' i']] [x y z]. unfold mmul, mtr, mmulv, dot. cbn [mr0 mr1 mr2 vx vy vz]. apply v3eq; cbn [vx vy vz]; ring. Qed.
Lemma X_cross : forall a u v, mmulv (RotX a) (cross u v) = cross (mmulv (RotX a) u) (mmulv (RotX a) v).
Proof. intros. symmetry. apply rot_cross. rewrite <- qrot_X. apply qrot_rotation. exact (proj1 (half_unit (a / 2))). Qed.
Lemma Y_cross : forall a u v, mmulv (RotY a) (cross u v) = cross (mmulv (RotY a) u) (mmulv (RotY a) v).
Proof. intros. symmetry. apply rot_cross. rewrite <- qrot_Y. apply qrot_rotation. exact (proj1 (proj2 (half_unit (a / 2)))). Qed.
Lemma mm_add : forall A u v, mmulv A (vadd u v) = vadd (mmulv A u) (mmulv A v).
Proof. intros [[a b c] [d e f] [g h i]] [x y z] [x' y' z']. unfold mmulv, vadd, dot. cbn [mr0 mr1 mr2 vx vy vz]. apply v3eq; cbn [vx vy vz]; ring. Qed.
Lemma angles_move : forall E d p t, let a := vadd E (vscale t d) in
  moving (fun s => mmulv (RotXYZ (vadd E (vscale s d))) p) t (cross (angular_velocity a d) (mmulv (RotXYZ a) p)).
Proof.
  intros E d p t a.
  pose proof (mv_X (vx E) (vx d) _ t _ (mv_Y (vy E) (vy d) _ t _ (mv_Z (vz E) (vz d) _ t _ (mv_const p t)))) as H.
  refine (mv_ext _ _ _ _ _ _ _ H); clear H.
  - intro s. unfold RotXYZ. rewrite !mm_assoc. reflexivity.
  - unfold a, RotXYZ. rewrite !mm_assoc. cbn [vadd vscale vx vy vz].
    set (z := mmulv (RotZ (vz E + t * vz d)) p).
    assert (Z0 : mmulv (RotZ (vz E + t * vz d)) vzero = vzero) by (unfold mmulv, dot, vzero; cbn [vx vy vz]; apply v3eq; cbn [vx vy vz]; ring).
    rewrite Z0. clear Z0. clearbody z.
    replace (vadd (cross (V3 0 0 (vz d)) z) vzero) with (cross (V3 0 0 (vz d)) z) by (destruct z as [z1 z2 z3]; unfold vadd, cross, vzero; cbn [vx vy vz]; apply v3eq; cbn [vx vy vz]; ring).
    change (vadd E (vscale t d)) with (V3 (vx E + t * vx d) (vy E + t * vy d) (vz E + t * vz d)). unfold angular_velocity. cbn [vx vy vz].
    set (al := vx E + t * vx d). set (be := vy E + t * vy d).
    rewrite Y_cross, mm_add, !X_cross. set (Z := mmulv (RotX al) (mmulv (RotY be) z)).
    transitivity (cross (vadd (V3 (vx d) 0 0) (vadd (mmulv (RotX al) (V3 0 (vy d) 0)) (mmulv (RotX al) (mmulv (RotY be) (V3 0 0 (vz d)))))) Z).
    { generalize Z (V3 (vx d) 0 0) (mmulv (RotX al) (V3 0 (vy d) 0)) (mmulv (RotX al) (mmulv (RotY be) (V3 0 0 (vz d)))). vring. }
    f_equal. unfold RotX, RotY, mmulv, dot, vadd. cbn [mr0 mr1 mr2 vx vy vz]. apply v3eq; cbn [vx vy vz]; ring.
Qed.
Lemma fairlead_or : forall a, qrot (qnormalized (euler2quat a)) = RotXYZ a.
Proof. intro a. rewrite qnormalized_id by apply euler2quat_unit. apply euler2quat_rot. Qed.
(* points on coupled bodies *)
Lemma point_moves : forall r rd rel t, let a := vadd (v6tl r) (vscale t (v6tl rd)) in
  moving (fun s => fst (point_on r rd rel s)) t (velocity_at (mmulv (RotXYZ a) rel) (V6 (v6hd rd) (angular_velocity a (v6tl rd)))) /\
  snd (point_on r rd rel t) = velocity_at (mmulv (RotXYZ a) rel) rd.
Proof.
  intros r rd rel t a. split.
  - pose proof (mv_add _ _ _ _ _ (angles_move (v6tl r) (v6tl rd) rel t) (mv_lin (v6hd r) (v6hd rd) t)) as H. cbv zeta in H.
    refine (mv_ext _ _ _ _ _ _ _ H); clear H.
    + intro s. unfold point_on, body_fairlead, body_point, transformKinematics, fromVec6. cbn [xq_pos xq_quat fst snd v6add v6scale v6hd v6tl]. rewrite fairlead_or. reflexivity.
    + unfold velocity_at, a. cbn [v6hd v6tl]. generalize (cross (angular_velocity (vadd (v6tl r) (vscale t (v6tl rd))) (v6tl rd)) (mmulv (RotXYZ (vadd (v6tl r) (vscale t (v6tl rd)))) rel)) (v6hd rd). vring.
  - unfold point_on, body_fairlead, body_point, transformKinematics, fromVec6. cbn [xq_pos xq_quat fst snd v6add v6scale v6hd v6tl]. rewrite fairlead_or. reflexivity.
Qed.
Lemma point_right : forall r rd rel t, let a := vadd (v6tl r) (vscale t (v6tl rd)) in
  moving (fun s => fst (point_on r rd rel s)) t (snd (point_on r rd rel t)) <->
  cross (vsub (angular_velocity a (v6tl rd)) (v6tl rd)) (mmulv (RotXYZ a) rel) = vzero.
Proof.
  intros r rd rel t a. destruct (point_moves r rd rel t) as [H E]. cbv zeta in H. fold a in H. rewrite E. fold a.
  set (P := mmulv (RotXYZ a) rel) in *. set (w := angular_velocity a (v6tl rd)) in *. unfold velocity_at in *. cbn [v6hd v6tl] in H. clearbody P w.
  assert (D : cross (vsub w (v6tl rd)) P = vsub (vadd (v6hd rd) (cross w P)) (vadd (v6hd rd) (cross (v6tl rd) P))) by (generalize w (v6tl rd) P (v6hd rd); vring).
  rewrite D. split.
  - intro H'. rewrite (mv_unique _ _ _ _ H H'). generalize (vadd (v6hd rd) (cross (v6tl rd) P)). vring.
  - intro Z. replace (vadd (v6hd rd) (cross (v6tl rd) P)) with (vadd (v6hd rd) (cross w P)); [exact H|].
    revert Z. generalize (vadd (v6hd rd) (cross w P)) (vadd (v6hd rd) (cross (v6tl rd) P)). intros [x y z] [x1 y1 z1] Z. unfold vsub, vzero in Z. cbn [vx vy vz] in Z. injection Z as Z1 Z2 Z3. apply v3eq; cbn [vx vy vz]; lra.
Qed.
(* rods held by the vessel *)
Lemma coupled_rod : forall K k ls r rd rdd s, k_type k = RodCoupled -> (0 < k_n k)%nat -> proper (k_attA k) (k_attB k) ls -> k_ves k = (r, rd, rdd) ->
  let Q := RotXYZ (vadd (v6tl r) (vscale s (v6tl rd))) in let arm := mmulv Q (vscale (k_len k) (k_q0 k)) in
  exists k' ls', rod_updateFairlead K k s ls = Ok (k', ls') /\
    rod_lies k' ls' (vadd (v6hd r) (vscale s (v6hd rd))) (v6hd rd) (vadd (vadd (v6hd r) (vscale s (v6hd rd))) arm) (velocity_at arm rd) (mmulv Q (k_q0 k)).
Proof.
  intros K k ls r rd rdd s T HN HP HV Q arm. unfold rod_updateFairlead. rewrite HV, T.
  set (k1 := with_motion k (fromVec6 (v6add r (v6scale s rd))) rd rdd).
  assert (D : rod_dir k1 = mmulv Q (k_q0 k)). { unfold rod_dir. cbn [k1 with_motion k_r7 k_q0 fromVec6 xq_quat v6tl v6add v6scale]. rewrite fairlead_or. reflexivity. }
  destruct (dep_total K k1 ls HP HN) as (k' & ls' & E & _ & LI & _). rewrite D in LI. cbn [k1 with_motion k_r7 k_len k_v6 fromVec6 xq_pos v6hd v6add v6scale] in LI.
  rewrite <- m_scale in LI. exists k', ls'. split; [exact E|exact LI].
Qed.
Lemma rod_end_moves : forall (r rd : v6) arm0 t, let a := vadd (v6tl r) (vscale t (v6tl rd)) in
  moving (fun s => vadd (vadd (v6hd r) (vscale s (v6hd rd))) (mmulv (RotXYZ (vadd (v6tl r) (vscale s (v6tl rd)))) arm0)) t
    (velocity_at (mmulv (RotXYZ a) arm0) (V6 (v6hd rd) (angular_velocity a (v6tl rd)))).
Proof. intros r rd arm0 t a. apply mv_add; [apply mv_lin|apply angles_move]. Qed.
(* cases in which the angle rates are the angular velocity, and one in which they are not *)
Lemma rates_roll : forall a d, vy d = 0 -> vz d = 0 -> angular_velocity a d = d.
Proof. intros a [d1 d2 d3] H2 H3. cbn [vy vz] in *. subst. unfold angular_velocity. cbn [vx vy vz]. apply v3eq; cbn [vx vy vz]; ring. Qed.
Lemma rates_level : forall a d, vx a = 0 -> vy a = 0 -> angular_velocity a d = d.
Proof. intros [a1 a2 a3] [d1 d2 d3] H2 H3. cbn [vx vy] in *. subst. unfold angular_velocity. cbn [vx vy vz]. rewrite sin_0, cos_0. apply v3eq; cbn [vx vy vz]; ring. Qed.
