(** Proofs about the rods of MRod.v *)
From Coq Require Import Reals List Lra Lia Psatz Arith ZArith.
From Verif Require Import MErr MVec MStateOps MMat MInterp MLine MRod SMat SLine SRod PMat PEuler PLine PLineB.
Import ListNotations.
Open Scope R_scope.

(* ----- sums over the nodes ----- *)
Definition hw (D : rod) (i : nat) : R := if Nat.eqb i 0 then / 2 else if Nat.eqb i (rn D) then / 2 else 1.
Lemma rdL_hw : forall D i, rdL D i = rl D * hw D i.
Proof. intros. unfold rdL, hw. destruct (Nat.eqb i 0), (Nat.eqb i (rn D)); lra. Qed.
Lemma rvi_hw : forall D i, rvi D i = rV D * hw D i.
Proof. intros. unfold rvi, hw. destruct (Nat.eqb i 0), (Nat.eqb i (rn D)); lra. Qed.
Lemma hw_sum : forall D f, (0 < rn D)%nat ->
  nsum (rn D + 1) (fun i => hw D i * f i) = nsum (rn D + 1) f - f 0%nat / 2 - f (rn D) / 2.
Proof.
  intros D f HN. set (N := rn D) in *.
  assert (G : forall M, (M < N)%nat -> nsum (S M) (fun i => hw D i * f i) = nsum (S M) f - f 0%nat / 2).
  { induction M as [|M IH]; intros HM.
    - cbn [nsum]. unfold hw. cbn [Nat.eqb]. lra.
    - change (nsum (S (S M)) (fun i => hw D i * f i)) with (nsum (S M) (fun i => hw D i * f i) + hw D (S M) * f (S M)).
      change (nsum (S (S M)) f) with (nsum (S M) f + f (S M)). rewrite IH by lia.
      unfold hw. fold N. change (Nat.eqb (S M) 0) with false. cbv iota. destruct (Nat.eqb_spec (S M) N) as [E|E]; [lia|]. lra. }
  destruct N as [|M] eqn:EN; [lia|]. replace (S M + 1)%nat with (S (S M)) by lia.
  change (nsum (S (S M)) (fun i => hw D i * f i)) with (nsum (S M) (fun i => hw D i * f i) + hw D (S M) * f (S M)).
  change (nsum (S (S M)) f) with (nsum (S M) f + f (S M)). rewrite (G M) by lia.
  unfold hw. fold N. rewrite EN. rewrite Nat.eqb_refl. change (Nat.eqb (S M) 0) with false. cbv iota. lra.
Qed.
Lemma sum_1 : forall n, nsum n (fun _ => 1) = INR n.
Proof. induction n; [reflexivity|]. rewrite S_INR. cbn [nsum]. lra. Qed.
Lemma sum_i : forall n, nsum n INR = INR n * (INR n - 1) / 2.
Proof. induction n; [cbn; lra|]. rewrite S_INR. cbn [nsum]. rewrite IHn. lra. Qed.
Lemma sum_ii : forall n, nsum n (fun i => INR i * INR i) = INR n * (INR n - 1) * (2 * INR n - 1) / 6.
Proof. induction n; [cbn; lra|]. rewrite S_INR. cbn [nsum]. rewrite IHn. lra. Qed.
Lemma N_pos : forall D, (0 < rn D)%nat -> 0 < INR (rn D).
Proof. intros. apply lt_0_INR. assumption. Qed.
Lemma w_1 : forall D, (0 < rn D)%nat -> nsum (rn D + 1) (hw D) = INR (rn D).
Proof.
  intros D H. rewrite (nsum_ext _ (hw D) (fun i => hw D i * 1)) by (intros; ring). rewrite (hw_sum D (fun _ => 1)) by assumption.
  rewrite sum_1, plus_INR. cbn [INR]. lra.
Qed.
Lemma w_i : forall D, (0 < rn D)%nat -> nsum (rn D + 1) (fun i => hw D i * INR i) = INR (rn D) * INR (rn D) / 2.
Proof. intros D H. rewrite hw_sum by assumption. rewrite sum_i, plus_INR. cbn [INR]. lra. Qed.
Lemma w_ii : forall D, (0 < rn D)%nat ->
  nsum (rn D + 1) (fun i => hw D i * (INR i * INR i)) = INR (rn D) * (2 * INR (rn D) * INR (rn D) + 1) / 6.
Proof. intros D H. rewrite (hw_sum D (fun i => INR i * INR i)) by assumption. rewrite sum_ii, plus_INR. cbn [INR]. lra. Qed.

Lemma rl_pos_n : forall D, (0 < rn D)%nat -> rl D = rlen D / INR (rn D).
Proof. intros D H. unfold rl. destruct (Nat.eqb_spec (rn D) 0); [lia | reflexivity]. Qed.
Lemma rB_pos_n : forall D, (0 < rn D)%nat -> rB D = vadd (rA D) (vscale (rlen D) (rq D)).
Proof. intros D H. unfold rB. destruct (Nat.eqb_spec (rn D) 0); [lia | reflexivity]. Qed.

(* ----- nodes ----- *)
Lemma rnode_at : forall D i, (0 < rn D)%nat -> (i <= rn D)%nat ->
  rnode D i = vadd (rA D) (vscale (INR i * rl D) (rq D)).
Proof.
  intros D i HN Hi. pose proof (N_pos D HN). rewrite rl_pos_n by assumption. unfold rnode. rewrite rB_pos_n by assumption.
  destruct (Nat.eqb_spec i 0) as [E|E].
  - subst. cbn [INR]. generalize (rA D) (rq D). vring.
  - destruct (Nat.eqb_spec i (rn D)) as [F|F].
    + subst. replace (INR (rn D) * (rlen D / INR (rn D))) with (rlen D) by (field; lra). reflexivity.
    + replace (INR i * (rlen D / INR (rn D))) with (INR i / INR (rn D) * rlen D) by (field; lra).
      generalize (INR i / INR (rn D)) (rA D) (rq D) (rlen D). vring.
Qed.
Lemma rvel_at : forall D i, (0 < rn D)%nat -> (i <= rn D)%nat ->
  rvel D i = vadd (rvA D) (cross (rw D) (vscale (INR i * rl D) (rq D))).
Proof.
  intros D i HN Hi. pose proof (N_pos D HN). rewrite rl_pos_n by assumption. unfold rvel, rvB.
  destruct (Nat.eqb_spec (rn D) 0); [lia|].
  destruct (Nat.eqb_spec i 0) as [E|E].
  - subst. cbn [INR]. generalize (rvA D) (rq D) (rw D). vring.
  - destruct (Nat.eqb_spec i (rn D)) as [F|F].
    + subst. replace (INR (rn D) * (rlen D / INR (rn D))) with (rlen D) by (field; lra). reflexivity.
    + replace (INR i * (rlen D / INR (rn D))) with (INR i / INR (rn D) * rlen D) by (field; lra).
      generalize (INR i / INR (rn D)) (rvA D) (rq D) (rlen D) (rw D). vring.
Qed.
Lemma rod_rigid : forall D i j, (0 < rn D)%nat -> (i <= rn D)%nat -> (j <= rn D)%nat ->
  rvel D i = vadd (rvel D j) (cross (rw D) (vsub (rnode D i) (rnode D j))).
Proof.
  intros. rewrite !rvel_at, !rnode_at by assumption.
  generalize (INR i * rl D) (INR j * rl D) (rvA D) (rA D) (rw D) (rq D). vring.
Qed.
Lemma norm_scale_unit : forall k q, dot q q = 1 -> norm (vscale k q) = Rabs k.
Proof.
  intros k q H. unfold norm. replace (dot (vscale k q) (vscale k q)) with (k * k * dot q q) by (destruct q as [q1 q2 q3]; unfold dot, vscale; cbn [vx vy vz]; ring).
  rewrite H, Rmult_1_r. apply sqrt_Rsqr_abs.
Qed.
Lemma rod_spacing : forall D i, (0 < rn D)%nat -> dot (rq D) (rq D) = 1 -> 0 <= rlen D -> (i < rn D)%nat ->
  norm (vsub (rnode D (S i)) (rnode D i)) = rlen D / INR (rn D).
Proof.
  intros D i HN Hq HL Hi. pose proof (N_pos D HN). rewrite !rnode_at by lia. rewrite S_INR.
  replace (vsub _ _) with (vscale (rl D) (rq D)) by (generalize (INR i) (rl D) (rA D) (rq D); vring).
  rewrite norm_scale_unit by assumption. rewrite rl_pos_n by assumption. apply Rabs_right. apply Rle_ge.
  apply Rmult_le_pos; [lra | left; apply Rinv_0_lt_compat; lra].
Qed.
Lemma rod_far_end : forall D, (0 < rn D)%nat -> dot (rq D) (rq D) = 1 -> 0 <= rlen D ->
  rnode D (rn D) = vadd (rA D) (vscale (rlen D) (rq D)) /\ norm (vsub (rnode D (rn D)) (rnode D 0)) = rlen D.
Proof.
  intros D HN Hq HL. pose proof (N_pos D HN). rewrite !rnode_at by lia. rewrite rl_pos_n by assumption.
  replace (INR (rn D) * (rlen D / INR (rn D))) with (rlen D) by (field; lra). split; [reflexivity|].
  replace (vsub _ _) with (vscale (rlen D) (rq D)) by (cbn [INR]; generalize (rlen D / INR (rn D)) (rA D) (rlen D) (rq D); vring).
  rewrite norm_scale_unit by assumption. apply Rabs_right. lra.
Qed.

(* ----- heading ----- *)
Lemma headed_ok : forall q ph be, headed q -> orientationAngles q = Ok (ph, be) ->
  q = V3 (sin ph * cos be) (sin ph * sin be) (cos ph) /\ 0 <= sin ph.
Proof.
  intros q ph be [H1 H2] H. assert (N1 : norm q = 1) by (unfold norm; rewrite H1; apply sqrt_1).
  pose proof (orientation_range q ph be H) as (R1 & R2 & R3 & R4). rewrite N1 in *.
  assert (S0 : 0 <= sin ph) by (apply sin_ge_0; lra). split; [|exact S0].
  destruct H2 as [H2|H2].
  - assert (hypot (vx q) (vy q) = 0) as E by (unfold hypot; rewrite H2; apply sqrt_0).
    assert (S : sin ph = 0) by lra. rewrite S, !Rmult_0_l.
    assert (vx q = 0 /\ vy q = 0) as [X Y] by (split; nra).
    apply v3eq; cbn [vx vy vz]; lra.
  - pose proof (orientation_ok q ph be H H2) as E. rewrite N1 in E. rewrite !Rmult_1_l in E. exact E.
Qed.
Lemma angles_n : forall D, (0 < rn D)%nat -> rangles D = orientationAngles (rq D).
Proof. intros D H. unfold rangles. destruct (Nat.eqb_spec (rn D) 0); [lia | reflexivity]. Qed.
Lemma headed_angles : forall D, (0 < rn D)%nat -> headed (rq D) -> exists ph be, rangles D = Ok (ph, be).
Proof.
  intros D HN [H _]. rewrite angles_n by assumption. unfold orientationAngles. rewrite H.
  destruct (Rlt_dec 1 1e-12); [lra|]. eauto.
Qed.

(* ----- the inertia correction ----- *)
Lemma rot_split : forall Q a c, orthogonal Q -> rotateMass Q (M3 (V3 a 0 0) (V3 0 a 0) (V3 0 0 c)) =
  madd (mscale a mid) (mscale (c - a) (outer (mmulv Q (V3 0 0 1)))).
Proof.
  intros Q a c [_ O]. unfold rotateMass.
  assert (E : mmul (mmul Q (M3 (V3 a 0 0) (V3 0 a 0) (V3 0 0 c))) (mtr Q) = madd (mscale a (mmul Q (mtr Q))) (mscale (c - a) (outer (mmulv Q (V3 0 0 1))))).
  { destruct Q as [[q11 q12 q13] [q21 q22 q23] [q31 q32 q33]].
    unfold mmul, mtr, mmulv, madd, mscale, outer, dot, vadd, vscale. cbn [mr0 mr1 mr2 vx vy vz].
    apply m3eq; cbn [mr0 mr1 mr2]; apply v3eq; cbn [vx vy vz]; ring. }
  rewrite E, O. reflexivity.
Qed.
Lemma rot_axis : forall ph be a c, rotateMass (mmul (RotZ be) (RotY ph)) (M3 (V3 a 0 0) (V3 0 a 0) (V3 0 0 c)) =
  madd (mscale a mid) (mscale (c - a) (outer (V3 (sin ph * cos be) (sin ph * sin be) (cos ph)))).
Proof.
  intros. rewrite rot_split by (apply orth_mul; [apply RotZ_orth | apply RotY_orth]).
  repeat f_equal. rewrite mmulv_mmul. unfold RotZ, RotY, mmulv, dot. cbn [mr0 mr1 mr2 vx vy vz]. apply v3eq; cbn [vx vy vz]; ring.
Qed.
(* ----- energies ----- *)
Lemma e3_add : forall A B v, energy3 (madd A B) v = energy3 A v + energy3 B v.
Proof. intros. dv. ex. field. Qed.
Lemma e3_mid : forall k v, energy3 (mscale k mid) v = k * dot v v / 2.
Proof. intros. unfold mid. dv. ex. field. Qed.
Lemma e3_outer : forall k q v, energy3 (mscale k (outer q)) v = k * (dot q v * dot q v) / 2.
Proof. intros. unfold outer. dv. ex. field. Qed.
Lemma e3_zero : forall v, energy3 mzero v = 0.
Proof. intros. unfold mzero, vzero. dv. ex. field. Qed.
Lemma e3_scale : forall k A v, energy3 (mscale k A) v = k * energy3 A v.
Proof. intros. dv. ex. field. Qed.
Lemma e6_corner : forall M I t, energy6 (M6 (m6tl M) (m6tr M) (m6bl M) (madd (m6br M) I)) t = energy6 M t + energy3 I (v6tl t).
Proof. intros. dv. ex. field. Qed.
Lemma sym3_add : forall A B, symmetric3 A -> symmetric3 B -> symmetric3 (madd A B).
Proof. unfold symmetric3. intros A B HA HB. rewrite <- HA at 2. rewrite <- HB at 2. destruct A as [[? ? ?][? ? ?][? ? ?]], B as [[? ? ?][? ? ?][? ? ?]]. reflexivity. Qed.
Lemma sym3_scale : forall k A, symmetric3 A -> symmetric3 (mscale k A).
Proof. unfold symmetric3. intros k A HA. rewrite <- HA at 2. destruct A as [[? ? ?][? ? ?][? ? ?]]. reflexivity. Qed.
Lemma sym3_outer : forall q, symmetric3 (outer q).
Proof. intros [x y z]. unfold symmetric3, outer, mtr, vscale. cbn [vx vy vz mr0 mr1 mr2]. apply m3eq; cbn [mr0 mr1 mr2]; apply v3eq; cbn [vx vy vz]; ring. Qed.
Lemma sym3_mid : symmetric3 mid. Proof. reflexivity. Qed.
Lemma sym3_zero : symmetric3 mzero. Proof. reflexivity. Qed.
Lemma sym6_add : forall A B, symmetric6 A -> symmetric6 B -> symmetric6 (m6add A B).
Proof.
  unfold symmetric6, m6tran, m6add. intros [a b c d] [a' b' c' d']. cbn [m6tl m6tr m6bl m6br]. intros H H'.
  assert (T : forall x y, mtr (madd x y) = madd (mtr x) (mtr y)) by (intros [[? ? ?][? ? ?][? ? ?]] [[? ? ?][? ? ?][? ? ?]]; reflexivity).
  injection H; injection H'; intros. rewrite !T. congruence.
Qed.
Lemma sym6_corner : forall M I, symmetric6 M -> symmetric3 I -> symmetric6 (M6 (m6tl M) (m6tr M) (m6bl M) (madd (m6br M) I)).
Proof.
  unfold symmetric6, m6tran. intros [a b c d] I. cbn [m6tl m6tr m6bl m6br]. intros H HI. injection H; intros. f_equal; try assumption.
  apply sym3_add; assumption.
Qed.
Lemma rM6_energy : forall D M n t, (forall i, (i < n)%nat -> symmetric3 (M i)) ->
  energy6 (rM6 D M n) t = nsum n (fun i => energy3 (M i) (velocity_at (vsub (rnode D i) (rA D)) t)).
Proof.
  induction n as [|n IH]; intros t H; cbn [rM6 nsum].
  - apply energy6_zero.
  - rewrite energy6_add, IH by auto. rewrite translate3_energy by auto. reflexivity.
Qed.
Lemma rM6_sym : forall D M n, (forall i, (i < n)%nat -> symmetric3 (M i)) -> symmetric6 (rM6 D M n).
Proof.
  induction n as [|n IH]; intros H; cbn [rM6]; [reflexivity|].
  apply sym6_add; [apply IH; auto | apply translate3_sym; auto].
Qed.
Lemma es_mass_sym : forall l, Forall (fun s => symmetric3 (esMass s)) l -> symmetric3 (es_mass l).
Proof.
  intros l H. unfold es_mass. assert (G : forall a, symmetric3 a -> symmetric3 (fold_left (fun a s => madd a (esMass s)) l a)).
  { induction H; intros a Ha; cbn [fold_left]; [exact Ha|]. apply IHForall. apply sym3_add; assumption. }
  apply G. apply sym3_zero.
Qed.
Lemma es_mass_nonneg : forall l v, Forall (fun s => forall u, 0 <= energy3 (esMass s) u) l -> 0 <= energy3 (es_mass l) v.
Proof.
  intros l v H. unfold es_mass.
  assert (G : forall a, 0 <= energy3 a v -> 0 <= energy3 (fold_left (fun a s => madd a (esMass s)) l a) v).
  { induction H; intros a Ha; cbn [fold_left]; [exact Ha|]. apply IHForall. rewrite e3_add. pose proof (H v). lra. }
  apply G. rewrite e3_zero. lra.
Qed.
Lemma msub_outer_sym : forall q, symmetric3 (msub mid (outer q)).
Proof. intros. unfold msub. apply sym3_add; [apply sym3_mid | apply sym3_scale, sym3_outer]. Qed.
Lemma rM_sym : forall D e z ph i, symmetric3 (rM D e z ph i).
Proof.
  intros. unfold rM. apply sym3_add; [apply sym3_add|].
  - apply sym3_scale, sym3_mid.
  - apply sym3_scale, sym3_add; apply sym3_scale; [apply msub_outer_sym | apply sym3_outer].
  - destruct (rwetEnd _ _ _ _); [apply sym3_scale, sym3_outer | apply sym3_zero].
Qed.
Definition lines_sym (l : list endstuff) := Forall (fun s => symmetric3 (esMass s)) l.
Lemma rMnet_sym : forall D e k ph a b i, lines_sym a -> lines_sym b -> symmetric3 (rMnet D e k ph a b i).
Proof.
  intros. unfold rMnet. apply sym3_add; [apply sym3_add; [apply rM_sym|]|]; destruct (Nat.eqb _ _);
    try apply sym3_zero; apply es_mass_sym; assumption.
Qed.
(* node masses are those of the rod, the rest is added mass *)
Definition radded (D : rod) (e : envc) (k : wkin) (ph : R) (a b : list endstuff) (i : nat) (v : v3) : R :=
  energy3 (rMnet D e k ph a b i) v - rmi D i * dot v v / 2.

Lemma node_vel : forall D i t, (0 < rn D)%nat -> (i <= rn D)%nat ->
  velocity_at (vsub (rnode D i) (rA D)) t = vadd (v6hd t) (vscale (INR i * rl D) (cross (v6tl t) (rq D))).
Proof.
  intros. rewrite rnode_at by assumption. unfold velocity_at.
  generalize (INR i * rl D) (rA D) (rq D) (v6hd t) (v6tl t). vring.
Qed.
Lemma rmi_hw : forall D i, rmi D i = rArea D * rrho D * rl D * hw D i.
Proof. intros. unfold rmi. rewrite rdL_hw. ring. Qed.
Lemma rod_node_energy : forall D t, (0 < rn D)%nat ->
  nsum (rn D + 1) (fun i => rmi D i * dot (velocity_at (vsub (rnode D i) (rA D)) t) (velocity_at (vsub (rnode D i) (rA D)) t) / 2)
  = let u := cross (v6tl t) (rq D) in let v := v6hd t in let L := rlen D in let N := INR (rn D) in
    rmass D / 2 * (dot v v + L * dot v u + L * L * (1 / 3 + 1 / (6 * N * N)) * dot u u).
Proof.
  intros D t HN. pose proof (N_pos D HN). cbv zeta.
  set (u := cross (v6tl t) (rq D)). set (v := v6hd t).
  rewrite (nsum_ext _ _ (fun i => rArea D * rrho D * rl D / 2 * dot v v * hw D i
     + (rArea D * rrho D * rl D / 2 * (2 * rl D * dot v u) * (hw D i * INR i)
     + rArea D * rrho D * rl D / 2 * (rl D * rl D * dot u u) * (hw D i * (INR i * INR i))))).
  - rewrite nsum_add, nsum_add, !nsum_scale. rewrite w_1, w_i, w_ii by assumption. rewrite rl_pos_n by assumption.
    unfold rmass, rArea. field. lra.
  - intros i Hi. rewrite node_vel by lia. fold u v. rewrite rmi_hw.
    replace (dot (vadd v (vscale (INR i * rl D) u)) (vadd v (vscale (INR i * rl D) u)))
      with (dot v v + 2 * (INR i * rl D) * dot v u + (INR i * rl D) * (INR i * rl D) * dot u u)
      by (generalize (INR i * rl D); clear; clearbody u v; intros x; destruct u as [a b c], v as [d e f]; unfold dot, vadd, vscale; cbn [vx vy vz]; ring).
    field.
Qed.
Lemma cross_sq : forall w q, dot q q = 1 -> dot (cross w q) (cross w q) = dot w w - dot w q * dot w q.
Proof.
  intros w q H. replace (dot w w) with (dot w w * dot q q) by (rewrite H; ring).
  destruct w as [a b c], q as [x y z]. unfold dot, cross. cbn [vx vy vz]. ring.
Qed.
Lemma few_ir : forall D, (0 < rn D)%nat -> few_segments D ->
  rIr D = Some (rmass D * (rdia D / 2 * (rdia D / 2) / 4 - rlen D * rlen D / (6 * INR (rn D) * INR (rn D)))).
Proof.
  intros D HN HF. unfold few_segments in HF. pose proof (N_pos D HN). unfold rIr, six_n_n, fdiv.
  rewrite Z.mod_small by nia.
  assert (E : IZR (6 * Z.of_nat (rn D) * Z.of_nat (rn D)) = 6 * INR (rn D) * INR (rn D)) by (rewrite !mult_IZR, <- !INR_IZR_INZ; reflexivity).
  rewrite E. destruct (Req_EM_T _ 0) as [Z|Z]; [nra|]. reflexivity.
Qed.
Lemma rod_energy : forall D e k ph be a b, (0 < rn D)%nat -> few_segments D -> headed (rq D) -> rangles D = Ok (ph, be) ->
  lines_sym a -> lines_sym b ->
  exists M, rM6net D e k ph be a b = Some M /\ symmetric6 M /\
  forall t, energy6 M t = cylinder_energy (rmass D) (rlen D) (rdia D / 2) (rq D) t
     + nsum (rn D + 1) (fun i => radded D e k ph a b i (velocity_at (vsub (rnode D i) (rA D)) t)).
Proof.
  intros D e k ph be a b HN HF HH HA Sa Sb. pose proof (N_pos D HN).
  rewrite angles_n in HA by assumption. pose proof (headed_ok _ _ _ HH HA) as [Q _].
  unfold rM6net, rImat. destruct (Nat.eqb_spec (rn D) 0); [lia|]. rewrite few_ir by assumption. cbn [obnd].
  rewrite rot_axis, <- Q. eexists. split; [reflexivity|]. split.
  { apply sym6_corner; [apply rM6_sym; intros; apply rMnet_sym; assumption|].
    apply sym3_add; apply sym3_scale; [apply sym3_mid | apply sym3_outer]. }
  intros t. rewrite e6_corner, rM6_energy by (intros; apply rMnet_sym; assumption).
  rewrite e3_add, e3_mid, e3_outer.
  rewrite (nsum_ext _ _ (fun i => rmi D i * dot (velocity_at (vsub (rnode D i) (rA D)) t) (velocity_at (vsub (rnode D i) (rA D)) t) / 2
     + radded D e k ph a b i (velocity_at (vsub (rnode D i) (rA D)) t))) by (intros; unfold radded; ring).
  rewrite nsum_add, rod_node_energy by assumption. cbv zeta. destruct HH as [HU _].
  set (S := nsum _ _). clearbody S. unfold cylinder_energy. cbv zeta. set (w := v6tl t). set (v := v6hd t).
  replace (velocity_at (vscale (rlen D / 2) (rq D)) t) with (vadd v (vscale (rlen D / 2) (cross w (rq D))))
    by (unfold velocity_at; fold v w; generalize (rlen D / 2) (rq D); clearbody v w; clear; vring).
  set (u := cross w (rq D)). pose proof (cross_sq w (rq D) HU) as X. fold u in X. rewrite (dot_comm (rq D) w).
  replace (dot (vadd v (vscale (rlen D / 2) u)) (vadd v (vscale (rlen D / 2) u)))
    with (dot v v + rlen D * dot v u + rlen D * rlen D / 4 * dot u u)
    by (generalize (rlen D); clearbody u v; clear; intros x; destruct u as [a b c], v as [d e f]; unfold dot, vadd, vscale; cbn [vx vy vz]; field).
  rewrite X. field. lra.
Qed.
