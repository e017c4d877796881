(** Proofs about the momentum of a body in water. *)
From Coq Require Import Reals List Arith Lra Lia ZArith.
From Verif Require Import MErr MVec MStateOps MMat MInterp MLine MRod MBody SMat SLine SRod SBody SBodyW PMat PEuler PLine PLineB PRod PRodB PRodC PBody PBodyB PBodyC PBodyD.
Import ListNotations.
Open Scope R_scope.

Definition dried (b : body) : body := Body (b_type b) (b_M b) 0 (b_rCG b) (b_I b) (b_CdA b) (b_Ca b) (b_pos b) (b_Or b) (b_v b) (b_a b).
Lemma dried_dry : forall b e, dry (dried b) e. Proof. intros. unfold dry, dried. cbn. ring. Qed.
Lemma wet_M0 : forall b e, body_M0 b e = m6add (body_M0 (dried b) e) (M6 (mscale (b_V b * rho_w e) (mdiag (v6hd (b_Ca b)))) mzero mzero (mscale (b_V b * rho_w e) (mdiag (v6tl (b_Ca b))))).
Proof. intros b e. rewrite (dry_M0 (dried b) e (dried_dry b e)). reflexivity. Qed.
Lemma madd_mzero : forall A, madd A mzero = A.
Proof. intros [[a b c] [d e g] [h i j]]. unfold madd, mzero, vadd, vzero. cbn. split_mat; cbn; ring. Qed.
Lemma rot_madd : forall Q A B v, mmulv (rotateMass Q (madd A B)) v = vadd (mmulv (rotateMass Q A) v) (mmulv (rotateMass Q B) v).
Proof. intros. rewrite !rot_mulv, mmulv_add_l, mmulv_add_r. reflexivity. Qed.
Lemma wet_tl : forall b e v, rotation (b_Or b) -> mmulv (m6tl (rotateMass6 (b_Or b) (body_M0 b e))) v = vadd (vscale (b_M b) v) (mmulv (water_mass b e) v).
Proof.
  intros b e v HR. rewrite wet_M0. unfold rotateMass6. cbn [m6tl m6add]. rewrite rot_madd. f_equal.
  exact (dry_tl (dried b) e (dried_dry b e) HR v).
Qed.
Lemma wet_tr : forall b e v, rotation (b_Or b) -> mmulv (m6tr (rotateMass6 (b_Or b) (body_M0 b e))) v = vscale (b_M b) (cross v (mmulv (b_Or b) (b_rCG b))).
Proof.
  intros b e v HR. rewrite wet_M0. unfold rotateMass6. cbn [m6tr m6bl m6add]. rewrite madd_mzero. exact (dry_tr (dried b) e (dried_dry b e) HR v).
Qed.
Lemma wet_core : forall b e U a al, rotation (b_Or b) ->
  let c := cross (v6tl (b_v b)) (cross (v6tl (b_v b)) (mmulv (b_Or b) (b_rCG b))) in
  vsub (v6hd (m6mulv (snd (body_rhs b e U [])) (V6 a al))) (v6hd (fst (body_rhs b e U [])))
  = vsub (vadd (vscale (b_M b) (acceleration_at (mmulv (b_Or b) (b_rCG b)) a al (v6tl (b_v b)))) (mmulv (water_mass b e) (vadd a c))) (vadd (body_Fgrav b e) (v6hd (body_drag b e U))).
Proof.
  intros b e U a al HR c. unfold body_rhs. cbn [fold_left fst snd]. unfold v6add, m6mulv. cbn [v6hd v6tl].
  rewrite !wet_tl, wet_tr by assumption. rewrite mmulv_add_r. unfold acceleration_at. fold c.
  generalize (cross al (mmulv (b_Or b) (b_rCG b))), (mmulv (water_mass b e) a), (mmulv (water_mass b e) c), (body_Fgrav b e), (v6hd (body_drag b e U)), a. generalize c. vring.
Qed.
Lemma wet_momentum : forall b e U parts mss fs a, rotation (b_Or b) -> b_type b = BFree ->
  length mss = length fs -> Forall2 (fun x mf => balanced_part (v6tl (b_v b)) x (fst mf) (snd mf)) parts (combine mss fs) ->
  body_solves b (fst (body_rhs b e U parts)) (snd (body_rhs b e U parts)) a ->
  let c := cross (v6tl (b_v b)) (cross (v6tl (b_v b)) (mmulv (b_Or b) (b_rCG b))) in
  vadd (vadd (vscale (b_M b) (acceleration_at (mmulv (b_Or b) (b_rCG b)) (v6hd a) (v6tl a) (v6tl (b_v b)))) (mmulv (water_mass b e) (vadd (v6hd a) c)))
       (vtotal (fun ms => vtotal (carried (v6tl (b_v b)) (v6hd a) (v6tl a)) ms) mss)
  = vadd (vadd (body_Fgrav b e) (v6hd (body_drag b e U))) (vtotal (fun f => f) fs).
Proof.
  intros b e U parts mss fs a HR HT HL HB HS c. unfold body_solves in HS. rewrite HT in HS.
  pose proof (fold_balance (v6tl (b_v b)) parts mss fs (body_rhs b e U []) (v6hd a) (v6tl a) HB HL) as E. rewrite <- rhs_fold in E.
  replace (V6 (v6hd a) (v6tl a)) with a in E by (destruct a; reflexivity). rewrite HS in E.
  pose proof (wet_core b e U (v6hd a) (v6tl a) HR) as C. cbv zeta in C. fold c in C. replace (V6 (v6hd a) (v6tl a)) with a in C by (destruct a; reflexivity). rewrite C in E.
  revert E. generalize (v6hd (fst (body_rhs b e U parts))), (vadd (vscale (b_M b) (acceleration_at (mmulv (b_Or b) (b_rCG b)) (v6hd a) (v6tl a) (v6tl (b_v b)))) (mmulv (water_mass b e) (vadd (v6hd a) c))),
    (vadd (body_Fgrav b e) (v6hd (body_drag b e U))), (vtotal (fun ms => vtotal (carried (v6tl (b_v b)) (v6hd a) (v6tl a)) ms) mss), (vtotal (fun f => f) fs).
  intros [a1 a2 a3] [b1 b2 b3] [c1 c2 c3] [d1 d2 d3] [e1 e2 e3]. unfold vsub, vadd. cbn [vx vy vz]. intros E. injection E; intros. f_equal; lra.
Qed.
Lemma wet_pinned : forall b e U parts mss fs a, rotation (b_Or b) -> b_type b = BCpldPin ->
  length mss = length fs -> Forall2 (fun x mf => balanced_part (v6tl (b_v b)) x (fst mf) (snd mf)) parts (combine mss fs) -> b_a b = a ->
  let c := cross (v6tl (b_v b)) (cross (v6tl (b_v b)) (mmulv (b_Or b) (b_rCG b))) in
  vadd (vadd (vscale (b_M b) (acceleration_at (mmulv (b_Or b) (b_rCG b)) (v6hd a) (v6tl a) (v6tl (b_v b)))) (mmulv (water_mass b e) (vadd (v6hd a) c)))
       (vtotal (fun ms => vtotal (carried (v6tl (b_v b)) (v6hd a) (v6tl a)) ms) mss)
  = vsub (vadd (vadd (body_Fgrav b e) (v6hd (body_drag b e U))) (vtotal (fun f => f) fs)) (v6hd (body_getFnet b (fst (body_rhs b e U parts)) (snd (body_rhs b e U parts)))).
Proof.
  intros b e U parts mss fs a HR HT HL HB HA c.
  pose proof (fold_balance (v6tl (b_v b)) parts mss fs (body_rhs b e U []) (v6hd a) (v6tl a) HB HL) as E. rewrite <- rhs_fold in E.
  pose proof (wet_core b e U (v6hd a) (v6tl a) HR) as C. cbv zeta in C. fold c in C. rewrite C in E. unfold body_getFnet. rewrite HT, HA. cbn [v6hd]. unfold m6mulv in E. cbn [v6hd v6tl] in E.
  revert E. generalize (v6hd (fst (body_rhs b e U parts))), (mmulv (m6tl (snd (body_rhs b e U parts))) (v6hd a)), (mmulv (m6tr (snd (body_rhs b e U parts))) (v6tl a)),
    (vadd (vscale (b_M b) (acceleration_at (mmulv (b_Or b) (b_rCG b)) (v6hd a) (v6tl a) (v6tl (b_v b)))) (mmulv (water_mass b e) (vadd (v6hd a) c))),
    (vadd (body_Fgrav b e) (v6hd (body_drag b e U))), (vtotal (fun ms => vtotal (carried (v6tl (b_v b)) (v6hd a) (v6tl a)) ms) mss), (vtotal (fun f => f) fs).
  intros [a1 a2 a3] [b1 b2 b3] [c1 c2 c3] [d1 d2 d3] [e1 e2 e3] [f1 f2 f3] [g1 g2 g3]. unfold vsub, vadd. cbn [vx vy vz]. intros E. injection E; intros. f_equal; lra.
Qed.
(** a body of mass one in weightless water, turning around an axis that is not through its centre of gravity *)
Definition spinner : body := Body BFree 1 1 (V3 1 0 0) (V3 1 1 1) (V6 vzero vzero) (V6 (V3 1 1 1) vzero) vzero mid (V6 vzero (V3 0 0 1)) v6zero.
Definition calm : envc := Envc 1 0 0 0 0 0 1.
Lemma rot_mid : forall A, rotateMass mid A = A.
Proof. intros [[a b c] [d e g] [h i j]]. unfold rotateMass, mmul, mid, mtr, mmulv, dot, vadd, vscale. cbn. split_mat; cbn; ring. Qed.
Lemma wet_bl : forall b e v, rotation (b_Or b) -> mmulv (m6bl (rotateMass6 (b_Or b) (body_M0 b e))) v = vscale (b_M b) (cross (mmulv (b_Or b) (b_rCG b)) v).
Proof.
  intros b e v HR. rewrite wet_M0. unfold rotateMass6. cbn [m6tr m6bl m6add]. rewrite madd_mzero. exact (dry_bl (dried b) e (dried_dry b e) HR v).
Qed.
Lemma mmulv_vzero : forall A, mmulv A vzero = vzero.
Proof. intros [[a b c] [d e g] [h i j]]. unfold mmulv, vzero, dot. cbn. f_equal; ring. Qed.
Lemma water_spinner : forall v, mmulv (water_mass spinner calm) v = v.
Proof. intros [x y z]. unfold water_mass, spinner, calm. cbn [b_Or b_V b_Ca rho_w v6hd]. rewrite rot_mid. unfold mmulv, mscale, mdiag, vscale, dot. cbn. f_equal; ring. Qed.
Lemma drag_spinner : body_drag spinner calm vzero = v6zero.
Proof.
  assert (Z : forall k v, vscale k (mmulv (mmul (mmul mid (mdiag vzero)) (mtr mid)) v) = vzero).
  { intros k [x y z]. unfold mmul, mdiag, mid, mtr, mmulv, dot, vscale, vzero. cbn. f_equal; ring. }
  unfold body_drag, spinner, calm. cbn [b_CdA b_Or b_v rho_w v6hd v6tl]. cbv zeta. rewrite !Z. unfold v6scale, v6zero, vscale, vzero. cbn. f_equal; f_equal; ring.
Qed.
Lemma grav_spinner : body_Fgrav spinner calm = vzero.
Proof. unfold body_Fgrav, spinner, calm, vzero. cbn. f_equal; ring. Qed.
Lemma spinner_solves : body_solves spinner (fst (body_rhs spinner calm vzero [])) (snd (body_rhs spinner calm vzero [])) (V6 (V3 1 0 0) vzero).
Proof.
  change (m6mulv (snd (body_rhs spinner calm vzero [])) (V6 (V3 1 0 0) vzero) = fst (body_rhs spinner calm vzero [])).
  unfold body_rhs. cbn [fold_left fst snd]. rewrite drag_spinner, grav_spinner. unfold m6mulv. cbn [v6hd v6tl].
  rewrite !(wet_tl spinner calm) by exact mid_rotation. rewrite (wet_bl spinner calm) by exact mid_rotation. rewrite !mmulv_vzero, !water_spinner.
  cbn [spinner b_Or b_rCG b_M b_v v6tl]. rewrite mmulv_id. unfold v6add, v6zero, vzero, cross, vsub, vadd, vscale. cbn [v6hd v6tl vx vy vz]. f_equal; f_equal; ring.
Qed.
Lemma spinner_unbalanced : vadd (vscale (b_M spinner) (acceleration_at (mmulv (b_Or spinner) (b_rCG spinner)) (V3 1 0 0) vzero (v6tl (b_v spinner)))) (mmulv (water_mass spinner calm) (V3 1 0 0)) = V3 1 0 0 /\
  vadd (body_Fgrav spinner calm) (v6hd (body_drag spinner calm vzero)) = vzero.
Proof.
  rewrite water_spinner, drag_spinner, grav_spinner. cbn [spinner b_Or b_rCG b_M b_v v6tl]. rewrite mmulv_id.
  split; unfold acceleration_at, v6zero, vzero, cross, vadd, vscale; cbn [v6hd v6tl vx vy vz]; f_equal; ring.
Qed.
