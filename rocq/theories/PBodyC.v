(** Proofs about bodies: momentum, angular momentum, mass matrix, drag *)
From Coq Require Import Reals List Arith Lra Lia ZArith.
From Verif Require Import MErr MVec MStateOps MMat MInterp MLine MRod MBody SMat SLine SRod SBody PMat PEuler PLine PLineB PRod PRodB PRodC PBody PBodyB.
Import ListNotations.
Open Scope R_scope.

(* ----- the blocks of the mass matrix ----- *)
Lemma mtr_scale_mid : forall k, mtr (mscale k mid) = mscale k mid.
Proof. intros. unfold mtr, mscale, mid, vscale. cbn. split_mat; cbn; ring. Qed.
Lemma mmulv_mid_scale : forall k v, mmulv (mscale k mid) v = vscale k v.
Proof. intros. rewrite mmulv_mscale, mmulv_id. reflexivity. Qed.
Lemma mtr_getH : forall r, mmulv (mtr (getH r)) = cross r.
Proof. reflexivity || (intros r; apply FunctionalExtensionality.functional_extensionality; intros a; destruct r as [x y z], a as [u v w]; unfold mtr, getH, mmulv, cross, dot; cbn; f_equal; ring). Qed.
Lemma mtr_madd : forall A B, mtr (madd A B) = madd (mtr A) (mtr B).
Proof. intros [[a b c] [d e g] [h i j]] [[a' b' c'] [d' e' g'] [h' i' j']]. reflexivity. Qed.
Lemma rot_mulv : forall Q A v, mmulv (rotateMass Q A) v = mmulv Q (mmulv A (mmulv (mtr Q) v)).
Proof. intros. unfold rotateMass. rewrite !mmulv_mmul. reflexivity. Qed.
Lemma dry_M0 : forall b e, dry b e ->
  body_M0 b e = translateMass6 (b_rCG b) (M6 (mscale (b_M b) mid) mzero mzero (mdiag (b_I b))).
Proof.
  intros b e H. unfold body_M0, dry in *. rewrite H. cbv zeta.
  generalize (translateMass6 (b_rCG b) (M6 (mscale (b_M b) mid) mzero mzero (mdiag (b_I b)))), (mdiag (v6hd (b_Ca b))), (mdiag (v6tl (b_Ca b))).
  intros [A B C D] X Y. unfold m6add, mscale. cbn [m6tl m6tr m6bl m6br].
  destruct A as [[? ? ?] [? ? ?] [? ? ?]], B as [[? ? ?] [? ? ?] [? ? ?]], C as [[? ? ?] [? ? ?] [? ? ?]], D as [[? ? ?] [? ? ?] [? ? ?]].
  destruct X as [[? ? ?] [? ? ?] [? ? ?]], Y as [[? ? ?] [? ? ?] [? ? ?]].
  unfold madd, vadd, vscale, mzero, vzero. cbn. split_mat; cbn; ring.
Qed.
Lemma cross_flip : forall a b, cross (cross a b) a = vscale (-1) (cross a (cross a b)). Proof. vring. Qed.
Lemma sub_flip : forall k a b, vadd (vscale k (vscale (-1) a)) b = vsub b (vscale k a). Proof. vring. Qed.
Lemma br_rot : forall Q M, m6br (rotateMass6 Q M) = rotateMass Q (m6br M). Proof. reflexivity. Qed.
Lemma br_translate : forall r m I, m6br (translateMass6 r (M6 (mscale m mid) mzero mzero I)) = madd (mscale m (mmul (getH r) (mtr (getH r)))) I.
Proof.
  intros r m I. dv. ex.
  split_mat; cbn; ring.
Qed.
Section Blocks.
Variables (b : body) (e : envc).
Hypothesis HD : dry b e.
Hypothesis HR : rotation (b_Or b).
Let Q := b_Or b.
Let rc := mmulv Q (b_rCG b).
Let m := b_M b.
Lemma back_cross : forall c x, mmulv Q (cross (mmulv (mtr Q) c) x) = cross c (mmulv Q x).
Proof. intros c x. rewrite <- rot_cross by exact HR. rewrite orth_cancel' by apply HR. reflexivity. Qed.
Lemma dry_tl : forall v, mmulv (m6tl (rotateMass6 Q (body_M0 b e))) v = vscale m v.
Proof.
  intros v. rewrite dry_M0 by exact HD. unfold rotateMass6, translateMass6. cbn [m6tl]. rewrite rot_mulv, mmulv_mid_scale, mmulv_scale, orth_cancel' by apply HR. reflexivity.
Qed.
Lemma trJ : forall r, mtr (madd (mmul (mscale m mid) (getH r)) mzero) = mscale m (mtr (getH r)).
Proof. intros [x y z]. unfold mtr, madd, mmul, mscale, mid, getH, mzero, vzero, vadd, vscale, mmulv, dot. cbn. split_mat; cbn; ring. Qed.
Lemma dry_tr : forall v, mmulv (m6tr (rotateMass6 Q (body_M0 b e))) v = vscale m (cross v rc).
Proof.
  intros v. rewrite dry_M0 by exact HD. unfold rotateMass6, translateMass6. cbn [m6tr m6bl m6tl]. fold m. rewrite trJ. unfold rotateMass.
  rewrite !mtr_mmul, mtr_mtr, !mmulv_mmul.
  assert (E : mtr (mscale m (mtr (getH (b_rCG b)))) = mscale m (getH (b_rCG b))). { destruct (b_rCG b) as [x y z]. reflexivity. }
  rewrite E, mmulv_mscale, getH_cross, mmulv_scale, back_cross. reflexivity.
Qed.
Lemma dry_bl : forall v, mmulv (m6bl (rotateMass6 Q (body_M0 b e))) v = vscale m (cross rc v).
Proof.
  intros v. rewrite dry_M0 by exact HD. unfold rotateMass6, translateMass6. cbn [m6tr m6bl m6tl]. fold m. rewrite trJ, rot_mulv, mmulv_mscale, mtr_getH, mmulv_scale.
  rewrite <- rot_cross by exact HR. rewrite orth_cancel' by apply HR. reflexivity.
Qed.
Lemma dry_br : forall v, mmulv (m6br (rotateMass6 Q (body_M0 b e))) v = vsub (mmulv (world_inertia b) v) (vscale m (cross rc (cross rc v))).
Proof.
  intros v. rewrite dry_M0 by exact HD. rewrite br_rot, br_translate. fold m.
  rewrite rot_mulv, mmulv_add_l, mmulv_mscale, mmulv_mmul, mtr_getH, getH_cross, mmulv_add_r, mmulv_scale. unfold world_inertia. rewrite rot_mulv. fold Q.
  assert (G : mmulv Q (cross (cross (b_rCG b) (mmulv (mtr Q) v)) (b_rCG b)) = vscale (-1) (cross rc (cross rc v))).
  { rewrite <- (rot_cross Q (cross (b_rCG b) (mmulv (mtr Q) v)) (b_rCG b) HR). rewrite <- (rot_cross Q (b_rCG b) (mmulv (mtr Q) v) HR).
    rewrite orth_cancel' by apply HR. fold rc. apply cross_flip. }
  rewrite G. apply sub_flip.
Qed.
End Blocks.

(* ----- linear momentum ----- *)
Lemma rhs_fold : forall b e U parts, body_rhs b e U parts = fold_parts parts (body_rhs b e U []).
Proof. reflexivity. Qed.
Lemma core_balance : forall b e U a al, dry b e -> rotation (b_Or b) ->
  vsub (v6hd (m6mulv (snd (body_rhs b e U [])) (V6 a al))) (v6hd (fst (body_rhs b e U [])))
  = vsub (vscale (b_M b) (acceleration_at (mmulv (b_Or b) (b_rCG b)) a al (v6tl (b_v b)))) (vadd (body_Fgrav b e) (v6hd (body_drag b e U))).
Proof.
  intros b e U a al HD HR. unfold body_rhs. cbn [fold_left fst snd]. unfold v6add, m6mulv. cbn [v6hd v6tl].
  rewrite !dry_tl, dry_tr by assumption. unfold acceleration_at.
  generalize (cross al (mmulv (b_Or b) (b_rCG b))), (cross (v6tl (b_v b)) (cross (v6tl (b_v b)) (mmulv (b_Or b) (b_rCG b)))), (body_Fgrav b e), (v6hd (body_drag b e U)), a. vring.
Qed.
Lemma body_momentum : forall b e U parts mss fs a, dry b e -> rotation (b_Or b) -> b_type b = BFree ->
  length mss = length fs -> Forall2 (fun x mf => balanced_part (v6tl (b_v b)) x (fst mf) (snd mf)) parts (combine mss fs) ->
  body_solves b (fst (body_rhs b e U parts)) (snd (body_rhs b e U parts)) a ->
  vadd (vscale (b_M b) (acceleration_at (mmulv (b_Or b) (b_rCG b)) (v6hd a) (v6tl a) (v6tl (b_v b))))
       (vtotal (fun ms => vtotal (carried (v6tl (b_v b)) (v6hd a) (v6tl a)) ms) mss)
  = vadd (vadd (body_Fgrav b e) (v6hd (body_drag b e U))) (vtotal (fun f => f) fs).
Proof.
  intros b e U parts mss fs a HD HR HT HL HB HS. unfold body_solves in HS. rewrite HT in HS.
  pose proof (fold_balance (v6tl (b_v b)) parts mss fs (body_rhs b e U []) (v6hd a) (v6tl a) HB HL) as E. rewrite <- rhs_fold in E.
  replace (V6 (v6hd a) (v6tl a)) with a in E by (destruct a; reflexivity). rewrite HS in E.
  pose proof (core_balance b e U (v6hd a) (v6tl a) HD HR) as C. replace (V6 (v6hd a) (v6tl a)) with a in C by (destruct a; reflexivity). rewrite C in E.
  revert E. generalize (v6hd (fst (body_rhs b e U parts))), (vscale (b_M b) (acceleration_at (mmulv (b_Or b) (b_rCG b)) (v6hd a) (v6tl a) (v6tl (b_v b)))),
    (vadd (body_Fgrav b e) (v6hd (body_drag b e U))), (vtotal (fun ms => vtotal (carried (v6tl (b_v b)) (v6hd a) (v6tl a)) ms) mss), (vtotal (fun f => f) fs).
  intros [a1 a2 a3] [b1 b2 b3] [c1 c2 c3] [d1 d2 d3] [e1 e2 e3]. unfold vsub, vadd. cbn [vx vy vz]. intros E. injection E; intros. f_equal; lra.
Qed.
(** the reaction reported for a coupled body *)
Lemma norm0 : forall k, vscale k vzero = vzero. Proof. vring. Qed.
Lemma coupled_reaction : forall M V rCG I CdA Ca pos Or v a e U parts mss fs, rotation Or ->
  let b := body_keep BCoupled M V rCG I CdA Ca pos Or v a in
  length mss = length fs -> Forall2 (fun x mf => balanced_part (v6tl v) x (fst mf) (snd mf)) parts (combine mss fs) ->
  v6hd (body_getFnet b (fst (body_rhs b e U parts)) (snd (body_rhs b e U parts)))
  = vsub (vtotal (fun f => f) fs) (vtotal (fun ms => vtotal (carried (v6tl v) (v6hd a) (v6tl a)) ms) mss).
Proof.
  intros M V rCG I CdA Ca pos Or v a e U parts mss fs HR b HL HB.
  assert (HD : dry b e) by (unfold dry, b; cbn; ring).
  pose proof (fold_balance (v6tl v) parts mss fs (body_rhs b e U []) (v6hd a) (v6tl a) HB HL) as E. rewrite <- rhs_fold in E.
  pose proof (core_balance b e U (v6hd a) (v6tl a) HD HR) as C.
  replace (V6 (v6hd a) (v6tl a)) with a in E, C by (destruct a; reflexivity). rewrite C in E. clear C.
  change (v6hd (body_getFnet b (fst (body_rhs b e U parts)) (snd (body_rhs b e U parts)))) with (vsub (v6hd (fst (body_rhs b e U parts))) (v6hd (m6mulv (snd (body_rhs b e U parts)) a))).
  assert (Z1 : body_Fgrav b e = vzero) by (unfold body_Fgrav, b; cbn; unfold vzero; f_equal; ring).
  assert (Z2 : v6hd (body_drag b e U) = vzero).
  { unfold body_drag, b. cbn [v6scale v6hd body_keep b_Or b_CdA b_v v6zero]. cbv zeta. cbn [v6hd].
    assert (G : forall x, mmulv (mmul (mmul Or (mdiag vzero)) (mtr Or)) x = vzero).
    { intros x. rewrite !mmulv_mmul. assert (mmulv (mdiag vzero) (mmulv (mtr Or) x) = vzero) as -> by (destruct (mmulv (mtr Or) x); unfold mmulv, mdiag, vzero, dot; cbn; f_equal; ring).
      destruct Or as [[? ? ?] [? ? ?] [? ? ?]]. unfold mmulv, vzero, dot. cbn. f_equal; ring. }
    rewrite G, !norm0. reflexivity. }
  rewrite Z1, Z2 in E. change (b_M b) with 0 in E.
  revert E. generalize (v6hd (fst (body_rhs b e U parts))), (v6hd (m6mulv (snd (body_rhs b e U parts)) a)), (acceleration_at (mmulv (b_Or b) (b_rCG b)) (v6hd a) (v6tl a) (v6tl (b_v b))),
    (vtotal (fun ms => vtotal (carried (v6tl v) (v6hd a) (v6tl a)) ms) mss), (vtotal (fun f => f) fs).
  intros [a1 a2 a3] [b1 b2 b3] [c1 c2 c3] [d1 d2 d3] [e1 e2 e3]. unfold vsub, vadd, vscale, vzero. cbn [vx vy vz]. intros E. injection E; intros. f_equal; lra.
Qed.

(* ----- angular momentum ----- *)
Lemma body_spin : forall b e U a, rho_w e = 0 -> rotation (b_Or b) -> b_type b = BFree ->
  body_solves b (fst (body_rhs b e U [])) (snd (body_rhs b e U [])) a ->
  let rc := mmulv (b_Or b) (b_rCG b) in let w := v6tl (b_v b) in
  spin_rate (world_inertia b) w (v6tl a)
  = vadd (cross w (mmulv (world_inertia b) w)) (vscale (b_M b) (cross rc (cross w (cross w rc)))).
Proof.
  intros b e U a H0 HR HT HS rc w. assert (HD : dry b e) by (unfold dry; rewrite H0; ring).
  unfold body_solves in HS. rewrite HT in HS.
  assert (Z : body_drag b e U = v6zero).
  { unfold body_drag. cbv zeta. rewrite H0. unfold v6scale, v6zero. cbn [v6hd v6tl].
    match goal with |- V6 (vscale ?k ?x) (vscale ?k ?y) = _ => generalize x, y end. intros [? ? ?] [? ? ?]. unfold vscale, vzero. cbn. repeat f_equal; ring. }
  unfold body_rhs in HS. cbn [fold_left fst snd] in HS. rewrite Z in HS. unfold v6add, m6mulv, v6zero in HS. cbn [v6hd v6tl] in HS.
  pose proof (f_equal v6hd HS) as E1. pose proof (f_equal v6tl HS) as E2. cbn [v6hd v6tl] in E1, E2. rewrite !dry_tl, dry_tr in E1 by assumption. rewrite dry_bl, dry_br in E2 by assumption.
  fold rc w in E1, E2. unfold spin_rate.
  set (I := world_inertia b) in *. set (m := b_M b) in *. set (g := body_Fgrav b e) in *. set (c2 := cross w (cross w rc)) in *.
  assert (E1' : vscale m (v6hd a) = vsub (vsub g (vscale m c2)) (vscale m (cross (v6tl a) rc))).
  { revert E1. generalize (vscale m (v6hd a)), (vscale m (cross (v6tl a) rc)), (vscale m c2), g. intros [? ? ?] [? ? ?] [? ? ?] [? ? ?].
    unfold vadd, vsub, vzero. cbn. intros E. injection E; intros. f_equal; lra. }
  assert (C : vscale m (cross rc (v6hd a)) = cross rc (vscale m (v6hd a))) by (generalize rc, (v6hd a); vring).
  rewrite C, E1' in E2. revert E2. generalize (mmulv I (v6tl a)), (cross w (mmulv I w)). generalize c2, g. generalize rc, (v6tl a).
  intros [r1 r2 r3] [a1 a2 a3] [c1 c2' c3] [g1 g2 g3] [x1 x2 x3] [y1 y2 y3].
  unfold vadd, vsub, vscale, cross, vzero. cbn [vx vy vz]. intros E. injection E; intros. f_equal; lra.
Qed.
