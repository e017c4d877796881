(** Proofs about bodies: mass matrix, acceleration, drag; examples *)
From Coq Require Import Reals List Arith Lra Lia ZArith.
From Verif Require Import MErr MVec MStateOps MMat MInterp MLine MRod MBody SMat SLine SRod SBody PMat PEuler PLine PLineB PRod PRodB PRodC PBody PBodyB PBodyC.
Import ListNotations.
Open Scope R_scope.

(* ----- kinetic energy ----- *)
Lemma diag_sym : forall v, symmetric3 (mdiag v). Proof. intros [x y z]. reflexivity. Qed.
Lemma core6_sym : forall m I, symmetric6 (M6 (mscale m mid) mzero mzero (mdiag I)).
Proof. intros m [i j k]. unfold symmetric6, m6tran. cbn [m6tl m6tr m6bl m6br]. rewrite mtr_scale_mid. reflexivity. Qed.
Lemma water_sym : forall k (C : v6), symmetric6 (M6 (mscale k (mdiag (v6hd C))) mzero mzero (mscale k (mdiag (v6tl C)))).
Proof. intros k [[a b c] [d e g]]. reflexivity. Qed.
Lemma M0_sym : forall b e, symmetric6 (body_M0 b e).
Proof. intros b e. unfold body_M0. apply sym6_add; [apply translate6_sym, core6_sym | apply water_sym]. Qed.
Lemma M0_energy : forall b e t, energy6 (body_M0 b e) t = rigid_energy (b_M b) (b_rCG b) (b_I b) t + water_energy (b_V b * rho_w e) (b_Ca b) t.
Proof.
  intros b e t. unfold body_M0. rewrite energy6_add, translate6_energy by apply core6_sym. f_equal.
  - unfold rigid_energy, twist_at. generalize (velocity_at (b_rCG b) t). intros v. destruct (b_I b) as [i j k], v as [a c d], t as [x [p q r]].
    unfold energy6, v6dot, m6mulv, mdiag. cbn [v6hd v6tl m6tl m6tr m6bl m6br vx vy vz]. ex. field.
  - unfold water_energy. destruct (b_Ca b) as [[a1 a2 a3] [b1 b2 b3]], t as [[c1 c2 c3] [d1 d2 d3]]. unfold mdiag. ex. field.
Qed.
Lemma fold_mass : forall parts FM t, energy6 (snd (fold_parts parts FM)) t = energy6 (snd FM) t + rtotal (fun x => energy6 (snd x) t) parts.
Proof.
  induction parts as [|x parts IH]; intros FM t; [cbn; ring|].
  change (fold_parts (x :: parts) FM) with (fold_parts parts (v6add (fst FM) (fst x), m6add (snd FM) (snd x))). rewrite IH. cbn [snd]. rewrite energy6_add.
  cbn [rtotal fold_right]. unfold rtotal. ring.
Qed.
Lemma fold_sym : forall parts FM, symmetric6 (snd FM) -> Forall (fun x => symmetric6 (snd x)) parts -> symmetric6 (snd (fold_parts parts FM)).
Proof.
  induction parts as [|x parts IH]; intros FM H HF; [exact H|]. inversion HF; subst.
  change (fold_parts (x :: parts) FM) with (fold_parts parts (v6add (fst FM) (fst x), m6add (snd FM) (snd x))). apply IH; [|assumption]. cbn [snd]. apply sym6_add; assumption.
Qed.
Lemma body_energy : forall b e U parts t, orthogonal (b_Or b) ->
  energy6 (snd (body_rhs b e U parts)) (rotate_twist (b_Or b) t)
  = rigid_energy (b_M b) (b_rCG b) (b_I b) t + water_energy (b_V b * rho_w e) (b_Ca b) t
    + rtotal (fun x => energy6 (snd x) (rotate_twist (b_Or b) t)) parts.
Proof.
  intros b e U parts t HO. rewrite rhs_fold, fold_mass. f_equal. unfold body_rhs. cbn [fold_left snd].
  rewrite rotate6_energy by (try exact HO; apply M0_sym). apply M0_energy.
Qed.
Lemma body_sym : forall b e U parts, Forall (fun x => symmetric6 (snd x)) parts -> symmetric6 (snd (body_rhs b e U parts)).
Proof. intros b e U parts H. rewrite rhs_fold. apply fold_sym; [|exact H]. unfold body_rhs. cbn [fold_left snd]. apply rotate6_sym, M0_sym. Qed.
Lemma sq_nonneg : forall c x, 0 <= c -> 0 <= c * (x * x).
Proof. intros. apply Rmult_le_pos; [assumption | apply Rle_0_sqr]. Qed.
Lemma rigid_pos : forall m c I t, 0 < m -> 0 < vx I -> 0 < vy I -> 0 < vz I -> t <> v6zero -> 0 < rigid_energy m c I t.
Proof.
  intros m c I t Hm Hx Hy Hz Ht. unfold rigid_energy. cbv zeta.
  pose proof (dot_pos (velocity_at c t)) as D. pose proof (sq_nonneg (vx I) (vx (v6tl t)) ltac:(lra)). pose proof (sq_nonneg (vy I) (vy (v6tl t)) ltac:(lra)). pose proof (sq_nonneg (vz I) (vz (v6tl t)) ltac:(lra)).
  assert (0 <= m * dot (velocity_at c t) (velocity_at c t)) by (apply Rmult_le_pos; lra).
  destruct (Req_dec (dot (v6tl t) (v6tl t)) 0) as [E|E].
  - pose proof (dot_zero _ E) as W. assert (V : velocity_at c t = v6hd t). { unfold velocity_at. rewrite W. destruct (v6hd t), c. unfold cross, vadd, vzero. cbn. f_equal; ring. }
    assert (v6hd t <> vzero). { intros C. apply Ht. destruct t as [h w]. cbn in *. subst. reflexivity. }
    rewrite V in *. pose proof (dot_nonzero _ H3). assert (0 < m * dot (v6hd t) (v6hd t)) by (apply Rmult_lt_0_compat; assumption). lra.
  - assert (0 < vx I * (vx (v6tl t) * vx (v6tl t)) + vy I * (vy (v6tl t) * vy (v6tl t)) + vz I * (vz (v6tl t) * vz (v6tl t))).
    { destruct (v6tl t) as [p q r]. unfold dot in E. cbn [vx vy vz] in *.
      destruct (Req_dec p 0) as [->|P]; [destruct (Req_dec q 0) as [->|Q']; [destruct (Req_dec r 0) as [->|R']|]|].
      - exfalso. apply E. ring.
      - assert (0 < r * r) by nra. assert (0 < vz I * (r * r)) by (apply Rmult_lt_0_compat; assumption). lra.
      - assert (0 < q * q) by nra. assert (0 < vy I * (q * q)) by (apply Rmult_lt_0_compat; assumption). lra.
      - assert (0 < p * p) by nra. assert (0 < vx I * (p * p)) by (apply Rmult_lt_0_compat; assumption). lra. }
    lra.
Qed.
Lemma water_nonneg : forall k C t, 0 <= k -> 0 <= vx (v6hd C) -> 0 <= vy (v6hd C) -> 0 <= vz (v6hd C) -> 0 <= vx (v6tl C) -> 0 <= vy (v6tl C) -> 0 <= vz (v6tl C) -> 0 <= water_energy k C t.
Proof.
  intros k C t Hk H1 H2 H3 H4 H5 H6. unfold water_energy.
  pose proof (sq_nonneg _ (vx (v6hd t)) H1). pose proof (sq_nonneg _ (vy (v6hd t)) H2). pose proof (sq_nonneg _ (vz (v6hd t)) H3).
  pose proof (sq_nonneg _ (vx (v6tl t)) H4). pose proof (sq_nonneg _ (vy (v6tl t)) H5). pose proof (sq_nonneg _ (vz (v6tl t)) H6).
  match goal with |- 0 <= k * ?x / 2 => assert (0 <= x) by lra; assert (0 <= k * x) by (apply Rmult_le_pos; assumption) end. lra.
Qed.
Lemma twist_back : forall Q t, orthogonal Q -> rotate_twist Q (rotate_twist (mtr Q) t) = t.
Proof. intros Q [a b] H. unfold rotate_twist. cbn [v6hd v6tl]. rewrite !orth_cancel' by exact H. reflexivity. Qed.
Lemma body_pd : forall b e U parts, sensible_body b -> 0 <= rho_w e -> orthogonal (b_Or b) -> proper_parts parts ->
  let M := snd (body_rhs b e U parts) in symmetric6 M /\ forall t, t <> v6zero -> 0 < energy6 M t.
Proof.
  intros b e U parts (S1 & S2 & S3 & S4 & S5 & S6 & S7 & S8 & S9 & S10 & S11) Hr HO HP M. split.
  - apply body_sym. unfold proper_parts in HP. rewrite Forall_forall in *. intros x Hx. apply (HP x Hx).
  - intros t Ht. unfold M. rewrite <- (twist_back (b_Or b) t HO). rewrite body_energy by exact HO. set (s := rotate_twist (mtr (b_Or b)) t).
    assert (Hs : s <> v6zero). { intros C. apply Ht. rewrite <- (twist_back (b_Or b) t HO). fold s. rewrite C. unfold rotate_twist, v6zero. cbn [v6hd v6tl].
      assert (Z : forall A, mmulv A vzero = vzero) by (intros [[? ? ?] [? ? ?] [? ? ?]]; unfold mmulv, vzero, dot; cbn; f_equal; ring). rewrite Z. reflexivity. }
    pose proof (rigid_pos (b_M b) (b_rCG b) (b_I b) s S1 S2 S3 S4 Hs).
    assert (0 <= water_energy (b_V b * rho_w e) (b_Ca b) s). { apply water_nonneg; try assumption. apply Rmult_le_pos; assumption. }
    assert (0 <= rtotal (fun x => energy6 (snd x) (rotate_twist (b_Or b) s)) parts). { apply rtotal_nonneg. intros x Hx. unfold proper_parts in HP. rewrite Forall_forall in HP. apply (HP x Hx). }
    lra.
Qed.

(* ----- solving a positive definite 6x6 system ----- *)
Lemma mmulv_sub_r : forall A u v, mmulv A (vsub u v) = vsub (mmulv A u) (mmulv A v).
Proof. intros [[? ? ?] [? ? ?] [? ? ?]] [? ? ?] [? ? ?]. unfold mmulv, vsub, dot. cbn. f_equal; ring. Qed.
Lemma mmulv_msub_l : forall A B v, mmulv (msub A B) v = vsub (mmulv A v) (mmulv B v).
Proof. intros [[? ? ?] [? ? ?] [? ? ?]] [[? ? ?] [? ? ?] [? ? ?]] [? ? ?]. unfold mmulv, msub, vsub, dot. cbn. f_equal; ring. Qed.
Lemma sym_entries : forall M, (forall u v, dot u (mmulv M v) = dot v (mmulv M u)) -> symmetric3 M.
Proof.
  intros M H. pose proof (H (V3 1 0 0) (V3 0 1 0)). pose proof (H (V3 1 0 0) (V3 0 0 1)). pose proof (H (V3 0 1 0) (V3 0 0 1)).
  destruct M as [[a b c] [d e g] [h i j]]. unfold dot, mmulv in *. cbn in *. unfold symmetric3, mtr. cbn. unfold dot in *. cbn in *. split_mat; cbn; lra.
Qed.
Lemma sym_swap : forall M u v, symmetric3 M -> dot u (mmulv M v) = dot v (mmulv M u).
Proof. intros M u v H. rewrite dot_mtr, H. apply dot_comm. Qed.
Lemma pd6_solve : forall M F, symmetric6 M -> (forall t, t <> v6zero -> 0 < energy6 M t) ->
  exists a, m6mulv M a = F /\ forall b, m6mulv M b = F -> b = a.
Proof.
  intros M F HS HP. destruct M as [A B C D]. unfold symmetric6, m6tran in HS. cbn [m6tl m6tr m6bl m6br] in HS. injection HS as SA SC SB SD.
  assert (EC : C = mtr B) by (rewrite <- SB; reflexivity). clear SB SC. subst C.
  assert (PA : forall u, u <> vzero -> 0 < energy3 A u).
  { intros u Hu. assert (N : V6 u vzero <> v6zero) by (intros E; apply Hu; injection E; auto). pose proof (HP _ N) as P. unfold energy6, v6dot, m6mulv in P. cbn [v6hd v6tl m6tl m6tr m6bl m6br] in P.
    unfold energy3. revert P. replace (mmulv B vzero) with vzero by (destruct B as [[? ? ?] [? ? ?] [? ? ?]]; unfold mmulv, vzero, dot; cbn; f_equal; ring).
    rewrite vadd_0_r. match goal with |- context [dot vzero ?x] => replace (dot vzero x) with 0 by (unfold dot; cbn; ring) end. lra. }
  pose proof (pd_det A SA PA) as DA. set (X := minv A).
  assert (XA : forall f, mmulv A (mmulv X f) = f) by (intros; apply minv_right; exact DA).
  assert (SX : symmetric3 X). { apply sym_entries. intros u v. rewrite <- (XA u) at 1. rewrite <- (XA v) at 2. rewrite (dot_comm (mmulv A (mmulv X u))), (dot_comm (mmulv A (mmulv X v))). apply sym_swap. exact SA. }
  set (Z := msub D (mmul (mmul (mtr B) X) B)).
  assert (ZV : forall v, mmulv Z v = vsub (mmulv D v) (mmulv (mtr B) (mmulv X (mmulv B v)))) by (intros; unfold Z; rewrite mmulv_msub_l, !mmulv_mmul; reflexivity).
  assert (SZ : symmetric3 Z). { apply sym_entries. intros u v. rewrite !ZV.
    assert (L : forall p q r, dot p (vsub q r) = dot p q - dot p r) by (intros [? ? ?] [? ? ?] [? ? ?]; unfold dot, vsub; cbn; ring).
    rewrite !L. rewrite (sym_swap D u v SD). f_equal. rewrite !(dot_mtr (mtr B)), !mtr_mtr. apply sym_swap. exact SX. }
  assert (PZ : forall u, u <> vzero -> 0 < energy3 Z u).
  { intros u Hu. set (x := vscale (-1) (mmulv X (mmulv B u))). assert (N : V6 x u <> v6zero) by (intros E; apply Hu; injection E; auto). pose proof (HP _ N) as P.
    unfold energy6, v6dot, m6mulv in P. cbn [v6hd v6tl m6tl m6tr m6bl m6br] in P.
    assert (Q1 : vadd (mmulv A x) (mmulv B u) = vzero). { unfold x. rewrite mmulv_scale, XA. generalize (mmulv B u). vring. }
    rewrite Q1 in P. unfold energy3. rewrite ZV.
    assert (Q2 : vadd (mmulv (mtr B) x) (mmulv D u) = vsub (mmulv D u) (mmulv (mtr B) (mmulv X (mmulv B u)))). { unfold x. rewrite mmulv_scale. generalize (mmulv (mtr B) (mmulv X (mmulv B u))), (mmulv D u). vring. }
    rewrite Q2 in P. match type of P with context [dot ?p vzero] => replace (dot p vzero) with 0 in P by (unfold dot; cbn; ring) end. lra. }
  pose proof (pd_det Z SZ PZ) as DZ.
  set (al := mmulv (minv Z) (vsub (v6tl F) (mmulv (mtr B) (mmulv X (v6hd F))))).
  set (a := mmulv X (vsub (v6hd F) (mmulv B al))).
  assert (HA : m6mulv (M6 A B (mtr B) D) (V6 a al) = F).
  { unfold m6mulv. cbn [v6hd v6tl m6tl m6tr m6bl m6br]. destruct F as [Fh Ft]. f_equal.
    - unfold a. rewrite XA. cbn [v6hd]. generalize (mmulv B al), Fh. vring.
    - assert (ZA : mmulv Z al = vsub Ft (mmulv (mtr B) (mmulv X Fh))) by (unfold al; apply minv_right; exact DZ).
      rewrite ZV in ZA. unfold a. cbn [v6hd]. rewrite !mmulv_sub_r. revert ZA.
      generalize (mmulv D al), (mmulv (mtr B) (mmulv X (mmulv B al))), (mmulv (mtr B) (mmulv X Fh)). clear. destruct Ft. intros [? ? ?] [? ? ?] [? ? ?]. unfold vsub, vadd. cbn. intros E. injection E; intros. f_equal; lra. }
  exists (V6 a al). split; [exact HA|]. intros b Hb.
  set (M := M6 A B (mtr B) D) in *.
  assert (ZD : m6mulv M (v6sub b (V6 a al)) = v6zero).
  { transitivity (v6sub (m6mulv M b) (m6mulv M (V6 a al))).
    - unfold m6mulv, v6sub. cbn [v6hd v6tl]. rewrite !mmulv_sub_r. f_equal; match goal with |- vadd (vsub ?p ?q) (vsub ?r ?s) = _ => generalize p, q, r, s end; clear; vring.
    - rewrite Hb, HA. unfold v6sub, v6zero. rewrite !vsub_self. reflexivity. }
  destruct b as [bh bt]. unfold v6sub in ZD. cbn [v6hd v6tl] in ZD.
  destruct (Req_dec (dot (vsub bh a) (vsub bh a) + dot (vsub bt al) (vsub bt al)) 0) as [E|E].
  - pose proof (dot_pos (vsub bh a)). pose proof (dot_pos (vsub bt al)).
    pose proof (dot_zero (vsub bh a) ltac:(lra)) as E1'. pose proof (dot_zero (vsub bt al) ltac:(lra)) as E2'.
    assert (G : forall p q, vsub p q = vzero -> p = q) by (intros [? ? ?] [? ? ?]; unfold vsub, vzero; cbn; intros X1; injection X1; intros; f_equal; lra).
    f_equal; apply G; assumption.
  - exfalso. assert (N : V6 (vsub bh a) (vsub bt al) <> v6zero). { intros C. apply E. pose proof (f_equal v6hd C) as G1. pose proof (f_equal v6tl C) as G2. cbn [v6hd v6tl v6zero] in G1, G2. rewrite G1, G2. unfold dot; cbn; ring. }
    pose proof (HP _ N) as P. unfold energy6 in P. rewrite ZD in P. unfold v6dot, v6zero, dot in P. cbn in P. lra.
Qed.

Lemma body_accelerates : forall b e U parts, sensible_body b -> 0 <= rho_w e -> orthogonal (b_Or b) -> proper_parts parts -> b_type b = BFree ->
  exists a, body_solves b (fst (body_rhs b e U parts)) (snd (body_rhs b e U parts)) a
    /\ forall a', body_solves b (fst (body_rhs b e U parts)) (snd (body_rhs b e U parts)) a' -> a' = a.
Proof.
  intros b e U parts HS Hr HO HP HT. destruct (body_pd b e U parts HS Hr HO HP) as [S P]. unfold body_solves. rewrite HT. apply pd6_solve; assumption.
Qed.

(* ----- drag ----- *)
Lemma diag_quad : forall Q d v, 0 <= vx d -> 0 <= vy d -> 0 <= vz d -> 0 <= dot (mmulv (mmul (mmul Q (mdiag d)) (mtr Q)) v) v.
Proof.
  intros Q d v H1 H2 H3. rewrite !mmulv_mmul, dot_comm, dot_mtr. set (u := mmulv (mtr Q) v). destruct d as [p q r], u as [x y z]. cbn [vx vy vz] in *.
  unfold mmulv, mdiag, dot. cbn [mr0 mr1 mr2 vx vy vz]. pose proof (sq_nonneg p x H1). pose proof (sq_nonneg q y H2). pose proof (sq_nonneg r z H3). lra.
Qed.
Lemma body_drag_dissipates : forall b e U, 0 <= rho_w e -> drag_areas b ->
  v6dot (body_drag b e U) (v6sub (b_v b) (V6 U vzero)) <= 0.
Proof.
  intros b e U Hr (H1 & H2 & H3 & H4 & H5 & H6). unfold body_drag, v6dot, v6scale, v6sub. cbv zeta. cbn [v6hd v6tl].
  set (vh := vsub U (v6hd (b_v b))). set (vt := vscale (-1) (v6tl (b_v b))).
  pose proof (diag_quad (b_Or b) (v6hd (b_CdA b)) vh H1 H2 H3) as D1. pose proof (diag_quad (b_Or b) (v6tl (b_CdA b)) vt H4 H5 H6) as D2.
  assert (K : 0 <= 0.5 * rho_w e) by lra.
  assert (G : forall n x v u, u = vscale (-1) v -> 0 <= n -> 0 <= dot x v -> dot (vscale (0.5 * rho_w e) (vscale n x)) u <= 0).
  { intros n x v u -> Hn Hx. assert (0 <= (0.5 * rho_w e) * (n * dot x v)) by (apply Rmult_le_pos; [exact K | apply Rmult_le_pos; assumption]).
    destruct x, v. unfold dot, vscale in *. cbn in *. lra. }
  assert (U1 : vsub (v6hd (b_v b)) U = vscale (-1) vh) by (unfold vh; generalize (v6hd (b_v b)), U; vring).
  assert (U2 : vsub (v6tl (b_v b)) vzero = vscale (-1) vt) by (unfold vt; generalize (v6tl (b_v b)); vring).
  pose proof (G _ _ vh _ U1 (norm_pos vh) D1). pose proof (G _ _ vt _ U2 (norm_pos vt) D2). lra.
Qed.
Lemma point_drag : forall p e U, 0 <= rho_w e -> 0 <= p_CdA p ->
  dot (drag_law (rho_w e) (p_CdA p) (vsub U (p_rd p))) (vsub (p_rd p) U) <= 0.
Proof.
  intros p e U H1 H2. unfold drag_law. set (v := vsub U (p_rd p)). replace (vsub (p_rd p) U) with (vscale (-1) v) by (unfold v; generalize U, (p_rd p); vring).
  assert (0 <= 1 / 2 * rho_w e * p_CdA p * norm v * dot v v).
  { assert (0 <= 1 / 2) by lra. repeat apply Rmult_le_pos; try assumption; [lra | lra | apply norm_pos | apply dot_pos]. }
  destruct v as [x y z]. unfold dot, vscale in *. cbn in *. lra.
Qed.
(** what a point hands to a body that does not rotate is its force applied at the point *)
Lemma point_wrench : forall p e U rBody w F M, point_rhs p e U = Ok (F, M) ->
  point_share p e U rBody w = Ok (V6 (vsub F (mmulv M (cross w (cross w (vsub (p_r p) rBody))))) (cross (vsub (p_r p) rBody) F), translateMass (vsub (p_r p) rBody) M).
Proof.
  intros p e U rB w F M H. unfold point_share. rewrite H. cbn [obind fst snd]. do 3 f_equal.
  generalize (mmulv M (cross w (cross w (vsub (p_r p) rB)))). destruct F. vring.
Qed.
Lemma rod_wrench : forall D F6 M6n M rRef, (0 < rn D)%nat ->
  fst (rod_share D F6 M6n M rRef vzero) = V6 (v6hd F6) (vadd (v6tl F6) (cross (vsub (rnode D 0) rRef) (v6hd F6))).
Proof.
  intros D F6 M6n M rRef HN. unfold rod_share. cbn [fst]. replace (Nat.eqb (rn D) 0) with false by (symmetry; apply Nat.eqb_neq; lia).
  f_equal. rewrite cent_sum. rewrite (vsum_zero (rn D + 1)).
  - generalize (v6hd F6). vring.
  - intros i _. replace (cross vzero (cross vzero (vsub (rnode D i) rRef))) with vzero by (generalize (vsub (rnode D i) rRef); vring).
    generalize (M i). intros [[? ? ?] [? ? ?] [? ? ?]]. unfold mmulv, vzero, dot. cbn. f_equal; ring.
Qed.

(* ----- examples ----- *)
(** a body of mass 2 with its centre of gravity off the reference point and three different inertias *)
Definition top_body : body := Body BFree 2 0.001 (V3 0 0 (-1)) (V3 1 2 3) (V6 (V3 1 1 1) (V3 1 1 1)) (V6 (V3 1 1 1) (V3 0 0 0)) vzero mid (V6 vzero (V3 1 1 0)) v6zero.
Lemma mid_rotation : rotation mid.
Proof. unfold rotation, orthogonal. split; [split; [rewrite mmul_id_r | rewrite mmul_id_l]; reflexivity|]. unfold mdet, cross, dot, mid. cbn. ring. Qed.
Lemma top_sensible : sensible_body top_body /\ drag_areas top_body.
Proof. unfold sensible_body, drag_areas, top_body. cbn. repeat split; lra. Qed.
Definition vacuum : envc := Envc 0 9.8 0 0 0 0 1.
Lemma top_spins_wrong : cross (v6tl (b_v top_body)) (mmulv (world_inertia top_body) (v6tl (b_v top_body))) <> vzero.
Proof.
  unfold world_inertia, top_body. cbn [b_v v6tl b_Or b_I]. rewrite rot_mulv. intros C. apply (f_equal vz) in C.
  unfold mmulv, mtr, mid, mdiag, cross, dot, vzero in C. cbn in C. lra.
Qed.
Lemma spin_moment : forall r w, cross r (cross w (cross w r)) = vscale (dot w r) (cross r w).
Proof. vring. Qed.
Lemma spinning_body : exists b, sensible_body b /\ rotation (b_Or b) /\ forall U a,
  body_solves b (fst (body_rhs b vacuum U [])) (snd (body_rhs b vacuum U [])) a ->
  spin_rate (world_inertia b) (v6tl (b_v b)) (v6tl a) <> vzero.
Proof.
  exists top_body. split; [exact (proj1 top_sensible)|]. split; [exact mid_rotation|]. intros U a H.
  rewrite (body_spin top_body vacuum U a eq_refl mid_rotation eq_refl H). rewrite spin_moment. intros C. apply top_spins_wrong.
  rewrite <- C at 1. assert (D : dot (v6tl (b_v top_body)) (mmulv (b_Or top_body) (b_rCG top_body)) = 0).
  { unfold top_body. cbn [b_v v6tl b_Or b_rCG]. rewrite mmulv_id. unfold dot. cbn. ring. }
  rewrite D. match goal with |- ?x = vadd ?x (vscale _ (vscale 0 ?y)) => generalize x, y end. vring.
Qed.
Lemma still_body : forall b e U a, rho_w e = 0 -> rotation (b_Or b) -> b_type b = BFree -> v6tl (b_v b) = vzero ->
  body_solves b (fst (body_rhs b e U [])) (snd (body_rhs b e U [])) a ->
  spin_rate (world_inertia b) (v6tl (b_v b)) (v6tl a) = vzero.
Proof.
  intros b e U a H1 H2 H3 H4 H5. rewrite (body_spin b e U a H1 H2 H3 H5), H4. generalize (mmulv (world_inertia b) vzero), (mmulv (b_Or b) (b_rCG b)). vring.
Qed.
Lemma point_handed : forall p e U rBody F M, point_rhs p e U = Ok (F, M) ->
  exists Mb, point_share p e U rBody vzero = Ok (wrench_at (vsub (p_r p) rBody) F, Mb) /\
  (symmetric3 M -> forall t, energy6 Mb t = energy3 M (velocity_at (vsub (p_r p) rBody) t)).
Proof.
  intros p e U rB F M H. eexists. split.
  - rewrite (point_wrench p e U rB vzero F M H). unfold wrench_at.
    assert (Z : vsub F (mmulv M (cross vzero (cross vzero (vsub (p_r p) rB)))) = F).
    { replace (cross vzero (cross vzero (vsub (p_r p) rB))) with vzero by (generalize (vsub (p_r p) rB); vring).
      replace (mmulv M vzero) with vzero by (destruct M as [[? ? ?] [? ? ?] [? ? ?]]; unfold mmulv, vzero, dot; cbn; f_equal; ring). generalize F. clear. vring. }
    rewrite Z. reflexivity.
  - intros S t. apply translate3_energy. exact S.
Qed.
Lemma rod_handed : forall D F6 M6n M rRef t, (0 < rn D)%nat ->
  v6dot (fst (rod_share D F6 M6n M rRef vzero)) t = v6dot F6 (twist_at (vsub (rnode D 0) rRef) t).
Proof.
  intros D F6 M6n M rRef t HN. rewrite rod_wrench by exact HN. unfold v6dot, twist_at, velocity_at. cbn [v6hd v6tl].
  generalize (v6hd F6), (v6tl F6), (v6hd t), (v6tl t), (vsub (rnode D 0) rRef). intros [? ? ?] [? ? ?] [? ? ?] [? ? ?] [? ? ?]. unfold dot, vadd, cross. cbn. ring.
Qed.
Lemma turning_share : exists p e U w F M x, point_rhs p e U = Ok (F, M) /\ point_share p e U vzero w = Ok x /\
  v6tl (fst x) <> cross (p_r p) (v6hd (fst x)).
Proof.
  set (p := Point PFixed (V3 1 0 0) vzero 1 0 vzero 0 0 []).
  destruct (point_net p vacuum vzero (Forall_nil _)) as (F & M & E & E1' & E2' & E3').
  exists p, vacuum, vzero, (V3 1 1 0), F, M. eexists. split; [exact E|]. split; [apply (point_wrench p vacuum vzero vzero (V3 1 1 0) F M E)|].
  cbn [fst v6hd v6tl]. change (p_r p) with (V3 1 0 0).
  assert (EM : M = mid). { apply mulv_energy_ext; [apply E3'; constructor | reflexivity|]. intros u. rewrite E2'. unfold energy3. rewrite mmulv_id. cbn. unfold dot. field. }
  rewrite EM, mmulv_id. intros C. apply (f_equal vz) in C. destruct F as [f1 f2 f3]. unfold cross, vsub, vzero in C. cbn in C. lra.
Qed.
(** nothing in the equations of a point looks at the water level *)
Lemma dry_buoyancy : forall p e U F M, 0 < vz (p_r p) -> p_att p = [] -> p_F p = vzero -> U = p_rd p -> 0 < gr e -> p_M p < rho_w e * p_V p ->
  point_rhs p e U = Ok (F, M) -> 0 < vz F.
Proof.
  intros p e U F M _ HA HF -> Hg HM E. destruct (point_net p e (p_rd p)) as (F' & M' & E' & -> & _ & _); [rewrite HA; constructor|].
  rewrite E' in E. injection E as <- _. rewrite HA. cbn [vtotal fold_right]. unfold point_own. rewrite HF.
  replace (drag_law (rho_w e) (p_CdA p) (vsub (p_rd p) (p_rd p))) with vzero.
  - unfold vadd, vzero. cbn. assert (0 < (rho_w e * p_V p - p_M p) * gr e) by (apply Rmult_lt_0_compat; lra). lra.
  - unfold drag_law. replace (vsub (p_rd p) (p_rd p)) with vzero by (generalize (p_rd p); vring). generalize (1 / 2 * rho_w e * p_CdA p * norm vzero). vring.
Qed.
