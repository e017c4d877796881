(** Proofs about points and bodies *)
From Coq Require Import Reals List Arith Lra Lia ZArith Permutation.
From Verif Require Import MErr MVec MStateOps MMat MInterp MLine MRod MBody SMat SLine SRod SBody PMat PLine PLineB PRod PRodB PRodC.
Import ListNotations.
Open Scope R_scope.

Lemma vtotal_app : forall A (f : A -> v3) l m, vtotal f (l ++ m) = vadd (vtotal f l) (vtotal f m).
Proof. intros A f l m. induction l as [|x l IH]; cbn [vtotal fold_right app]. - symmetry. apply vadd_0_l. - change (vadd (f x) (vtotal f (l ++ m)) = vadd (vadd (f x) (vtotal f l)) (vtotal f m)). rewrite IH, vadd_assoc. reflexivity. Qed.
Lemma vtotal_perm : forall A (f : A -> v3) l m, Permutation l m -> vtotal f l = vtotal f m.
Proof.
  intros A f l m H. induction H as [|x l m H IH|x y l|l m n H1 I1 H2 I2]; cbn [vtotal fold_right].
  - reflexivity.
  - change (vadd (f x) (vtotal f l) = vadd (f x) (vtotal f m)). rewrite IH. reflexivity.
  - change (vadd (f y) (vadd (f x) (vtotal f l)) = vadd (f x) (vadd (f y) (vtotal f l))). generalize (vtotal f l), (f x), (f y). vring.
  - congruence.
Qed.
Lemma vtotal_ext : forall A (f g : A -> v3) l, (forall x, In x l -> f x = g x) -> vtotal f l = vtotal g l.
Proof. intros A f g l H. induction l as [|x l IH]; [reflexivity|]. cbn [vtotal fold_right]. rewrite (H x (or_introl eq_refl)). f_equal. apply IH. intros y Hy. apply H. right. exact Hy. Qed.
Lemma vtotal_add : forall A (f g : A -> v3) l, vtotal (fun x => vadd (f x) (g x)) l = vadd (vtotal f l) (vtotal g l).
Proof. intros A f g l. induction l as [|x l IH]; cbn [vtotal fold_right]. - symmetry. apply vadd_0_l. - change (vadd (vadd (f x) (g x)) (vtotal (fun x => vadd (f x) (g x)) l) = vadd (vadd (f x) (vtotal f l)) (vadd (g x) (vtotal g l))). rewrite IH. generalize (vtotal f l), (vtotal g l), (f x), (g x). vring. Qed.
Lemma vtotal_flat : forall A B (f : B -> v3) (h : A -> list B) l, vtotal f (flat_map h l) = vtotal (fun x => vtotal f (h x)) l.
Proof. intros A B f h l. induction l as [|x l IH]; [reflexivity|]. cbn [flat_map]. rewrite vtotal_app, IH. reflexivity. Qed.

(* ----- points ----- *)
Lemma end_ok : forall a, is_end a -> exists m, getEndStuff (fst a) (snd a) = Ok (EndStuff (end_force a) m (loM (fst a) (end_node a))).
Proof.
  intros [l z] H. unfold is_end in H. cbn [snd fst] in *. unfold getEndStuff, end_force, end_node. cbn [snd fst].
  destruct H as [->| ->]; cbn; eexists; reflexivity.
Qed.
Lemma end_bad : forall a, ~ is_end a -> getEndStuff (fst a) (snd a) = Throw ExInvalidValue.
Proof.
  intros [l z] H. unfold is_end, getEndStuff, ENDPOINT_A, ENDPOINT_B in *. cbn [snd fst] in *.
  destruct (Z.eqb_spec z 1); [exfalso; apply H; right; assumption|]. destruct (Z.eqb_spec z 0); [exfalso; apply H; left; assumption|]. reflexivity.
Qed.
Lemma e3_total : forall l F M, Forall is_end l -> exists F' M', point_lines l F M = Ok (F', M') /\ F' = vadd F (vtotal end_force l) /\
  (forall u, energy3 M' u = energy3 M u + rtotal (end_energy u) l) /\ (symmetric3 M -> Forall (fun a => symmetric3 (loM (fst a) (end_node a))) l -> symmetric3 M').
Proof.
  induction l as [|a l IH]; intros F M H.
  - exists F, M. split; [reflexivity|]. split; [symmetry; apply vadd_0_r|]. split; [intros; cbn; ring|]. auto.
  - inversion H as [|? ? Ha Hl]; subst. destruct (end_ok a Ha) as [m E].
    destruct (IH (vadd F (end_force a)) (madd M (loM (fst a) (end_node a))) Hl) as (F' & M' & E1 & E2 & E3 & E4).
    exists F', M'. split. { destruct a as [ln ep]. cbn [point_lines fst snd] in *. rewrite E. cbn [obind esF esMass]. exact E1. }
    split. { rewrite E2, vadd_assoc. reflexivity. }
    split. { intros u. rewrite E3, e3_add. cbn [rtotal fold_right]. unfold end_energy at 2. fold (rtotal (end_energy u) l). unfold rtotal. ring. }
    intros SM SL. inversion SL; subst. apply E4; [|assumption]. apply sym3_add; assumption.
Qed.
Lemma drag_dir : forall rho C v, vscale (0.5 * rho * dot v v * C) (vnormalized v) = drag_law rho C v.
Proof.
  intros rho C v. unfold vnormalized, drag_law. destruct (Rlt_dec 0 (dot v v)) as [H|H].
  - assert (norm v <> 0). { intros E. pose proof (norm_sq v). rewrite E in H0. lra. }
    rewrite <- (norm_sq v). replace (0.5) with (/ 2) by lra.
    transitivity (vscale (/ 2 * rho * (norm v * norm v) * C * / norm v) v); [generalize (/ 2 * rho * (norm v * norm v) * C), (/ norm v); vring|].
    f_equal. field. assumption.
  - assert (dot v v = 0) by (pose proof (dot_pos v); lra). rewrite (dot_zero v H0). vring.
Qed.
Lemma point_net : forall p e U, Forall is_end (p_att p) -> exists F M, point_rhs p e U = Ok (F, M) /\
  F = vadd (point_own p e U) (vtotal end_force (p_att p)) /\
  (forall u, energy3 M u = (p_M p + rho_w e * p_V p * p_Ca p) * dot u u / 2 + rtotal (end_energy u) (p_att p)) /\
  (Forall (fun a => symmetric3 (loM (fst a) (end_node a))) (p_att p) -> symmetric3 M).
Proof.
  intros p e U H.
  destruct (e3_total (p_att p) (vadd (p_F p) (V3 0 0 (gr e * (p_V p * rho_w e - p_M p)))) (mscale (p_M p) mid) H) as (F & M & E1 & E2 & E3 & E4).
  unfold point_rhs. rewrite E1. cbn [obind fst snd].
  do 2 eexists. split; [reflexivity|]. split; [|split].
  - rewrite drag_dir, E2. unfold point_own. replace (gr e * (p_V p * rho_w e - p_M p)) with (rho_w e * p_V p * gr e - p_M p * gr e) by ring.
    generalize (drag_law (rho_w e) (p_CdA p) (vsub U (p_rd p))), (vtotal end_force (p_att p)), (p_F p). vring.
  - intros u. rewrite e3_add, E3, !e3_mid. field.
  - intros S. apply sym3_add; [apply E4; [apply mscale_sym | exact S] | apply mscale_sym].
Qed.
Lemma mulv_energy_ext : forall A B, symmetric3 A -> symmetric3 B -> (forall u, energy3 A u = energy3 B u) -> A = B.
Proof.
  intros A B SA SB H.
  pose proof (H (V3 1 0 0)) as H1. pose proof (H (V3 0 1 0)) as H2. pose proof (H (V3 0 0 1)) as H3.
  pose proof (H (V3 1 1 0)) as H4. pose proof (H (V3 1 0 1)) as H5. pose proof (H (V3 0 1 1)) as H6. clear H.
  destruct A as [[a b c] [d e g] [h i j]], B as [[a' b' c'] [d' e' g'] [h' i' j']].
  unfold symmetric3, mtr in SA, SB. cbn in SA, SB. injection SA as; injection SB as; subst.
  unfold energy3, mmulv, dot in *. cbn [mr0 mr1 mr2 vx vy vz] in *. split_mat; cbn [mr0 mr1 mr2 vx vy vz]; lra.
Qed.
Lemma point_order : forall p q e U, Permutation (p_att p) (p_att q) -> Forall is_end (p_att p) ->
  p_F p = p_F q -> p_V p = p_V q -> p_M p = p_M q -> p_Ca p = p_Ca q -> p_CdA p = p_CdA q -> p_rd p = p_rd q ->
  Forall (fun a => symmetric3 (loM (fst a) (end_node a))) (p_att p) -> point_rhs p e U = point_rhs q e U.
Proof.
  intros p q e U HP HE E1 E2 E3 E4 E5 E6 HS.
  assert (HE' : Forall is_end (p_att q)). { rewrite Forall_forall in *. intros x Hx. apply HE. apply (Permutation_in _ (Permutation_sym HP)). exact Hx. }
  assert (HS' : Forall (fun a => symmetric3 (loM (fst a) (end_node a))) (p_att q)). { rewrite Forall_forall in *. intros x Hx. apply HS. apply (Permutation_in _ (Permutation_sym HP)). exact Hx. }
  destruct (point_net p e U HE) as (F & M & A1 & A2 & A3 & A4). destruct (point_net q e U HE') as (F' & M' & B1 & B2 & B3 & B4).
  rewrite A1, B1. f_equal. f_equal.
  - rewrite A2, B2. rewrite (vtotal_perm _ _ _ _ HP). unfold point_own. congruence.
  - apply mulv_energy_ext; auto. intros u. rewrite A3, B3, E2, E3, E4. f_equal.
    clear - HP. unfold rtotal. induction HP; cbn [fold_right]; try lra.
Qed.
Lemma point_bad : forall p e U, ~ Forall is_end (p_att p) -> point_rhs p e U = Throw ExInvalidValue.
Proof.
  intros p e U H. unfold point_rhs.
  assert (G : forall l F M, ~ Forall is_end l -> point_lines l F M = Throw ExInvalidValue).
  { induction l as [|[ln ep] l IH]; intros F M HN; [exfalso; apply HN; constructor|]. cbn [point_lines].
    destruct (Z.eq_dec ep 0) as [E|E]; [|destruct (Z.eq_dec ep 1) as [E'|E']].
    - destruct (end_ok (ln, ep) (or_introl E)) as [m X]. cbn [fst snd] in X. rewrite X. cbn [obind]. apply IH. intros C. apply HN. constructor; [left; exact E | exact C].
    - destruct (end_ok (ln, ep) (or_intror E')) as [m X]. cbn [fst snd] in X. rewrite X. cbn [obind]. apply IH. intros C. apply HN. constructor; [right; exact E' | exact C].
    - assert (B : ~ is_end (ln, ep)) by (intros [C|C]; cbn in C; contradiction). pose proof (end_bad _ B) as X. cbn [fst snd] in X. rewrite X. reflexivity. }
  rewrite G by exact H. reflexivity.
Qed.
(** a positive definite matrix is invertible *)
Lemma pd_det : forall M, symmetric3 M -> (forall u, u <> vzero -> 0 < energy3 M u) -> mdet M <> 0.
Proof.
  intros M HS HP HD. destruct M as [[a b c] [d e f] [h i j]]. unfold symmetric3, mtr in HS. cbn in HS. injection HS as. subst.
  assert (N : forall x y z, x <> 0 \/ y <> 0 \/ z <> 0 -> V3 x y z <> vzero) by (intros x y z H E; injection E; intros; tauto).
  unfold mdet, cross, dot in HD. cbn [mr0 mr1 mr2 vx vy vz] in HD.
  pose proof (HP (V3 1 0 0) (N _ _ _ (or_introl R1_neq_R0))) as P1.
  unfold energy3, mmulv, dot in P1. cbn [mr0 mr1 mr2 vx vy vz] in P1.
  assert (A0 : 0 < a) by lra.
  assert (P2 := HP (V3 (- b) a 0) (N _ _ _ (or_intror (or_introl (Rgt_not_eq _ _ A0))))).
  unfold energy3, mmulv, dot in P2. cbn [mr0 mr1 mr2 vx vy vz] in P2.
  assert (D2 : 0 < a * e - b * b). { apply Rmult_lt_reg_l with a; [exact A0|]. lra. }
  assert (P3 := HP (V3 (b * f - c * e) (c * b - a * f) (a * e - b * b)) (N _ _ _ (or_intror (or_intror (Rgt_not_eq _ _ D2))))).
  unfold energy3, mmulv, dot in P3. cbn [mr0 mr1 mr2 vx vy vz] in P3.
  assert (E : (b * f - c * e) * (a * (b * f - c * e) + b * (c * b - a * f) + c * (a * e - b * b)) +
       (c * b - a * f) * (b * (b * f - c * e) + e * (c * b - a * f) + f * (a * e - b * b)) +
       (a * e - b * b) * (c * (b * f - c * e) + f * (c * b - a * f) + j * (a * e - b * b))
       = (a * e - b * b) * (a * (e * j - f * f) + b * (f * c - b * j) + c * (b * f - e * c))) by ring.
  rewrite E, HD in P3. lra.
Qed.
Lemma rtotal_nonneg : forall A (f : A -> R) l, (forall x, In x l -> 0 <= f x) -> 0 <= rtotal f l.
Proof. intros A f l H. induction l as [|x l IH]; cbn [rtotal fold_right]; [lra|]. pose proof (H x (or_introl eq_refl)). assert (0 <= rtotal f l) by (apply IH; intros y Hy; apply H; right; exact Hy). unfold rtotal in *. lra. Qed.
Lemma dot_nonzero : forall u, u <> vzero -> 0 < dot u u.
Proof. intros u H. destruct (Rtotal_order (dot u u) 0) as [C|[C|C]]; [pose proof (dot_pos u); lra | exfalso; apply H; apply dot_zero; exact C | exact C]. Qed.
Lemma point_newton : forall p e U, p_type p = PFree -> Forall is_end (p_att p) -> 0 < p_M p + rho_w e * p_V p * p_Ca p ->
  Forall (fun a => symmetric3 (loM (fst a) (end_node a)) /\ forall u, 0 <= end_energy u a) (p_att p) ->
  exists F M acc, point_rhs p e U = Ok (F, M) /\ point_deriv p e U = Ok (p_rd p, acc) /\ mmulv M acc = F /\ forall b, mmulv M b = F -> b = acc.
Proof.
  intros p e U HT HE HM HL. destruct (point_net p e U HE) as (F & M & A1 & A2 & A3 & A4).
  assert (SM : symmetric3 M). { apply A4. rewrite Forall_forall in *. intros x Hx. apply (HL x Hx). }
  assert (PD : forall u, u <> vzero -> 0 < energy3 M u).
  { intros u Hu. rewrite A3. pose proof (dot_nonzero u Hu). assert (0 <= rtotal (end_energy u) (p_att p)). { apply rtotal_nonneg. intros x Hx. rewrite Forall_forall in HL. apply (HL x Hx). }
    assert (0 < (p_M p + rho_w e * p_V p * p_Ca p) * dot u u) by (apply Rmult_lt_0_compat; assumption). lra. }
  exists F, M, (mmulv (minv M) F). split; [exact A1|]. split. { unfold point_deriv. rewrite HT, A1. reflexivity. }
  assert (E : mmulv M (mmulv (minv M) F) = F) by (apply minv_right, pd_det; assumption).
  split; [exact E|]. intros b Hb. set (acc := mmulv (minv M) F) in *.
  assert (Z : mmulv M (vsub b acc) = vzero). { transitivity (vsub (mmulv M b) (mmulv M acc)); [unfold mmulv, vsub, dot; cbn; f_equal; ring|]. rewrite Hb, E. generalize F. vring. }
  destruct (Req_dec (dot (vsub b acc) (vsub b acc)) 0) as [D|D].
  - pose proof (dot_zero _ D) as Q. destruct b, acc. unfold vsub, vzero in Q. cbn in Q. injection Q; intros. f_equal; lra.
  - exfalso. assert (vsub b acc <> vzero) by (intros C; apply D; rewrite C; unfold dot; cbn; ring). pose proof (PD _ H) as P. unfold energy3 in P. rewrite Z in P. unfold dot in P. cbn in P. lra.
Qed.

(* ----- a system of lines and points ----- *)
Lemma line_split : forall e s, computed e s -> vadd (vadd (sl_F s 0%nat) (sl_F s (lN (sl_line s)))) (between s) = outside e s.
Proof.
  intros e s [HN HF]. unfold outside. rewrite <- (total_force _ _ _ _ HN HF). unfold between.
  destruct (lN (sl_line s)) as [|n]; [lia|]. replace (S n - 1)%nat with n by lia. replace (S n + 1)%nat with (S (S n)) by lia.
  assert (G : forall m, vsum (S m) (sl_F s) = vadd (sl_F s 0%nat) (vsum m (fun i => sl_F s (S i)))).
  { induction m as [|m IH]; [cbn [vsum]; generalize (sl_F s 0%nat); vring|]. cbn [vsum] in *. rewrite IH. generalize (sl_F s 0%nat), (sl_F s (S m)), (vsum m (fun i => sl_F s (S i))). vring. }
  cbn [vsum] in *. rewrite G. generalize (sl_F s 0%nat), (sl_F s (S n)), (vsum n (fun i => sl_F s (S i))). vring.
Qed.
Lemma system_force : forall e ls (ps : list (point * v3)) (net : point * v3 -> v3),
  Forall (computed e) ls ->
  Permutation (flat_map (fun x => p_att (fst x)) ps) (flat_map both_ends (map (sl_out e) ls)) ->
  (forall x, In x ps -> exists M, point_rhs (fst x) e (snd x) = Ok (net x, M)) ->
  vadd (vtotal net ps) (vtotal between ls) = vadd (vtotal (fun x => point_own (fst x) e (snd x)) ps) (vtotal (outside e) ls).
Proof.
  intros e ls ps net HC HP HN.
  assert (HE : forall x, In x ps -> Forall is_end (p_att (fst x))).
  { intros x Hx. apply Forall_forall. intros a Ha.
    assert (I : In a (flat_map both_ends (map (sl_out e) ls))). { apply (Permutation_in _ HP). apply in_flat_map. exists x. auto. }
    apply in_flat_map in I. destruct I as (l & _ & [<-|[<-|[]]]); [left | right]; reflexivity. }
  rewrite (vtotal_ext _ net (fun x => vadd (point_own (fst x) e (snd x)) (vtotal end_force (p_att (fst x))))).
  2:{ intros x Hx. destruct (HN x Hx) as [M E]. destruct (point_net (fst x) e (snd x) (HE x Hx)) as (F & M' & A1 & A2 & _). rewrite E in A1. injection A1 as <- <-. exact A2. }
  rewrite vtotal_add. rewrite <- (vtotal_flat _ _ end_force (fun x => p_att (fst x))), (vtotal_perm _ _ _ _ HP), vtotal_flat.
  assert (G : vadd (vtotal (fun x => vtotal end_force (both_ends x)) (map (sl_out e) ls)) (vtotal between ls) = vtotal (outside e) ls).
  { clear HP HN HE. induction HC as [|s ls Hs Hl IH]; [cbn; vring|].
    change (vadd (vadd (vadd (sl_F s 0%nat) (vadd (sl_F s (lN (sl_line s))) vzero)) (vtotal (fun x => vtotal end_force (both_ends x)) (map (sl_out e) ls)))
      (vadd (between s) (vtotal between ls)) = vadd (outside e s) (vtotal (outside e) ls)).
    rewrite <- IH, <- (line_split e s Hs).
    generalize (vtotal (fun x => vtotal end_force (both_ends x)) (map (sl_out e) ls)), (vtotal between ls), (sl_F s 0%nat), (sl_F s (lN (sl_line s))), (between s). vring. }
  rewrite vadd_assoc, G. reflexivity.
Qed.
