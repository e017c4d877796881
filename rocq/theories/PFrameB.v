(** Points, rods and bodies in other coordinates. *)
From Coq Require Import Reals List Arith ZArith Bool Lra Lia Psatz.
From Verif Require Import MErr MVec MStateOps MMat MInterp MLine MRod MBody SMat SLine SRod SFrame PMat PLine PLineB PRod PRodC PFrame.
Import ListNotations.
Open Scope R_scope.

(** linear maps *)
Lemma mul_add A B v : mmulv (madd A B) v = vadd (mmulv A v) (mmulv B v). Proof. unfold mmulv, madd, dot, vadd; cbn; f_equal; ring. Qed.
Lemma mul_radd A u v : mmulv A (vadd u v) = vadd (mmulv A u) (mmulv A v). Proof. unfold mmulv, dot, vadd; cbn; f_equal; ring. Qed.
Lemma mul_scale k A v : mmulv (mscale k A) v = vscale k (mmulv A v). Proof. unfold mmulv, mscale, dot, vscale; cbn; f_equal; ring. Qed.
Lemma mul_rscale k A v : mmulv A (vscale k v) = vscale k (mmulv A v). Proof. unfold mmulv, dot, vscale; cbn; f_equal; ring. Qed.
Lemma mul_zero v : mmulv mzero v = vzero. Proof. unfold mmulv, mzero, dot, vzero; cbn; f_equal; ring. Qed.
Lemma mul_rzero A : mmulv A vzero = vzero. Proof. unfold mmulv, dot, vzero; cbn; f_equal; ring. Qed.
Lemma mul_trH r v : mmulv (mtr (getH r)) v = cross r v. Proof. unfold mmulv, mtr, getH, dot, cross; cbn; f_equal; ring. Qed.
Lemma dot_ext a b : (forall w, dot a w = dot b w) -> a = b.
Proof. intro H. pose proof (H (V3 1 0 0)). pose proof (H (V3 0 1 0)). pose proof (H (V3 0 0 1)). unfold dot in *; cbn in *. apply v3eq; lra. Qed.
Lemma v6eq a b : v6hd a = v6hd b -> v6tl a = v6tl b -> a = b. Proof. destruct a, b; cbn; congruence. Qed.

Section G.
Variable g : plane.
Hypothesis HG : isometry g.
Definition unturn (v : v3) : v3 := V3 (g_c g * vx v + g_s g * vy v) (g_d g * (g_c g * vy v - g_s g * vx v)) (vz v).
Lemma turn_unturn v : turn g (unturn v) = v.
Proof.
  pose proof (cs1 g HG) as C. pose proof (dd1 g HG) as D. unfold turn, unturn; destruct v as [x y z]; cbn. f_equal.
  - replace (g_c g * (g_c g * x + g_s g * y) - g_d g * g_s g * (g_d g * (g_c g * y - g_s g * x))) with (g_c g * (g_c g * x + g_s g * y) - (g_d g * g_d g) * g_s g * (g_c g * y - g_s g * x)) by ring. rewrite D. replace x with ((g_c g * g_c g + g_s g * g_s g) * x) at 3 by (rewrite C; ring). ring.
  - replace (g_s g * (g_c g * x + g_s g * y) + g_d g * g_c g * (g_d g * (g_c g * y - g_s g * x))) with (g_s g * (g_c g * x + g_s g * y) + (g_d g * g_d g) * g_c g * (g_c g * y - g_s g * x)) by ring. rewrite D. replace y with ((g_c g * g_c g + g_s g * g_s g) * y) at 3 by (rewrite C; ring). ring.
Qed.
Lemma turn_inj a b : turn g a = turn g b -> a = b.
Proof. intro H. apply dot_ext. intro w. rewrite <- (turn_dot g HG a), <- (turn_dot g HG b). now rewrite H. Qed.
Definition maps (P Q : v3 -> v3) (m m' : m3) : Prop := forall v, mmulv m' (P v) = Q (mmulv m v).
Notation TT := (maps (turn g) (turn g)). Notation ST := (maps (spin g) (turn g)). Notation TS := (maps (turn g) (spin g)). Notation SS := (maps (spin g) (spin g)).
Lemma tt_ss m m' : TT m m' -> SS m m'. Proof. intros H v. unfold spin. now rewrite mul_rscale, H. Qed.
Lemma ss_tt m m' : SS m m' -> TT m m'.
Proof. intros H v. pose proof (H v) as E. unfold spin in E. rewrite mul_rscale in E. apply (f_equal (vscale (g_d g))) in E. now rewrite !scale_scale, !(dd1 g HG), !scale_one in E. Qed.
Lemma st_ts_like m m' : ST m m' -> TS m m'.
Proof. intros H v. pose proof (H v) as E. unfold spin in *. rewrite mul_rscale in E. apply (f_equal (vscale (g_d g))) in E. now rewrite !scale_scale, !(dd1 g HG), !scale_one in E. Qed.
Lemma ts_st_like m m' : TS m m' -> ST m m'.
Proof. intros H v. unfold spin in *. rewrite mul_rscale, H, scale_scale, (dd1 g HG). apply scale_one. Qed.
Lemma tr_tt m m' : TT m m' -> TT (mtr m) (mtr m').
Proof.
  intros H v. apply dot_ext. intro w. rewrite <- (turn_unturn w). rewrite (turn_dot g HG), <- !dot_mtr, H. now rewrite (turn_dot g HG).
Qed.
Lemma spin_unspin w : spin g (spin g w) = turn g (turn g w).
Proof. unfold spin. now rewrite turn_scale, scale_scale, (dd1 g HG), scale_one. Qed.
Lemma spin_dot_l a b : dot (spin g a) (turn g b) = g_d g * dot a b.
Proof. unfold spin. assert (E : forall k u v, dot (vscale k u) v = k * dot u v) by (intros; unfold dot, vscale; cbn; ring). now rewrite E, (turn_dot g HG). Qed.
Lemma tr_st m m' : ST m m' -> TS (mtr m) (mtr m').
Proof.
  intros H v. apply dot_ext. intro w. rewrite <- (turn_unturn w). rewrite <- dot_mtr, (st_ts_like _ _ H), dot_comm, !spin_dot_l, dot_comm, dot_mtr. reflexivity.
Qed.
Lemma tr_ts m m' : TS m m' -> ST (mtr m) (mtr m').
Proof. intro H. apply ts_st_like. apply tr_st. now apply ts_st_like. Qed.
Lemma maps_add P Q m m' n n' : (forall a b, Q (vadd a b) = vadd (Q a) (Q b)) -> maps P Q m m' -> maps P Q n n' -> maps P Q (madd m n) (madd m' n').
Proof. intros HQ A B v. now rewrite !mul_add, A, B, HQ. Qed.
Lemma maps_mul P Q S m m' n n' : maps Q S m m' -> maps P Q n n' -> maps P S (mmul m n) (mmul m' n').
Proof. intros A B v. now rewrite !mmulv_mmul, B, A. Qed.
Lemma H_st r : ST (getH r) (getH (turn g r)). Proof. intro v. rewrite !getH_cross. apply (spin_turn g HG). Qed.
Lemma H_ts r : TS (getH r) (getH (turn g r)). Proof. intro v. rewrite !getH_cross. apply (turn_cross g HG). Qed.
Lemma tadd a b : turn g (vadd a b) = vadd (turn g a) (turn g b). Proof. apply turn_add. Qed.
Lemma sadd a b : spin g (vadd a b) = vadd (spin g a) (spin g b). Proof. apply spin_add. Qed.

Definition blocks (m m' : m6) : Prop := TT (m6tl m) (m6tl m') /\ ST (m6tr m) (m6tr m') /\ TS (m6bl m) (m6bl m') /\ SS (m6br m) (m6br m').
Lemma blocks_6 m m' : blocks m m' <-> moved_matrix6 g m m'.
Proof.
  split.
  - intros (A & B & C & D) v. unfold m6mulv, turn6. cbn [v6hd v6tl]. now rewrite A, B, C, D, tadd, sadd.
  - intro H. pose proof (turn_zero g) as TZ. pose proof (spin_zero g) as SZ.
    assert (HA : forall v, mmulv (m6tl m') (turn g v) = turn g (mmulv (m6tl m) v) /\ mmulv (m6bl m') (turn g v) = spin g (mmulv (m6bl m) v)).
    { intro v. specialize (H (V6 v vzero)). unfold m6mulv, turn6 in H. cbn [v6hd v6tl] in H. rewrite SZ, !mul_rzero, !vadd_0_r in H. injection H as H1 H2. split; apply v3eq; cbn; congruence. }
    assert (HB : forall v, mmulv (m6tr m') (spin g v) = turn g (mmulv (m6tr m) v) /\ mmulv (m6br m') (spin g v) = spin g (mmulv (m6br m) v)).
    { intro v. specialize (H (V6 vzero v)). unfold m6mulv, turn6 in H. cbn [v6hd v6tl] in H. rewrite TZ, !mul_rzero, !vadd_0_l in H. injection H as H1 H2. split; apply v3eq; cbn; congruence. }
    repeat split; intro v; first [apply HA | apply HB].
Qed.
Lemma blocks_add a a' b b' : blocks a a' -> blocks b b' -> blocks (m6add a b) (m6add a' b').
Proof. intros (A & B & C & D) (A' & B' & C' & D'). repeat split; cbn [m6add m6tl m6tr m6bl m6br]; apply maps_add; auto using tadd, sadd. Qed.
Lemma blocks_zero : blocks (M6 mzero mzero mzero mzero) (M6 mzero mzero mzero mzero).
Proof. repeat split; intro v; cbn; rewrite !mul_zero; symmetry; first [apply turn_zero|apply spin_zero]. Qed.
Lemma blocks_translate r m m' : TT m m' -> blocks (translateMass r m) (translateMass (turn g r) m').
Proof.
  intro H. repeat split; unfold translateMass; cbn [m6tl m6tr m6bl m6br].
  - exact H.
  - apply (maps_mul _ (turn g)); [exact H|apply H_st].
  - apply tr_st. apply (maps_mul _ (turn g)); [exact H|apply H_st].
  - apply (maps_mul _ (turn g)); [|apply tr_ts, H_ts]. apply (maps_mul _ (turn g)); [apply H_ts|exact H].
Qed.
Lemma blocks_translate6 r m m' : blocks m m' -> blocks (translateMass6 r m) (translateMass6 (turn g r) m').
Proof.
  intros (A & B & C & D). repeat split; unfold translateMass6; cbn [m6tl m6tr m6bl m6br].
  - exact A.
  - apply maps_add; [apply tadd| |exact B]. apply (maps_mul _ (turn g)); [exact A|apply H_st].
  - apply tr_st. apply maps_add; [apply tadd| |exact B]. apply (maps_mul _ (turn g)); [exact A|apply H_st].
  - apply maps_add; [apply sadd| |exact D]. apply maps_add; [apply sadd| |]. apply maps_add; [apply sadd| |].
    + apply (maps_mul _ (turn g)); [|apply tr_ts, H_ts]. apply (maps_mul _ (turn g)); [apply H_ts|exact A].
    + apply (maps_mul _ (turn g)); [apply tr_st, B|apply H_st].
    + apply (maps_mul _ (turn g)); [apply tr_st, H_st|exact B].
Qed.
(** solutions of equations *)
Lemma det_moved m m' : TT m m' -> mdet m' = mdet m.
Proof.
  assert (T : forall n a b c, dot (mmulv n a) (cross (mmulv n b) (mmulv n c)) = mdet n * dot a (cross b c)) by (intros n [] [] []; destruct n as [[] [] []]; unfold mdet, mmulv, dot, cross; cbn; ring).
  intro H. pose proof (T m' (turn g (V3 1 0 0)) (turn g (V3 0 1 0)) (turn g (V3 0 0 1))) as E. rewrite !H in E. rewrite !(turn_cross g HG) in E.
  rewrite (dot_comm (turn g (mmulv _ _))), (dot_comm (turn g (V3 1 0 0))), !spin_dot_l, (dot_comm (cross (mmulv m _) _)), T in E. rewrite (dot_comm (cross (V3 0 1 0) _)) in E.
  assert (D1 : dot (V3 1 0 0) (cross (V3 0 1 0) (V3 0 0 1)) = 1) by (unfold dot, cross; cbn; ring). rewrite D1 in E. pose proof (dd1 g HG). apply (f_equal (Rmult (g_d g))) in E. nra.
Qed.
Lemma adj_left' m : mmul (madj m) m = mscale (mdet m) mid.
Proof. destruct m as [[] [] []]. unfold mmul, madj, mdet, mtr, mmulv, mscale, mid, vscale, dot, cross; cbn. f_equal; f_equal; ring. Qed.
Lemma minv_left m v : mdet m <> 0 -> mmulv (minv m) (mmulv m v) = v.
Proof. intro H. unfold minv. rewrite mul_scale, <- mmulv_mmul, adj_left', mul_scale, scale_scale, mmulv_id, Rinv_l by assumption. apply scale_one. Qed.
Lemma minv_moved m m' v : TT m m' -> mdet m <> 0 -> mmulv (minv m') (turn g v) = turn g (mmulv (minv m) v).
Proof. intros H D. rewrite <- (minv_right m v D) at 1. rewrite <- H. apply minv_left. now rewrite (det_moved _ _ H). Qed.

(** points *)
Lemma end_moved l l' ep : moved_out g l l' -> match getEndStuff l ep, getEndStuff l' ep with Ok s, Ok s' => moved_end g s s' | Throw x, Throw y => x = y | _, _ => False end.
Proof.
  intros (N & F & A & B). unfold getEndStuff. rewrite N. destruct (Z.eqb ep ENDPOINT_B); [|destruct (Z.eqb ep ENDPOINT_A); [|reflexivity]].
  - destruct (F (loN l) (Nat.le_refl _)) as (F1 & F2). repeat split; assumption.
  - destruct (F 0%nat ltac:(lia)) as (F1 & F2). repeat split; assumption.
Qed.
Definition pair_moved (x x' : v3 * m3) : Prop := fst x' = turn g (fst x) /\ moved_matrix g (snd x) (snd x').
Definition omoved {A} (R : A -> A -> Prop) (o o' : outcome A) : Prop := match o, o' with Ok x, Ok x' => R x x' | Throw a, Throw b => a = b | UB, UB => True | Diverges, Diverges => True | _, _ => False end.
Lemma lines_moved l l' : Forall2 (fun x x' => moved_out g (fst x) (fst x') /\ snd x' = snd x) l l' -> forall F M M', moved_matrix g M M' -> omoved pair_moved (point_lines l F M) (point_lines l' (turn g F) M').
Proof.
  induction 1 as [|[ln ep] [ln' ep'] t t' [H E] HT IH]; intros F M M' HM; cbn [point_lines]; [now split|]. cbn [fst snd] in *. subst ep'. pose proof (end_moved ln ln' ep H) as HE.
  destruct (getEndStuff ln ep), (getEndStuff ln' ep); try contradiction; cbn [obind]; [|exact HE]. destruct HE as (E1 & _ & E3). rewrite E1, <- tadd. apply IH. now apply (mm_add g).
Qed.
Lemma bnorm_moved a : MBody.vnormalized (turn g a) = turn g (MBody.vnormalized a). Proof. exact (vnorm_moved g HG a). Qed.
Lemma point_moved p p' e U : moved_point g p p' -> omoved pair_moved (point_rhs p e U) (point_rhs p' e (turn g U)).
Proof.
  intros (T & R & V & M & Vo & F & C & Ca & HA). unfold point_rhs. rewrite M, Vo, V, C, Ca, F.
  pose proof (lines_moved _ _ HA (vadd (p_F p) (V3 0 0 (gr e * (p_V p * rho_w e - p_M p)))) (mscale (p_M p) mid) (mscale (p_M p) mid) (mm_scale g _ _ _ (mm_id g))) as H.
  rewrite tadd, turn_up in H. destruct (point_lines (p_att p) _ _) as [x|x| |], (point_lines (p_att p') _ _) as [y|y| |]; try contradiction; cbn [obind]; try exact H. destruct H as (H1 & H2). split; cbn [fst snd].
  - rewrite H1. cbv zeta. now rewrite <- turn_sub, (turn_dot g HG), bnorm_moved, <- turn_scale, tadd.
  - apply (mm_add g); [exact H2|]. apply mm_scale, mm_id.
Qed.
Lemma point_deriv_moved p p' e U x : moved_point g p p' -> point_deriv p e U = Ok x -> (forall F M, point_rhs p e U = Ok (F, M) -> mdet M <> 0) -> point_deriv p' e (turn g U) = Ok (turn g (fst x), turn g (snd x)).
Proof.
  intros HP HX HD. pose proof (point_moved p p' e U HP) as H. destruct HP as (T & _ & V & _). unfold point_deriv in *. rewrite T, V. destruct (p_type p); try discriminate.
  destruct (point_rhs p e U) as [[F M]|?| |], (point_rhs p' e (turn g U)) as [[F' M']|?| |]; try contradiction; try discriminate; cbn [obind fst snd] in *. injection HX as <-. destruct H as (H1 & H2). cbn [fst snd] in *. rewrite H1. rewrite (minv_moved M M' F H2 (HD _ _ eq_refl)). reflexivity.
Qed.
Definition share_moved (x x' : v6 * m6) : Prop := fst x' = turn6 g (fst x) /\ moved_matrix6 g (snd x) (snd x').
Lemma point_share_moved p p' e U rB w : moved_point g p p' -> omoved share_moved (point_share p e U rB w) (point_share p' e (turn g U) (place g rB) (spin g w)).
Proof.
  intros HP. pose proof (point_moved p p' e U HP) as H. destruct HP as (_ & R & _). unfold point_share. rewrite R.
  destruct (point_rhs p e U) as [[F M]|?| |], (point_rhs p' e (turn g U)) as [[F' M']|?| |]; try contradiction; cbn [obind]; try exact H. destruct H as (H1 & H2). cbn [fst snd] in *. rewrite H1. split; cbn [fst snd].
  - cbv zeta. rewrite place_sub. apply v6eq; cbn [v6hd v6tl turn6].
    + now rewrite !(spin_turn g HG), H2, tadd, turn_scale.
    + apply (turn_cross g HG).
  - cbv zeta. rewrite place_sub. apply blocks_6. now apply blocks_translate.
Qed.
End G.
