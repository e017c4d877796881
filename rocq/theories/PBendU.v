(** Proofs about bending forces while the segments stretch. *)
From Coq Require Import Reals List Lra Lia Psatz Arith.
From Verif Require Import MErr MVec MStateOps MMat MInterp MLine SMat SLine SLineU SBend SBendU PMat PLine PLineB PLineE PLineU PBend.
Import ListNotations.
Open Scope R_scope.

Definition angled : line :=
  Line 2 0.1 (PI / 4 * 0.1 * 0.1) 1000 1000 50 10 1 0 1.2 0.1 [] [] [] [] [] [] false (fun _ => 0)
    (fun _ => vzero) (fun _ => vzero) (fun _ => 1) (fun _ => 1) false false (V3 1 0 0) (V3 1 0 0).
(* two segments: along x for 2, then along (-s, 1, 0) for y times its length *)
Definition shape (s y : R) (i : nat) : v3 := match i with O => V3 0 0 0 | S O => V3 2 0 0 | _ => V3 (2 - s * y) y 0 end.
Definition going (a b : R) (i : nat) : v3 := match i with S (S _) => V3 a b 0 | _ => vzero end.
Lemma tol_tiny : tol < / 10.
Proof. unfold tol. assert (1000 < 2 ^ 52) by (apply (Rlt_trans _ (2 ^ 10)); [lra|apply Rlt_pow; [lra|lia]]). apply (Rmult_lt_reg_r (2 ^ 52)); [lra|]. unfold Rdiv. rewrite Rmult_assoc, Rinv_l by lra. lra. Qed.
Lemma eps_tiny : eps64 < / 10.
Proof. unfold eps64. assert (1000 < 2 ^ 52) by (apply (Rlt_trans _ (2 ^ 10)); [lra|apply Rlt_pow; [lra|lia]]). apply Rinv_lt_contravar; lra. Qed.
Lemma seg0 : forall s y rd, norm (seg (in_state angled (shape s y) rd) 0) = 2.
Proof. intros. unfold norm, seg, dot, vsub; cbn. replace ((2 - 0) * (2 - 0) + (0 - 0) * (0 - 0) + (0 - 0) * (0 - 0)) with (2 * 2) by ring. apply sqrt_square; lra. Qed.
Lemma seg1 : forall s y rd, 0 < y -> norm (seg (in_state angled (shape s y) rd) 1) = y * sqrt (1 + s * s).
Proof.
  intros. unfold norm, seg, dot, vsub; cbn. replace ((2 - s * y - 2) * (2 - s * y - 2) + (y - 0) * (y - 0) + (0 - 0) * (0 - 0)) with (y * y * (1 + s * s)) by ring.
  rewrite sqrt_mult by nra. rewrite sqrt_square by lra. reflexivity.
Qed.
Lemma root_bounds : forall s, Rabs s < / 2 -> 1 <= sqrt (1 + s * s) < 1.2.
Proof.
  intros s H. apply Rabs_def2 in H. split.
  - rewrite <- sqrt_1 at 1. apply sqrt_le_1; nra.
  - rewrite <- (sqrt_square 1.2) by lra. apply sqrt_lt_1; nra.
Qed.
Lemma cos1 : forall s y rd, 0 < y -> Rabs s < / 2 -> cos_between (seg (in_state angled (shape s y) rd) 0) (seg (in_state angled (shape s y) rd) 1) = - s / sqrt (1 + s * s).
Proof.
  intros s y rd Hy Hs. pose proof (root_bounds s Hs). unfold cos_between. rewrite seg0, seg1 by exact Hy. unfold seg, dot, vsub. cbn. field. split; lra.
Qed.
Lemma shape_long : forall s y rd, 1 <= y <= 2 -> Rabs s < / 2 -> long (in_state angled (shape s y) rd).
Proof.
  intros s y rd Hy Hs i Hi. cbn [lN in_state angled] in Hi. pose proof tol_tiny. pose proof (root_bounds s Hs).
  fold (seg (in_state angled (shape s y) rd) i). destruct i as [|[|i]]; [rewrite seg0; lra|rewrite seg1 by lra; nra|lia].
Qed.
Lemma shape_bent : forall s y rd i, 1 <= y <= 2 -> Rabs s < / 2 -> (S i < lN (in_state angled (shape s y) rd))%nat ->
  bent (seg (in_state angled (shape s y) rd) i) (seg (in_state angled (shape s y) rd) (S i)).
Proof.
  intros s y rd i Hy Hs Hi. cbn [lN in_state angled] in Hi. assert (i = 0)%nat as -> by lia. pose proof tol_tiny. pose proof eps_tiny. pose proof (root_bounds s Hs) as Q.
  unfold bent. rewrite cos1 by (lra || exact Hs). rewrite seg0, seg1 by lra. apply Rabs_def2 in Hs.
  set (q := sqrt (1 + s * s)) in *. set (c := - s / q) in *.
  assert (E : c * q = - s) by (unfold c; field; lra). assert (C : - / 2 <= c <= / 2) by (split; nra).
  split; [lra|]. split.
  - assert (A : / 2 <= sqrt ((1 - c) / 2)). { rewrite <- (sqrt_square (/ 2)) at 1 by lra. apply sqrt_le_1; lra. }
    assert (B : 0.8 <= 4 / (2 + y * q)). { apply (Rmult_le_reg_r (2 + y * q)); [nra|]. unfold Rdiv. rewrite Rmult_assoc, Rinv_l by nra. nra. }
    nra.
  - assert (A : / 2 <= sqrt (1 - c * c)). { rewrite <- (sqrt_square (/ 2)) at 1 by lra. apply sqrt_le_1; nra. } lra.
Qed.
Lemma angled_Bs : forall r rd, exists Bs, lBs (in_state angled r rd) = Some Bs.
Proof.
  intros. destruct (lBs (in_state angled r rd)) as [Bs|] eqn:E; [eauto|]. exfalso. unfold lBs, lisEI in E. cbn [lEI in_state angled] in E. destruct (Rlt_dec 0 50) in E; [|lra]. cbn [orb] in E. now apply (linear_bend (in_state angled r rd) 3) in E.
Qed.
Lemma angled_power : forall r a b Bs, lBs (in_state angled r (going a b)) = Some Bs ->
  power (in_state angled r (going a b)) Bs =
    if equalRealNos (lKurv (in_state angled r (going a b)) 1) 0 then 0
    else lKurv (in_state angled r (going a b)) 1 * 50 / llstr (in_state angled r (going a b)) 1
         * dot (cross (lqs (in_state angled r (going a b)) 1) (lpvec (in_state angled r (going a b)) 1)) (V3 a b 0).
Proof.
  intros r a b Bs H. set (L := in_state angled r (going a b)) in *.
  assert (HE : lisEI L = true) by (unfold lisEI, L; cbn; destruct (Rlt_dec 0 50); [reflexivity|lra]).
  unfold lBs in H. rewrite HE in H.
  unfold power. change (lN L) with 2%nat in *. cbn [Nat.add nsum] in *.
  rewrite !(bend_parts L 3 eq_refl eq_refl eq_refl Bs H). cbn [vsum]. change (lrd L 0) with vzero. change (lrd L 1) with vzero. change (lrd L 2) with (V3 a b 0).
  unfold inner. change (lN L) with 2%nat. cbn [Nat.eqb negb andb]. change (lEI L) with 50.
  destruct (equalRealNos (lKurv L 1) 0); cbn [negb].
  - unfold dot, vzero, vadd. cbn. ring.
  - unfold part. cbn [Nat.eqb Nat.sub Nat.add]. cbv zeta. unfold vzero. generalize (cross (lqs L 1) (lpvec L 1)) (cross (lqs L 0) (lpvec L 1)) (lKurv L 1 * 50 / llstr L 1) (lKurv L 1 * 50 / llstr L 0).
    intros [] [] ? ?. unfold dot, vadd, vscale, vsub. cbn. ring.
Qed.
Lemma const_d : forall c x, derivable_pt_lim (fun _ => c) x 0. Proof. intros. apply (derivable_pt_lim_const c). Qed.
(* stretching the second segment *)
Lemma radial : forall U s y, bending_energy_of angled U -> 1 <= y <= 2 -> Rabs s < / 2 -> derivable_pt_lim (fun v => U (shape s v)) y 0.
Proof.
  intros U s y HU Hy Hs. destruct (angled_Bs (shape s y) (going (- s) 1)) as [Bs E].
  assert (M : moves_as (in_state angled (shape s y) (going (- s) 1)) (fun v => shape s v) y).
  { split; [reflexivity|]. intros [|[|i]]; cbn; repeat split; try apply const_d.
    - replace (- s) with (0 - (s * 1)) by ring. apply deriv_sub; [apply const_d|]. apply (derivable_pt_lim_scal (fun v => v)). apply derivable_pt_lim_id.
    - apply derivable_pt_lim_id. }
  pose proof (HU (fun v => shape s v) (going (- s) 1) y Bs M (shape_long s y _ Hy Hs) (fun i Hi => shape_bent s y _ i Hy Hs Hi) E) as D. cbv beta zeta in D.
  rewrite (angled_power _ _ _ _ E) in D.
  match type of D with derivable_pt_lim _ _ (- ?x) => assert (Z : x = 0) end.
  { destruct (equalRealNos _ _); [reflexivity|]. set (L := in_state angled (shape s y) (going (- s) 1)) in *.
    assert (Q : lqs L 1 = vscale (/ norm (seg L 1)) (vscale y (V3 (- s) 1 0))).
    { unfold lqs, unitvector. cbn [fst]. fold (seg L 1). pose proof (shape_long s y (going (- s) 1) Hy Hs 1%nat ltac:(cbn; lia)) as LG. fold L in LG. fold (seg L 1) in LG.
      rewrite eq0_false by exact LG. f_equal. unfold seg, L. cbn. apply v3eq; cbn; ring. }
    rewrite Q. generalize (lpvec L 1) (/ norm (seg L 1)) (lKurv L 1 * 50 / llstr L 1). intros [] n k. unfold dot, cross, vscale. cbn. ring. }
  rewrite Z in D. replace (- 0) with 0 in D by ring. exact D.
Qed.
Lemma same_at_both : forall U s, bending_energy_of angled U -> Rabs s < / 2 -> U (shape s 1) = U (shape s 2).
Proof.
  intros U s HU Hs. destruct (MVT_cor2 (fun v => U (shape s v)) (fun _ => 0) 1 2 ltac:(lra)) as (c & E & _); [|lra].
  intros v Hv. apply radial; [exact HU|lra|exact Hs].
Qed.
(* turning the second segment *)
Lemma turning : forall U y, bending_energy_of angled U -> 1 <= y <= 2 -> derivable_pt_lim (fun v => U (shape v y)) 0 (4 / (2 + y) * sqrt (/ 2) * 50).
Proof.
  intros U y HU Hy. assert (Hs : Rabs 0 < / 2) by (rewrite Rabs_R0; lra).
  destruct (angled_Bs (shape 0 y) (going (- y) 0)) as [Bs E].
  assert (M : moves_as (in_state angled (shape 0 y) (going (- y) 0)) (fun v => shape v y) 0).
  { split; [reflexivity|]. intros [|[|i]]; cbn; repeat split; try apply const_d.
    replace (- y) with (0 - (1 * y + 0 * 0)) by ring. apply deriv_sub; [apply const_d|]. apply (deriv_mul (fun v => v) (fun _ => y)); [apply derivable_pt_lim_id|apply const_d]. }
  pose proof (HU (fun v => shape v y) (going (- y) 0) 0 Bs M (shape_long 0 y _ Hy Hs) (fun i Hi => shape_bent 0 y _ i Hy Hs Hi) E) as D. cbv beta zeta in D.
  rewrite (angled_power _ _ _ _ E) in D.
  set (L := in_state angled (shape 0 y) (going (- y) 0)) in *.
  pose proof tol_tiny. pose proof eps_tiny. pose proof tol_pos.
  assert (N0 : norm (seg L 0) = 2) by apply seg0.
  assert (N1 : norm (seg L 1) = y). { unfold L. rewrite seg1 by lra. replace (1 + 0 * 0) with 1 by ring. rewrite sqrt_1. ring. }
  assert (Q0 : lqs L 0 = V3 1 0 0). { unfold lqs, unitvector. cbn [fst]. fold (seg L 0). rewrite N0, eq0_false by lra. unfold seg, L. cbn. apply v3eq; cbn; lra. }
  assert (Q1 : lqs L 1 = V3 0 1 0). { unfold lqs, unitvector. cbn [fst]. fold (seg L 1). rewrite N1, eq0_false by lra. unfold seg, L. cbn. apply v3eq; cbn; field; lra. }
  assert (R2 : / 2 <= sqrt (/ 2)). { rewrite <- (sqrt_square (/ 2)) at 1 by lra. apply sqrt_le_1; lra. }
  assert (K : lKurv L 1 = 4 / (2 + y) * sqrt (/ 2)).
  { unfold lKurv. change (lN L) with 2%nat. cbn [Nat.eqb Nat.sub]. change (llstr L 0) with (norm (seg L 0)). change (llstr L 1) with (norm (seg L 1)). rewrite N0, N1, Q0, Q1.
    unfold getCurvature, dot. cbn [vx vy vz]. destruct (Rlt_dec 1 (1 * 0 + 0 * 1 + 0 * 0 + eps64)); [lra|]. do 2 f_equal. lra. }
  assert (KP : tol < lKurv L 1). { rewrite K. assert (1 <= 4 / (2 + y)) by (apply (Rmult_le_reg_r (2 + y)); [lra|]; unfold Rdiv; rewrite Rmult_assoc, Rinv_l by lra; lra). nra. }
  assert (P : lpvec L 1 = V3 0 0 1).
  { unfold lpvec. rewrite eq0_false by exact KP. change (lN L) with 2%nat. cbn [Nat.eqb Nat.sub]. rewrite Q0, Q1. cbv zeta.
    assert (X : cross (V3 1 0 0) (V3 0 1 0) = V3 0 0 1) by (unfold cross; cbn; apply v3eq; cbn; ring). rewrite X.
    assert (NX : norm (V3 0 0 1) = 1) by (unfold norm, dot; cbn; replace (0 * 0 + 0 * 0 + 1 * 1) with 1 by ring; apply sqrt_1). rewrite NX, eq0_false by lra. apply v3eq; cbn; field. }
  rewrite eq0_false in D by exact KP. rewrite P, Q1, K in D. change (llstr L 1) with (norm (seg L 1)) in D. rewrite N1 in D.
  match type of D with derivable_pt_lim _ _ ?x => replace x with (4 / (2 + y) * sqrt (/ 2) * 50) in D end; [exact D|].
  unfold dot, cross. cbn. field. split; lra.
Qed.
Lemma no_bending_energy : ~ exists U, bending_energy_of angled U.
Proof.
  intros [U HU]. pose proof (turning U 1 HU ltac:(lra)) as D1. pose proof (turning U 2 HU ltac:(lra)) as D2.
  assert (D3 : derivable_pt_lim (fun v => U (shape v 2)) 0 (4 / (2 + 1) * sqrt (/ 2) * 50)).
  { intros eps He. destruct (D1 eps He) as [d Hd]. assert (Hp : 0 < Rmin d (/ 2)) by (apply Rmin_glb_lt; [apply cond_pos|lra]).
    exists (mkposreal _ Hp). intros h Hh Hb. cbn in Hb. pose proof (Rmin_l d (/ 2)). pose proof (Rmin_r d (/ 2)). specialize (Hd h Hh ltac:(lra)).
    rewrite <- !(same_at_both U) by (try exact HU; rewrite ?Rplus_0_l, ?Rabs_R0; lra). exact Hd. }
  pose proof (uniqueness_limite _ _ _ _ D2 D3) as E.
  assert (/ 2 <= sqrt (/ 2)). { rewrite <- (sqrt_square (/ 2)) at 1 by lra. apply sqrt_le_1; lra. } lra.
Qed.

(* the work of a bend in any motion *)
Lemma bend_work_any q1 q2 s c a1 a2 w1 w2 : s <> 0 -> dot q1 q1 = 1 -> dot q2 q2 = 1 -> dot q1 q2 = c ->
  dot (vscale a1 (cross q1 (vscale (/ s) (cross q1 q2)))) (vscale (-1) w1) + dot (vscale a2 (cross q2 (vscale (/ s) (cross q1 q2)))) w2
  = (a1 * (dot w1 q2 - dot q1 w1 * c) + a2 * (dot q1 w2 - dot q2 w2 * c)) / s.
Proof.
  intros S U1 U2 C.
  transitivity ((a1 * (dot q1 q1 * dot w1 q2 - dot q1 w1 * dot q1 q2) + a2 * (dot q2 q2 * dot q1 w2 - dot q2 w2 * dot q1 q2)) / s).
  - destruct q1, q2, w1, w2. unfold dot, vscale, cross. cbn. field. exact S.
  - rewrite U1, U2, C. field. exact S.
Qed.
Lemma half_sine c : -1 <= c <= 1 -> sin (acos c / 2) = sqrt ((1 - c) / 2).
Proof.
  intros H. pose proof (acos_bound c) as B. pose proof PI_RGT_0. rewrite <- (half_angle (acos c)) by lra. rewrite cos_acos by exact H. f_equal. lra.
Qed.
Lemma acos_deriv c : -1 < c < 1 -> derivable_pt_lim acos c (-1 / sqrt (1 - c * c)).
Proof. intros H. apply (derive_pt_eq_1 acos c _ (derivable_pt_acos c H)). exact (derive_pt_acos c H). Qed.
Lemma bend_turn L p t i : (S i < lN L)%nat -> moves_as L p t -> tol < norm (seg L i) -> tol < norm (seg L (S i)) -> bent (seg L i) (seg L (S i)) ->
  lKurv L (S i) = curvature L i /\ lKurv L (S i) <> 0 /\ equalRealNos (lKurv L (S i)) 0 = false /\ exists d, derivable_pt_lim (fun s => angle (p s) i) t d /\ forall EI,
  dot (vscale (lKurv L (S i) * EI / llstr L i) (cross (lqs L i) (lpvec L (S i)))) (vsub (lrd L i) (lrd L (S i)))
  + dot (vscale (lKurv L (S i) * EI / llstr L (S i)) (cross (lqs L (S i)) (lpvec L (S i)))) (vsub (lrd L (S (S i))) (lrd L (S i)))
  = - (EI * lKurv L (S i) * d).
Proof.
  intros Hi HM H1 H2 (B1 & B2 & B3). pose proof tol_pos as TP. pose proof (lKurv_inner L i Hi H1 H2 B1) as K.
  destruct (unit_is_unit _ _ H1) as [U1 D1]. destruct (unit_is_unit _ _ H2) as [U2 D2]. fold (lqs L i) in D1, U1. fold (lqs L (S i)) in D2, U2. fold (seg L i) in D1. fold (seg L (S i)) in D2.
  pose proof (cos_dirs L i H1 H2) as C.
  assert (E0 : equalRealNos (lKurv L (S i)) 0 = false) by (rewrite K; now apply eq0_false).
  assert (HA : angle (lr L) i = acos (cos_between (seg L i) (seg L (S i)))) by reflexivity.
  unfold curvature. rewrite HA. set (c := cos_between (seg L i) (seg L (S i))) in *.
  assert (SN : norm (cross (lqs L i) (lqs L (S i))) = sqrt (1 - c * c)) by (unfold norm; rewrite cross_sq, U1, U2, <- C; f_equal; ring).
  assert (C1 : 0 < 1 - c * c). { destruct (Rlt_le_dec 0 (1 - c * c)) as [X|X]; [exact X|]. rewrite sqrt_neg_0 in B3 by exact X. lra. }
  assert (CM : -1 < c < 1) by nra.
  rewrite half_sine by lra. split; [exact K|]. split; [rewrite K; intro Z; rewrite Z in B2; lra|]. split; [exact E0|].
  assert (P : lpvec L (S i) = vscale (/ sqrt (1 - c * c)) (cross (lqs L i) (lqs L (S i)))).
  { unfold lpvec. cbv zeta. rewrite E0. destruct (Nat.eqb_spec (S i) 0); [lia|]. destruct (Nat.eqb_spec (S i) (lN L)); [lia|]. replace (S i - 1)%nat with i by lia. rewrite SN, eq0_false by exact B3. reflexivity. }
  pose proof (norm_deriv L p t i HM H1) as N1. pose proof (norm_deriv L p t (S i) HM H2) as N2.
  assert (T1 : forall j, tracks (fun s => p s j) t (lrd L j)) by (intro j; exact (proj2 HM j)).
  pose proof (tracks_dot _ _ t _ _ (tracks_sub _ _ _ _ _ (T1 (S i)) (T1 i)) (tracks_sub _ _ _ _ _ (T1 (S (S i))) (T1 (S i)))) as DD. cbv beta in DD.
  assert (NZ : norm (vsub (p t (S i)) (p t i)) * norm (vsub (p t (S (S i))) (p t (S i))) <> 0). { rewrite !(proj1 HM). fold (seg L i). fold (seg L (S i)). nra. }
  pose proof (deriv_div _ _ _ _ _ DD (deriv_mul _ _ _ _ _ N1 N2) NZ) as Dc. cbv beta in Dc. rewrite !(proj1 HM) in Dc. fold (seg L i) in Dc. fold (seg L (S i)) in Dc.
  match type of Dc with derivable_pt_lim _ _ ?x => set (dc := x) in Dc end.
  assert (EC : cos_between (vsub (p t (S i)) (p t i)) (vsub (p t (S (S i))) (p t (S i))) = c) by (rewrite !(proj1 HM); reflexivity).
  exists (- / sqrt (1 - c * c) * dc). split.
  - pose proof (acos_deriv c CM) as DA. rewrite <- EC in DA at 1.
    change (fun y => dot (vsub (p y (S i)) (p y i)) (vsub (p y (S (S i))) (p y (S i))) / (norm (vsub (p y (S i)) (p y i)) * norm (vsub (p y (S (S i))) (p y (S i)))))
      with (fun y => cos_between (vsub (p y (S i)) (p y i)) (vsub (p y (S (S i))) (p y (S i)))) in Dc.
    pose proof (derivable_pt_lim_comp _ acos t _ _ Dc DA) as D. unfold comp in D.
    match goal with |- derivable_pt_lim _ _ ?x => match type of D with derivable_pt_lim _ _ ?y => replace x with y end end; [exact D|]. field. apply Rgt_not_eq. lra.
  - intros EI. rewrite P. replace (vsub (lrd L i) (lrd L (S i))) with (vscale (-1) (vsub (lrd L (S i)) (lrd L i))) by (generalize (lrd L i) (lrd L (S i)); vring).
    rewrite (bend_work_any _ _ _ c); try assumption; [|lra|symmetry; exact C].
    change (llstr L i) with (norm (seg L i)). change (llstr L (S i)) with (norm (seg L (S i))). rewrite K.
    unfold dc, stretch_rate.
    set (n1 := norm (seg L i)) in *. set (n2 := norm (seg L (S i))) in *. set (w1 := vsub (lrd L (S i)) (lrd L i)) in *. set (w2 := vsub (lrd L (S (S i))) (lrd L (S i))) in *.
    replace (dot w1 (seg L (S i))) with (n2 * dot w1 (lqs L (S i))) by (rewrite D2; generalize w1 (lqs L (S i)); vring).
    replace (dot (seg L i) w2) with (n1 * dot (lqs L i) w2) by (rewrite D1; generalize w2 (lqs L i); vring).
    replace (dot (seg L i) w1) with (n1 * dot (lqs L i) w1) by (rewrite D1; generalize w1 (lqs L i); vring).
    replace (dot (seg L (S i)) w2) with (n2 * dot (lqs L (S i)) w2) by (rewrite D2; generalize w2 (lqs L (S i)); vring).
    replace (dot (seg L i) (seg L (S i))) with (n1 * n2 * c) by (rewrite C, D1, D2; generalize (lqs L i) (lqs L (S i)); vring).
    generalize (dot w1 (lqs L (S i))) (dot (lqs L i) w2) (dot (lqs L i) w1) (dot (lqs L (S i)) w2) (sqrt ((1 - c) / 2)). intros x y u v h.
    assert (A : 0 < sqrt (1 - c * c)) by lra. generalize dependent (sqrt (1 - c * c)). intros s ? ? ? A. clearbody n1 n2 c. field. repeat split; lra.
Qed.
Lemma bend1_any L i Bs Bs' : lcantA L = false -> lcantB L = false -> bend1 L i Bs = Some Bs' ->
  exists E, (andb (inner L i) (negb (equalRealNos (lKurv L i) 0)) = true -> lEIat L (lKurv L i) = Some E) /\
  forall j, Bs' j = vadd (Bs j) (if andb (inner L i) (negb (equalRealNos (lKurv L i) 0)) then part L i E j else vzero).
Proof.
  intros HA HB' H. unfold bend1 in H. cbv zeta in H. rewrite HA, HB' in H. unfold inner.
  destruct (equalRealNos _ _). { injection H as <-. exists 0. rewrite Bool.andb_false_r. split; [discriminate|]. intros. symmetry. apply vadd_0_r. }
  destruct (Nat.eqb_spec i 0) as [E|E]; [injection H as <-; exists 0; cbn [negb andb]; split; [discriminate|]; intros; symmetry; apply vadd_0_r|].
  destruct (Nat.eqb_spec i (lN L)) as [E'|E']; [injection H as <-; exists 0; cbn [negb andb]; split; [discriminate|]; intros; symmetry; apply vadd_0_r|].
  destruct (lEIat L (lKurv L i)) as [EI|]; cbn [obnd] in H; [|discriminate]. injection H as <-. exists EI. split; [reflexivity|]. intros j. cbn [negb andb]. unfold part, bump. cbv zeta.
  destruct (Nat.eqb_spec j (i - 1)), (Nat.eqb_spec j i), (Nat.eqb_spec j (i + 1)); try lia; try reflexivity. symmetry. apply vadd_0_r.
Qed.
Lemma bend_any L n : lcantA L = false -> lcantB L = false -> forall Bs, bend L n = Some Bs ->
  exists E, (forall i, (i < n)%nat -> andb (inner L i) (negb (equalRealNos (lKurv L i) 0)) = true -> lEIat L (lKurv L i) = Some (E i)) /\
  forall j, Bs j = vsum n (fun i => if andb (inner L i) (negb (equalRealNos (lKurv L i) 0)) then part L i (E i) j else vzero).
Proof.
  intros HA HB'. induction n as [|n IH]; intros Bs H; cbn in H; [injection H as <-; exists (fun _ => 0); split; [intros; lia|reflexivity]|].
  apply obnd_some in H as (B0 & E & H). destruct (IH B0 E) as (Es & E1 & E2). destruct (bend1_any L n B0 Bs HA HB' H) as (En & F1 & F2).
  exists (fun i => if Nat.eqb i n then En else Es i). split.
  - intros i Hi C. destruct (Nat.eqb_spec i n) as [->|Z]; [apply F1; exact C|apply E1; [lia|exact C]].
  - intros j. cbn [vsum]. rewrite Nat.eqb_refl, F2, E2. f_equal. apply vsum_ext. intros i Hi. destruct (Nat.eqb_spec i n); [lia|reflexivity].
Qed.
Lemma power_any L Bs : lcantA L = false -> lcantB L = false -> (0 < lN L)%nat -> lisEI L = true -> lBs L = Some Bs ->
  (forall i, (0 < i < lN L)%nat -> equalRealNos (lKurv L i) 0 = false) ->
  exists E, (forall i, (S i < lN L)%nat -> lEIat L (lKurv L (S i)) = Some (E i)) /\
  power L Bs = nsum (lN L - 1) (fun i => dot (vscale (lKurv L (S i) * E i / llstr L i) (cross (lqs L i) (lpvec L (S i)))) (vsub (lrd L i) (lrd L (S i)))
                                        + dot (vscale (lKurv L (S i) * E i / llstr L (S i)) (cross (lqs L (S i)) (lpvec L (S i)))) (vsub (lrd L (S (S i))) (lrd L (S i)))).
Proof.
  intros HA HB' HN HE HBs HK. unfold lBs in HBs. rewrite HE in HBs. destruct (bend_any L (lN L + 1) HA HB' Bs HBs) as (E & E1 & E2).
  assert (IN : forall i, (S i < lN L)%nat -> inner L (S i) = true) by (intros i Hi; unfold inner; destruct (Nat.eqb_spec (S i) (lN L)); [lia|reflexivity]).
  exists (fun i => E (S i)). split; [intros i Hi; apply E1; [lia|]; rewrite IN, HK by lia; reflexivity|]. unfold power.
  rewrite (nsum_ext _ _ (fun j => nsum (lN L + 1) (fun i => dot (if andb (inner L i) (negb (equalRealNos (lKurv L i) 0)) then part L i (E i) j else vzero) (lrd L j)))).
  2:{ intros j Hj. rewrite (E2 j). apply dot_vsum. }
  rewrite nsum_swap. rewrite nsum_inner; [|exact HN| |].
  - apply nsum_ext. intros i Hi. rewrite IN, HK by lia. cbn [negb andb].
    rewrite (nsum_three _ _ (S i)); [|lia|lia|].
    + unfold part. cbv zeta. replace (S i - 1)%nat with i by lia. rewrite !Nat.eqb_refl. destruct (Nat.eqb_spec (S i) i); [lia|]. destruct (Nat.eqb_spec (S (S i)) i); [lia|]. destruct (Nat.eqb_spec (S (S i)) (S i)); [lia|].
      destruct (Nat.eqb_spec (S (S i)) (S i + 1)); [|lia].
      generalize (vscale (lKurv L (S i) * E (S i) / llstr L i) (cross (lqs L i) (lpvec L (S i)))) (vscale (lKurv L (S i) * E (S i) / llstr L (S i)) (cross (lqs L (S i)) (lpvec L (S i)))) (lrd L i) (lrd L (S i)) (lrd L (S (S i))). vring.
    + intros j Hj N1 N2 N3. unfold part. cbv zeta. destruct (Nat.eqb_spec j (S i - 1)); [lia|]. destruct (Nat.eqb_spec j (S i)); [lia|]. destruct (Nat.eqb_spec j (S i + 1)); [lia|]. unfold dot. cbn. ring.
  - apply nsum_0. intros. unfold inner. cbn [Nat.eqb negb andb]. unfold dot. cbn. ring.
  - apply nsum_0. intros. unfold inner. rewrite Nat.eqb_refl. cbn [negb]. rewrite Bool.andb_false_r. cbn [andb]. unfold dot. cbn. ring.
Qed.
Lemma bending_power L p t Bs : (0 < lN L)%nat -> 0 <= lEI L -> lcantA L = false -> lcantB L = false -> lBs L = Some Bs -> long L -> moves_as L p t ->
  (forall i, (S i < lN L)%nat -> bent (seg L i) (seg L (S i))) ->
  exists m d, (forall i, (S i < lN L)%nat -> moment_of L i (m i) /\ derivable_pt_lim (fun s => angle (p s) i) t (d i)) /\
    power L Bs = - nsum (lN L - 1) (fun i => m i * d i).
Proof.
  intros HN HE HA HB' HBs HL HM HBt.
  assert (Q := fun i (Hi : (i < lN L - 1)%nat) => bend_turn L p t i ltac:(lia) HM ltac:(apply HL; lia) ltac:(apply HL; lia) ltac:(apply HBt; lia)).
  destruct (choose_below (lN L - 1) _ (fun i Hi => proj2 (proj2 (proj2 (Q i Hi))))) as [d Hd].
  destruct (lisEI L) eqn:IE.
  - destruct (power_any L Bs HA HB' HN IE HBs) as (E & E1 & PW). { intros i Hi. destruct i as [|i]; [lia|]. apply Q. lia. }
    exists (fun i => E i * lKurv L (S i)), d. split.
    + intros i Hi. split; [|apply Hd; lia]. destruct (Q i ltac:(lia)) as (K & KZ & _). specialize (E1 i Hi). unfold lEIat in E1. unfold moment_of, moment_at. rewrite <- K.
      destruct (lbx L) as [|x xs] eqn:EX; cbn [length Nat.eqb negb] in E1; [injection E1 as <-; reflexivity|].
      unfold getNonlinearEI in E1. rewrite EX in E1. destruct (interp (x :: xs) (lby L) (lKurv L (S i))) as [Y| | |] eqn:EI; cbn [oval obnd] in E1; try discriminate.
      unfold fdiv in E1. destruct (Req_EM_T (lKurv L (S i)) 0); [congruence|]. injection E1 as E1. f_equal. rewrite <- E1. field. exact KZ.
    + rewrite PW. rewrite (nsum_ext _ _ (fun i => -1 * (E i * lKurv L (S i) * d i))) by (intros i Hi; rewrite (proj2 (Hd i Hi)); ring). rewrite nsum_scale. ring.
  - unfold lBs in HBs. rewrite IE in HBs. injection HBs as <-. unfold lisEI in IE. apply Bool.orb_false_iff in IE as [I1 I2]. destruct (Rlt_dec 0 (lEI L)); [discriminate|].
    exists (fun _ => 0), d. split.
    + intros i Hi. split; [|apply Hd; lia]. unfold moment_of, moment_at. destruct (lbx L); [|discriminate]. replace (lEI L) with 0 by lra. ring.
    + unfold power. rewrite nsum_0 by (intros; unfold dot; cbn; ring). rewrite nsum_0 by (intros; ring). ring.
Qed.
(* the power of all the internal forces *)
Lemma internal_power_bs : forall L e k F, (0 < lN L)%nat -> line_forces L e k = Some F -> exists Bs, lBs L = Some Bs /\
  power L (internal L e k F)
  = - nsum (lN L) (fun i => dot (vadd (force_or_zero (lT L) i) (force_or_zero (lTd L) i)) (vsub (lrd L (S i)) (lrd L i))) + power L Bs.
Proof.
  intros L e k F HN H. apply forces_some in H. destruct H as [Bs [HB [-> [HT HTd]]]]. exists Bs. split; [exact HB|].
  set (T := force_or_zero (lT L)) in *. set (Td := force_or_zero (lTd L)) in *.
  set (t := fun i => if Nat.eqb i 0 then vadd (T 0%nat) (Td 0%nat)
          else if Nat.eqb i (lN L) then vscale (-1) (vadd (T (i - 1)%nat) (Td (i - 1)%nat))
          else vsub (vadd (T i) (Td i)) (vadd (T (i - 1)%nat) (Td (i - 1)%nat))).
  unfold power. rewrite (nsum_ext _ _ (fun i => dot (t i) (lrd L i) + dot (Bs i) (lrd L i))).
  2:{ intros i Hi. rewrite internal_eq. fold (t i). apply dot_lin. }
  rewrite nsum_add. f_equal.
  rewrite (abel_r (lN L) (fun i => dot (vadd (T i) (Td i)) (lrd L i)) (fun i => dot (vadd (T i) (Td i)) (lrd L (S i)))).
  - transitivity (nsum (lN L) (fun i => (-1) * dot (vadd (T i) (Td i)) (vsub (lrd L (S i)) (lrd L i)))).
    + apply nsum_ext. intros i Hi. generalize (vadd (T i) (Td i)) (lrd L i) (lrd L (S i)). vring.
    + rewrite nsum_scale. ring.
  - exact HN.
  - unfold t. reflexivity.
  - unfold t. destruct (Nat.eqb_spec (lN L) 0); [lia|]. rewrite Nat.eqb_refl. replace (S (lN L - 1)) with (lN L) by lia.
    generalize (vadd (T (lN L - 1)%nat) (Td (lN L - 1)%nat)) (lrd L (lN L)). vring.
  - intros i Hi. unfold t. destruct (Nat.eqb_spec i 0); [lia|]. destruct (Nat.eqb_spec i (lN L)); [lia|].
    replace (S (i - 1)) with i by lia. generalize (vadd (T i) (Td i)) (vadd (T (i - 1)%nat) (Td (i - 1)%nat)) (lrd L i). vring.
Qed.
Lemma full_balance : forall L G e k F p t, (0 < lN L)%nat -> 0 <= lEI L -> lcantA L = false -> lcantB L = false -> stores L G ->
  (forall i, (i < lN L)%nat -> 0 < ll L i /\ tol < norm (seg L i)) -> (forall i, (S i < lN L)%nat -> bent (seg L i) (seg L (S i))) ->
  line_forces L e k = Some F -> moves_as L p t ->
  exists dU Y m d, derivable_pt_lim (fun s => strain_energy L G (p s)) t dU /\
    (forall i, (i < lN L)%nat -> damping_stress L (stretch_rate L i / ll L i) (Y i)) /\
    (forall i, (S i < lN L)%nat -> moment_of L i (m i) /\ derivable_pt_lim (fun s => angle (p s) i) t (d i)) /\
    power L (internal L e k F) = - dU - nsum (lN L) (fun i => larea L * Y i * stretch_rate L i) - nsum (lN L - 1) (fun i => m i * d i).
Proof.
  intros L G e k F p t HN HE HA HB' HG Hl HBt H HM.
  destruct (forces_some L e k F H) as [_ [_ [_ [HT HTd]]]].
  destruct (internal_power_bs L e k F HN H) as (Bs & EB & P).
  assert (HL : long L) by (intros i Hi; apply Hl; exact Hi).
  destruct (bending_power L p t Bs HN HE HA HB' EB HL HM HBt) as (m & d & Hd & PB).
  assert (Q : exists Y, forall i, (i < lN L)%nat -> damping_stress L (stretch_rate L i / ll L i) (Y i) /\
    dot (force_or_zero (lTd L) i) (vsub (lrd L (S i)) (lrd L i)) = larea L * Y i * stretch_rate L i).
  { apply (choose_below (lN L) (fun i y => damping_stress L (stretch_rate L i / ll L i) y /\
    dot (force_or_zero (lTd L) i) (vsub (lrd L (S i)) (lrd L i)) = larea L * y * stretch_rate L i)).
    intros i Hi. destruct (Hl i Hi). apply damping_rate; [assumption|assumption|]. specialize (HTd i Hi). rewrite HTd. discriminate. }
  destruct Q as [Y HY].
  eexists. exists Y, m, d. split; [|split; [intros i Hi; apply HY; exact Hi|split; [exact Hd|]]].
  - unfold strain_energy. apply (nsum_deriv (lN L) (fun s i => larea L * ll L i * G ((norm (vsub (p s (S i)) (p s i)) - ll L i) / ll L i))).
    intros i Hi. destruct (Hl i Hi). apply stored_rate; try assumption. specialize (HT i Hi). rewrite HT. discriminate.
  - rewrite P, PB.
    rewrite (nsum_ext _ _ _ (fun i _ => dot_lin (force_or_zero (lT L) i) (force_or_zero (lTd L) i) (vsub (lrd L (S i)) (lrd L i)))).
    rewrite nsum_add.
    rewrite (nsum_ext (lN L) (fun i => dot (force_or_zero (lTd L) i) (vsub (lrd L (S i)) (lrd L i))) _ (fun i Hi => proj2 (HY i Hi))). ring.
Qed.
