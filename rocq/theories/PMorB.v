(** Proofs about the forces of the water on rods, points and bodies *)
From Coq Require Import Reals List Lra Lia Psatz Arith ZArith.
From Verif Require Import MErr MVec MStateOps MMat MInterp MLine MRod MBody SMat SLine SRod SBody SMor PMat PEuler PLine PLineB PRod PRodB PRodC PMor.
Import ListNotations.
Open Scope R_scope.

Lemma rF6_add : forall D F G n, rF6 D (fun i => vadd (F i) (G i)) n = v6add (rF6 D F n) (rF6 D G n).
Proof.
  induction n; cbn [rF6]; [unfold v6add, v6zero; cbn [v6hd v6tl]; f_equal; vring|]. rewrite IHn. unfold v6add. cbn [v6hd v6tl].
  f_equal; generalize (rF6 D F n) (rF6 D G n) (F n) (G n) (vsub (rnode D n) (rA D)); intros [a b] [c d] f g r; cbn [v6hd v6tl]; [generalize a c f g; vring|].
  rewrite cross_add_r. generalize b d (cross r f) (cross r g). vring.
Qed.
Lemma rF6_ext : forall D D' F G n, (forall i, (i < n)%nat -> F i = G i) -> (forall i, (i < n)%nat -> rnode D i = rnode D' i) -> rA D = rA D' -> rF6 D F n = rF6 D' G n.
Proof. induction n; intros H H' E; cbn [rF6]; [reflexivity|]. rewrite IHn by auto. rewrite H, H', E by auto. reflexivity. Qed.
(** the same rod at rest, the same sea without flow *)
Definition at_rest (D : rod) : rod := Rod (rn D) (rdia D) (rrho D) (rlen D) (rCan D) (rCat D) (rCdn D) (rCdEnd D) (rCaEnd D) (rq D) (rA D) vzero vzero.
Definition no_flow (k : wkin) : wkin := Wkin (wzeta k) (fun _ => vzero) (fun _ => vzero) (fun _ => 0) (wdepth k).
Lemma rLsum_rest : forall D i, rLsum (at_rest D) i = rLsum D i.
Proof. induction i; [reflexivity|]. cbn [rLsum]. rewrite IHi. reflexivity. Qed.
Lemma rVOF_rest : forall D z ph i, rVOF (at_rest D) z ph i = rVOF D z ph i.
Proof. intros. unfold rVOF. rewrite rLsum_rest. reflexivity. Qed.
Lemma rBo_rest : forall D e z ph be i, rBo (at_rest D) e z ph be i = rBo D e z ph be i.
Proof. intros. unfold rBo, rBoSide, rBoEnd. rewrite !rVOF_rest. reflexivity. Qed.
Lemma rMext_rest : forall D e k ph be a b, rMext (at_rest D) e (no_flow k) ph be a b = rMext D e k ph be a b.
Proof. intros. unfold rMext, rMEnd. rewrite !rVOF_rest. reflexivity. Qed.
Lemma no_flow_calm : forall k zeta, (forall i, wzeta k i = zeta) -> calm (no_flow k) zeta.
Proof. intros k zeta H. repeat split; auto. Qed.
Lemma rVend_is : forall D, rVend D = half_sphere D.
Proof. intro D. unfold rVend, half_sphere. field. Qed.
Lemma rArea_is : forall D, rArea D = rod_end_area D.
Proof. intro D. unfold rArea, rod_end_area. replace 0.25 with (/ 4) by lra. field. Qed.
Lemma rV_is : forall D, (0 < rn D)%nat -> INR (rn D) * rV D = rod_volume D.
Proof. intros D HN. pose proof (N_pos D HN). unfold rV, rod_volume, rod_end_area. rewrite rl_pos_n by exact HN. replace 0.25 with (/ 4) by lra. field. lra. Qed.
Lemma rl_is : forall D, (0 < rn D)%nat -> INR (rn D) * rl D = rlen D.
Proof. intros D HN. pose proof (N_pos D HN). rewrite rl_pos_n by exact HN. field. lra. Qed.
Lemma wet_end : forall D ph zeta i, 0 < rdia D -> below D ph zeta -> (i <= rn D)%nat -> rwetEnd D zeta ph i = true.
Proof. intros D ph zeta i Hd HB Hi. unfold rwetEnd, rz1lo. pose proof (HB i Hi). pose proof (Rabs_pos (sin ph)). destruct (Rlt_dec _ zeta); [reflexivity|]. nra. Qed.
Lemma rends_is : forall D i, (0 < rn D)%nat -> INR (rends D i) = (if Nat.eqb i 0 then 1 else 0) + (if Nat.eqb i (rn D) then 1 else 0).
Proof. intros D i HN. unfold rends. destruct (Nat.eqb_spec i 0), (Nat.eqb_spec i (rn D)); try lia; cbn; ring. Qed.
(* the force of the flow on a node *)
Definition side (D : rod) (e : envc) (vp ap : v3) : v3 := vadd (vscale (0.5 * rho_w e * rCdn D * rdia D * rl D * norm vp) vp) (vscale (rho_w e * (1 + rCan D) * rV D) ap).
Definition face (D : rod) (e : envc) (vq aq : v3) (p : R) : v3 :=
  vadd (vadd (vscale (0.5 * rArea D * rho_w e * rCdEnd D * norm vq) vq) (vscale (rho_w e * rCaEnd D * rVend D) aq)) (vscale (rArea D * p) (rq D)).
Lemma flow_node : forall D e k ph be zeta U A vp vq ap aq i, (0 < rn D)%nat -> 0 < rdia D -> 0 <= rlen D -> dot (rq D) (rq D) = 1 -> (i <= rn D)%nat -> (forall j, wzeta k j = zeta) -> below D ph zeta -> off_bottom D k ->
  uniform k (rn D) U A -> rw D = vzero -> splits (rq D) (vsub U (rvA D)) vp vq -> splits (rq D) A ap aq ->
  rF D e k ph be i = vadd (rF (at_rest D) e (no_flow k) ph be i)
    (vadd (vscale (hw D i) (side D e vp ap)) (vadd (if Nat.eqb i 0 then face D e vq aq (wpdyn k 0) else vzero) (if Nat.eqb i (rn D) then face D e vq aq (- wpdyn k (rn D)) else vzero))).
Proof.
  intros D e k ph be zeta U A vp vq ap aq i HN Hd HL Q1 Hi HZ HB OB HU W0 S1 S2.
  rewrite (still_forces (at_rest D) e (no_flow k) ph be zeta i HN Hi (no_flow_calm k zeta HZ) OB eq_refl eq_refl).
  destruct (split_parts _ _ _ _ Q1 S1) as [P1 A1]. destruct (split_parts _ _ _ _ Q1 S2) as [P2 A2]. destruct (HU i Hi) as [U1 U2].
  destruct (below_ends D ph zeta HN Hd HB) as [BA BB].
  assert (VF : rVOF D zeta ph i = 1) by (apply submerged_VOF; auto; apply HB; exact Hi).
  assert (RV : rvel D i = rvA D) by (rewrite rvel_at, W0 by assumption; generalize (rvA D) (INR i * rl D) (rq D); vring).
  unfold rF. rewrite (HZ (rn D)). change (rW (at_rest D) e i) with (rW D e i). rewrite rBo_rest.
  assert (BO : rBot D e k i = vzero). { unfold rBot. cbv zeta. pose proof (OB i Hi). destruct (Nat.eqb _ _); [reflexivity|]. destruct (Rlt_dec _ _); [lra|reflexivity]. }
  rewrite BO. unfold rDp, rDq, rAp, rAq, rPd. cbv zeta. rewrite (HZ (rn D)), VF, (wet_end D ph zeta i Hd HB Hi), U1, U2, RV, P1, A1, P2, A2, rdL_hw, rvi_hw, rends_is by exact HN.
  replace (Nat.eqb (rn D) 0) with false by (symmetry; apply Nat.eqb_neq; lia).
  assert (K : vadd (if Nat.eqb i 0 then vscale (1 * rArea D * wpdyn k i) (rq D) else vzero) (if Nat.eqb i (rn D) then vscale (-1) (vscale (1 * rArea D * wpdyn k i) (rq D)) else vzero)
     = vadd (if Nat.eqb i 0 then vscale (rArea D * wpdyn k 0) (rq D) else vzero) (if Nat.eqb i (rn D) then vscale (rArea D * - wpdyn k (rn D)) (rq D) else vzero)).
  { f_equal; [destruct (Nat.eqb_spec i 0) as [->|]|destruct (Nat.eqb_spec i (rn D)) as [->|]]; try reflexivity; generalize (rArea D) (rq D); [generalize (wpdyn k 0)|generalize (wpdyn k (rn D))]; vring. }
  rewrite K. unfold side, face. generalize (rW D e i) (rBo D e zeta ph be i) (hw D i) (norm vp) (norm vq) (rArea D) (rVend D) (wpdyn k 0) (wpdyn k (rn D)) (rq D) (rl D) (rV D).
  destruct (Nat.eqb i 0), (Nat.eqb i (rn D)); intros w b h n1 n2 ar ve p0 pn q l v; destruct w as [wa wb wc], b as [ba bb bc], q as [qa qb qc], vp as [vpa vpb vpc], vq as [vqa vqb vqc], ap as [apa apb apc], aq as [aqa aqb aqc]; unfold vadd, vscale, vzero; cbn [vx vy vz]; apply v3eq; cbn [vx vy vz]; ring.
Qed.
Lemma cross_par : forall q c, cross q (vscale c q) = vzero.
Proof. intros [a b c] d. unfold cross, vscale, vzero. cbn [vx vy vz]. apply v3eq; cbn [vx vy vz]; ring. Qed.
Lemma morison_rod : forall D e k ph be zeta U A vp vq ap aq, sensible_rod D -> headed (rq D) -> rangles D = Ok (ph, be) ->
  (forall j, wzeta k j = zeta) -> below D ph zeta -> off_bottom D k -> uniform k (rn D) U A -> rw D = vzero -> splits (rq D) (vsub U (rvA D)) vp vq -> splits (rq D) A ap aq ->
  rF6net D e k ph be [] [] = wrench_at (vscale (rlen D / 2) (rq D)) (total [wet_weight e (rrho D * rod_volume D) (rod_volume D);
    drag_law (rho_w e) (rCdn D * (rdia D * rlen D)) vp; drag_law (rho_w e) (2 * rCdEnd D * rod_end_area D) vq;
    vscale (rho_w e * rod_volume D * (1 + rCan D)) ap; vscale (2 * (rho_w e * rCaEnd D * half_sphere D)) aq; vscale (rod_end_area D * (wpdyn k 0 - wpdyn k (rn D))) (rq D)]).
Proof.
  intros D e k ph be zeta U A vp vq ap aq HS HH HA HZ HB OB HU W0 S1 S2. pose proof HS as (HN & Hd & Hr & HL & _). pose proof (proj1 HH) as Q1.
  pose proof (rod_archimedes (at_rest D) e (no_flow k) ph be zeta HS HH HA (no_flow_calm k zeta HZ) OB eq_refl eq_refl HB) as AR.
  unfold rF6net in *. change (rn (at_rest D)) with (rn D) in AR. rewrite rMext_rest in AR.
  assert (E : rF6 D (rFnet D e k ph be [] []) (rn D + 1) = v6add (rF6 (at_rest D) (rFnet (at_rest D) e (no_flow k) ph be [] []) (rn D + 1))
     (rF6 D (fun i => vadd (vscale (hw D i) (side D e vp ap)) (vadd (if Nat.eqb i 0 then face D e vq aq (wpdyn k 0) else vzero) (if Nat.eqb i (rn D) then face D e vq aq (- wpdyn k (rn D)) else vzero))) (rn D + 1))).
  { rewrite (rF6_ext (at_rest D) D _ (rFnet (at_rest D) e (no_flow k) ph be [] [])); [|reflexivity..]. rewrite <- rF6_add. apply rF6_ext; [|reflexivity..]. intros i Hi.
    unfold rFnet, es_force. cbn [fold_left]. change (rn (at_rest D)) with (rn D).
    replace (if Nat.eqb i 0 then vzero else vzero) with vzero by (destruct (Nat.eqb _ _); reflexivity).
    replace (if Nat.eqb i (rn D) then vzero else vzero) with vzero by (destruct (Nat.eqb _ _); reflexivity). rewrite !vadd_0_r.
    apply (flow_node D e k ph be zeta U A); try assumption; try lra; lia. }
  rewrite E, (F6_shape D _ (side D e vp ap) (face D e vq aq (wpdyn k 0)) (face D e vq aq (- wpdyn k (rn D))) HN) by (intros; reflexivity).
  destruct (rF6 (at_rest D) (rFnet (at_rest D) e (no_flow k) ph be [] []) (rn D + 1)) as [f m]. cbn [v6hd v6tl] in AR. unfold v6add, wrench_at in *. cbn [v6hd v6tl].
  change (rlen (at_rest D)) with (rlen D) in AR. change (rq (at_rest D)) with (rq D) in AR. change (rmass (at_rest D)) with (rmass D) in AR. change (rdia (at_rest D)) with (rdia D) in AR.
  set (g := V3 0 0 ((rho_w e * (PI / 4 * rdia D * rdia D * rlen D) - rmass D) * gr e)) in AR.
  assert (AR1 : f = g) by congruence. assert (AR2 : vadd m (rMext D e k ph be [] []) = cross (vscale (rlen D / 2) (rq D)) g) by congruence. clear AR.
  assert (G : g = wet_weight e (rrho D * rod_volume D) (rod_volume D)).
  { unfold g, wet_weight, rod_volume, rod_end_area, rmass. replace 0.25 with (/ 4) by lra. apply v3eq; cbn [vx vy vz]; [reflexivity..|]. field. }
  assert (SD : vscale (INR (rn D)) (side D e vp ap) = vadd (drag_law (rho_w e) (rCdn D * (rdia D * rlen D)) vp) (vscale (rho_w e * rod_volume D * (1 + rCan D)) ap)).
  { rewrite <- (rV_is D HN), <- (rl_is D HN). unfold side, drag_law. replace 0.5 with (/ 2) by lra. generalize (norm vp) (rl D) (rV D) (INR (rn D)). intros n l v N. destruct vp as [vpa vpb vpc], ap as [apa apb apc]. unfold vadd, vscale. cbn [vx vy vz]. apply v3eq; cbn [vx vy vz]; field. }
  assert (FC : vadd (face D e vq aq (wpdyn k 0)) (face D e vq aq (- wpdyn k (rn D))) =
     vadd (drag_law (rho_w e) (2 * rCdEnd D * rod_end_area D) vq) (vadd (vscale (2 * (rho_w e * rCaEnd D * half_sphere D)) aq) (vscale (rod_end_area D * (wpdyn k 0 - wpdyn k (rn D))) (rq D)))).
  { rewrite <- rVend_is, <- rArea_is. unfold face, drag_law. replace 0.5 with (/ 2) by lra. generalize (norm vq) (rVend D) (rArea D) (wpdyn k 0) (wpdyn k (rn D)) (rq D). intros n v a p0 pn q. destruct vq as [vqa vqb vqc], aq as [aqa aqb aqc], q as [qa qb qc]. unfold vadd, vscale. cbn [vx vy vz]. apply v3eq; cbn [vx vy vz]; field. }
  assert (PF : forall p, exists c, face D e vq aq p = vscale c (rq D)).
  { intro p. destruct S1 as (_ & _ & c1 & ->). destruct S2 as (_ & _ & c2 & ->). unfold face. generalize (norm (vscale c1 (rq D))). intro n. eexists.
    instantiate (1 := 0.5 * rArea D * rho_w e * rCdEnd D * n * c1 + rho_w e * rCaEnd D * rVend D * c2 + rArea D * p). generalize (rq D) (rArea D) (rVend D). vring. }
  assert (TT : vadd g (vadd (vscale (INR (rn D)) (side D e vp ap)) (vadd (face D e vq aq (wpdyn k 0)) (face D e vq aq (- wpdyn k (rn D))))) =
    total [wet_weight e (rrho D * rod_volume D) (rod_volume D); drag_law (rho_w e) (rCdn D * (rdia D * rlen D)) vp; drag_law (rho_w e) (2 * rCdEnd D * rod_end_area D) vq;
    vscale (rho_w e * rod_volume D * (1 + rCan D)) ap; vscale (2 * (rho_w e * rCaEnd D * half_sphere D)) aq; vscale (rod_end_area D * (wpdyn k 0 - wpdyn k (rn D))) (rq D)]).
  { rewrite SD, FC, G. unfold total. cbn [fold_right].
    match goal with |- vadd ?a (vadd (vadd ?b ?c) (vadd ?d (vadd ?x ?y))) = _ => generalize a b c d x y end. vring. }
  rewrite <- TT, AR1. f_equal.
  destruct (PF (wpdyn k 0)) as [c0 E0]. destruct (PF (- wpdyn k (rn D))) as [c1 E1]. rewrite E0, E1, !cross_add_r, <- AR2.
  assert (Z : forall a c, cross (vscale a (rq D)) (vscale c (rq D)) = vzero).
  { intros a c. generalize (rq D). intros [x y z]. unfold cross, vscale, vzero. cbn [vx vy vz]. apply v3eq; cbn [vx vy vz]; ring. }
  rewrite !Z. generalize (cross (vscale (rlen D / 2) (rq D)) (vscale (INR (rn D)) (side D e vp ap))) m (rMext D e k ph be [] []). vring.
Qed.
(* mass *)
Lemma m6_lin : forall r M u, symmetric3 M -> m6mulv (translateMass r M) (V6 u vzero) = V6 (mmulv M u) (cross r (mmulv M u)).
Proof.
  intros [x y z] [[a b c] [d e f] [g h i]] [u1 u2 u3] S. unfold symmetric3 in S. cbv [mtr mr0 mr1 mr2 vx vy vz] in S. injection S; intros; subst.
  unfold translateMass, getH, m6mulv, vzero. cbn [m6tl m6tr m6bl m6br v6hd v6tl]. cbv beta iota zeta delta [mmul mtr mmulv dot vadd cross mr0 mr1 mr2 vx vy vz]. f_equal; apply v3eq; cbn [vx vy vz]; ring.
Qed.
Lemma rM6_lin : forall D M n u, (forall i, (i < n)%nat -> symmetric3 (M i)) -> m6mulv (rM6 D M n) (V6 u vzero) = rF6 D (fun i => mmulv (M i) u) n.
Proof.
  induction n; intros u H; cbn [rM6 rF6].
  - destruct u as [a b c]. unfold m6mulv, v6zero. cbn [m6tl m6tr m6bl m6br v6hd v6tl]. assert (Z : forall x, vadd (mmulv mzero x) (mmulv mzero vzero) = vzero).
    { intros [x y z]. unfold mzero, mmulv, dot, vadd, vzero. cbn [mr0 mr1 mr2 vx vy vz]. apply v3eq; cbn [vx vy vz]; ring. } rewrite !Z. reflexivity.
  - rewrite <- IHn by auto. rewrite <- m6_lin by auto. generalize (rM6 D M n) (translateMass (vsub (rnode D n) (rA D)) (M n)) (V6 u vzero).
    intros [a b c d] [a' b' c' d'] [x y]. unfold m6mulv, m6add, v6add. cbn [m6tl m6tr m6bl m6br v6hd v6tl]. rewrite !mmulv_add_l.
    f_equal; match goal with |- vadd (vadd ?p ?q) (vadd ?r ?s) = _ => generalize p q r s end; vring.
Qed.
Lemma outer_mul : forall k q u, mmulv (mscale k (outer q)) u = vscale k (along q u).
Proof. intros k [a b c] [x y z]. unfold along. cbv beta iota zeta delta [mmulv mscale outer dot vscale mr0 mr1 mr2 vx vy vz]. apply v3eq; cbn [vx vy vz]; ring. Qed.
Lemma mzero_mul : forall u, mmulv mzero u = vzero.
Proof. intros [x y z]. unfold mzero, mmulv, dot, vzero. cbn [mr0 mr1 mr2 vx vy vz]. apply v3eq; cbn [vx vy vz]; ring. Qed.
Lemma morison_rod_mass : forall D e k ph be zeta u up uq M, sensible_rod D -> dot (rq D) (rq D) = 1 ->
  (forall j, wzeta k j = zeta) -> below D ph zeta -> splits (rq D) u up uq -> rM6net D e k ph be [] [] = Some M ->
  m6mulv M (V6 u vzero) = wrench_at (vscale (rlen D / 2) (rq D)) (vadd (vscale (rrho D * rod_volume D + rho_w e * rod_volume D * rCan D) up)
    (vscale (rrho D * rod_volume D + rho_w e * rod_volume D * rCat D + 2 * (rho_w e * rCaEnd D * half_sphere D)) uq)).
Proof.
  intros D e k ph be zeta u up uq M HS Q1 HZ HB SP HM. pose proof HS as (HN & Hd & Hr & HL & _).
  unfold rM6net in HM. apply obnd_some in HM. destruct HM as (Im & _ & HM). injection HM as <-.
  set (K := rM6 D (rMnet D e k ph [] []) (rn D + 1)).
  assert (E : m6mulv (M6 (m6tl K) (m6tr K) (m6bl K) (madd (m6br K) Im)) (V6 u vzero) = m6mulv K (V6 u vzero)).
  { unfold m6mulv. cbn [m6tl m6tr m6bl m6br v6hd v6tl]. rewrite mmulv_add_l. f_equal. f_equal. generalize (m6br K). intro b.
    assert (Z : forall m, mmulv m vzero = vzero) by (intros [[a1 a2 a3] [a4 a5 a6] [a7 a8 a9]]; unfold mmulv, dot, vzero; cbn [mr0 mr1 mr2 vx vy vz]; apply v3eq; cbn [vx vy vz]; ring). rewrite !Z. vring. }
  rewrite E. unfold K. rewrite rM6_lin by (intros; apply rMnet_sym; constructor).
  destruct (split_parts _ _ _ _ Q1 SP) as [P A]. destruct (below_ends D ph zeta HN Hd HB) as [BA BB].
  rewrite (F6_shape D _ (vadd (vscale (rArea D * rrho D * rl D) u) (vadd (vscale (rho_w e * rV D * rCan D) up) (vscale (rho_w e * rV D * rCat D) uq))) (vscale (rho_w e * rCaEnd D * rVend D) uq) (vscale (rho_w e * rCaEnd D * rVend D) uq) HN).
  2:{ intros i Hi. unfold rMnet, es_mass. cbn [fold_left]. rewrite !mmulv_add_l.
      replace (mmulv (if Nat.eqb i 0 then mzero else mzero) u) with vzero by (destruct (Nat.eqb _ _); symmetry; apply mzero_mul).
      replace (mmulv (if Nat.eqb i (rn D) then mzero else mzero) u) with vzero by (destruct (Nat.eqb _ _); symmetry; apply mzero_mul). rewrite !vadd_0_r.
      unfold rM. cbv zeta. rewrite (HZ (rn D)), (wet_end D ph zeta i Hd HB Hi), mmulv_add_l, mass_parts, outer_mul, P, A, rmi_hw, rvi_hw, rends_is by exact HN.
      rewrite (submerged_VOF D zeta ph i) by (auto; try lra; apply HB; exact Hi).
      generalize (rArea D) (rl D) (rV D) (rVend D) (hw D i). intros ar l v ve h. destruct (Nat.eqb i 0), (Nat.eqb i (rn D)); destruct u as [ua ub uc], up as [upa upb upc], uq as [uqa uqb uqc]; unfold vadd, vscale, vzero; cbn [vx vy vz]; apply v3eq; cbn [vx vy vz]; ring. }
  destruct SP as (EU & _ & c & EQ). unfold wrench_at. rewrite <- rVend_is.
  assert (MV : INR (rn D) * (rArea D * rrho D * rl D) = rrho D * rod_volume D).
  { rewrite <- (rV_is D HN). unfold rV, rArea. ring. }
  assert (TT : forall x, vadd (vscale (INR (rn D)) (vadd (vscale (rArea D * rrho D * rl D) u) (vadd (vscale (rho_w e * rV D * rCan D) up) (vscale (rho_w e * rV D * rCat D) uq)))) (vscale x uq) =
     vadd (vscale (rrho D * rod_volume D + rho_w e * rod_volume D * rCan D) up) (vscale (rrho D * rod_volume D + rho_w e * rod_volume D * rCat D + x) uq)).
  { intro x. rewrite <- MV, <- (rV_is D HN), EU. generalize (INR (rn D)) (rArea D) (rl D) (rV D) up uq. intros N ar l v [a1 a2 a3] [b1 b2 b3]. unfold vadd, vscale. cbn [vx vy vz]. apply v3eq; cbn [vx vy vz]; ring. }
  assert (Z : forall a x, cross (vscale a (rq D)) (vscale x uq) = vzero).
  { intros a x. rewrite EQ. generalize (rq D). intros [q1 q2 q3]. unfold cross, vscale, vzero. cbn [vx vy vz]. apply v3eq; cbn [vx vy vz]; ring. }
  f_equal.
  - rewrite <- (TT (2 * (rho_w e * rCaEnd D * rVend D))). f_equal. generalize (rVend D) uq. intros ve [b1 b2 b3]. unfold vadd, vscale. cbn [vx vy vz]. apply v3eq; cbn [vx vy vz]; ring.
  - rewrite Z, vadd_0_r, <- (TT (2 * (rho_w e * rCaEnd D * rVend D))), cross_add_r, Z, vadd_0_r. reflexivity.
Qed.
(* a neutral rod goes with the water *)
Lemma rod_drifts : forall D e k ph be zeta A M, sensible_rod D -> headed (rq D) -> rangles D = Ok (ph, be) -> rCat D = 0 -> rrho D = rho_w e ->
  (forall j, wzeta k j = zeta) -> below D ph zeta -> off_bottom D k -> uniform k (rn D) (rvA D) A -> rw D = vzero ->
  wpdyn k 0 - wpdyn k (rn D) = rho_w e * rlen D * dot A (rq D) -> rM6net D e k ph be [] [] = Some M ->
  m6mulv M (V6 A vzero) = rF6net D e k ph be [] [].
Proof.
  intros D e k ph be zeta A M HS HH HA HC HR HZ HB OB HU W0 HP HM.
  assert (Q1 := proj1 HH).
  assert (S1 : splits (rq D) (vsub (rvA D) (rvA D)) vzero vzero).
  { split; [rewrite vsub_self; vring|]. split; [unfold dot, vzero; cbn; ring|]. exists 0. generalize (rq D). vring. }
  assert (S2 : splits (rq D) A (across (rq D) A) (along (rq D) A)).
  { split; [unfold across; generalize A (along (rq D) A); vring|]. split; [|exists (dot A (rq D)); reflexivity]. unfold across, along.
    replace (dot (vsub A (vscale (dot A (rq D)) (rq D))) (rq D)) with (dot A (rq D) * (1 - dot (rq D) (rq D))). { rewrite Q1. ring. }
    generalize A (rq D). intros [a b c] [x y z]. unfold dot, vsub, vscale. cbn [vx vy vz]. ring. }
  rewrite (morison_rod D e k ph be zeta (rvA D) A vzero vzero (across (rq D) A) (along (rq D) A) HS HH HA HZ HB OB HU W0 S1 S2).
  rewrite (morison_rod_mass D e k ph be zeta A (across (rq D) A) (along (rq D) A) M HS Q1 HZ HB S2 HM). f_equal.
  rewrite HP, HC, HR. unfold total. cbn [fold_right]. change (along (rq D) A) with (vscale (dot A (rq D)) (rq D)). unfold wet_weight, drag_law, rod_volume.
  generalize (across (rq D) A) (dot A (rq D)) (rq D) (half_sphere D) (rod_end_area D) (norm vzero) (rlen D). intros [a b c] s [x y z] h ar n l. unfold vadd, vscale, vzero. cbn [vx vy vz]. apply v3eq; cbn [vx vy vz]; ring.
Qed.
(* points and bodies *)
Lemma point_stays : forall p e U, p_type p = PFree -> p_att p = [] -> p_F p = vzero -> p_rd p = U -> p_M p = rho_w e * p_V p -> point_deriv p e U = Ok (U, vzero).
Proof.
  intros p e U T A F R M. unfold point_deriv. rewrite T. unfold point_rhs. rewrite A, F, R. cbn [point_lines obind fst snd]. rewrite vsub_self, M. f_equal. f_equal.
  assert (Z : vadd (vadd vzero (V3 0 0 (gr e * (p_V p * rho_w e - rho_w e * p_V p)))) (vscale (0.5 * rho_w e * dot vzero vzero * p_CdA p) (vnormalized vzero)) = vzero).
  { replace (dot vzero vzero) with 0 by (unfold dot, vzero; cbn [vx vy vz]; ring). unfold vadd, vscale, vzero. cbn [vx vy vz]. apply v3eq; cbn [vx vy vz]; ring. }
  rewrite Z. generalize (minv (madd (mscale (rho_w e * p_V p) mid) (mscale (p_V p * rho_w e * p_Ca p) mid))). intros [[a b c] [d e' f] [g h i]]. unfold mmulv, dot, vzero. cbn [mr0 mr1 mr2 vx vy vz]. apply v3eq; cbn [vx vy vz]; ring.
Qed.
Lemma body_stays : forall b e U, b_type b = BFree -> b_v b = V6 U vzero -> b_M b = rho_w e * b_V b -> body_solves b (fst (body_rhs b e U [])) (snd (body_rhs b e U [])) v6zero.
Proof.
  intros b e U T V M. unfold body_solves. rewrite T. unfold body_rhs. cbn [fold_left fst snd]. rewrite V. cbn [v6hd v6tl].
  assert (G : body_Fgrav b e = vzero). { unfold body_Fgrav. rewrite M. unfold vzero. apply v3eq; cbn [vx vy vz]; ring. } rewrite G.
  assert (Z3 : forall m, mmulv m vzero = vzero) by (intros [[a1 a2 a3] [a4 a5 a6] [a7 a8 a9]]; unfold mmulv, dot, vzero; cbn [mr0 mr1 mr2 vx vy vz]; apply v3eq; cbn [vx vy vz]; ring).
  assert (C1 : forall a, cross vzero a = vzero) by vring. assert (C2 : forall a, cross a vzero = vzero) by vring.
  assert (DZ : body_drag b e U = v6zero).
  { unfold body_drag. rewrite V. cbn [v6hd v6tl]. rewrite vsub_self. replace (vscale (-1) vzero) with vzero by vring. rewrite !Z3, norm_vzero. unfold v6scale, v6zero. cbn [v6hd v6tl]. f_equal; vring. }
  rewrite DZ, !C1, C2, Z3. unfold m6mulv, v6zero, v6add. cbn [v6hd v6tl]. rewrite !Z3. f_equal; vring.
Qed.
Lemma body_drag_is : forall b e U s w, orthogonal (b_Or b) -> vsub U (v6hd (b_v b)) = mmulv (b_Or b) s -> vscale (-1) (v6tl (b_v b)) = mmulv (b_Or b) w ->
  body_drag b e U = V6 (mmulv (b_Or b) (V3 (1 / 2 * rho_w e * vx (v6hd (b_CdA b)) * norm s * vx s) (1 / 2 * rho_w e * vy (v6hd (b_CdA b)) * norm s * vy s) (1 / 2 * rho_w e * vz (v6hd (b_CdA b)) * norm s * vz s)))
    (mmulv (b_Or b) (V3 (1 / 2 * rho_w e * vx (v6tl (b_CdA b)) * norm w * vx w) (1 / 2 * rho_w e * vy (v6tl (b_CdA b)) * norm w * vy w) (1 / 2 * rho_w e * vz (v6tl (b_CdA b)) * norm w * vz w))).
Proof.
  intros b e U s w O E1 E2. unfold body_drag. rewrite E1, E2. cbv zeta.
  assert (N : forall x, norm (mmulv (b_Or b) x) = norm x) by (intro x; unfold norm; rewrite orth_dot by exact O; reflexivity).
  assert (K : forall d x, mmulv (mmul (mmul (b_Or b) (mdiag d)) (mtr (b_Or b))) (mmulv (b_Or b) x) = mmulv (b_Or b) (mmulv (mdiag d) x)).
  { intros d x. rewrite !mmulv_mmul, orth_cancel by exact O. reflexivity. }
  rewrite !N, !K. unfold v6scale. cbn [v6hd v6tl]. replace 0.5 with (1 / 2) by lra.
  generalize (b_Or b) (norm s) (norm w) (v6hd (b_CdA b)) (v6tl (b_CdA b)). intros [[a1 a2 a3] [a4 a5 a6] [a7 a8 a9]] n n' [c1 c2 c3] [d1 d2 d3]. destruct s as [sa sb sc], w as [wa wb wc].
  cbv beta iota zeta delta [mmulv mdiag dot vscale mr0 mr1 mr2 vx vy vz]. f_equal; apply v3eq; cbn [vx vy vz]; ring.
Qed.
