(** Proofs about the net force of a rod and its motion *)
From Coq Require Import Reals List Lra Lia Psatz Arith ZArith.
From Verif Require Import MErr MVec MStateOps MMat MInterp MLine MRod SMat SLine SRod PMat PEuler PLine PLineB PRod PRodB.
Import ListNotations.
Open Scope R_scope.

Lemma rF6_sums : forall D F n, (0 < rn D)%nat -> (n <= rn D + 1)%nat ->
  rF6 D F n = V6 (vsum n F) (vsum n (fun i => cross (vscale (INR i * rl D) (rq D)) (F i))).
Proof.
  intros D F n HN. induction n as [|n IH]; intros Hn; cbn [rF6 vsum]; [reflexivity|].
  rewrite IH by lia. unfold v6add. cbn [v6hd v6tl]. rewrite rnode_at by lia. f_equal. f_equal. f_equal.
  generalize (INR n * rl D) (rA D) (rq D). vring.
Qed.
Lemma vsum_const : forall n s c, vsum n (fun i => vscale (s i) c) = vscale (nsum n s) c.
Proof. induction n; intros; cbn [vsum nsum]; [generalize c; vring|]. rewrite IHn. generalize (nsum n s) (s n) c. vring. Qed.
Lemma vsum_at : forall n j (f : nat -> v3), (j < n)%nat -> vsum n (fun i => if Nat.eqb i j then f i else vzero) = f j.
Proof.
  induction n as [|n IH]; intros j f H; [lia|]. cbn [vsum]. destruct (Nat.eq_dec j n) as [->|E].
  - rewrite Nat.eqb_refl. rewrite vsum_zero; [generalize (f n); vring|]. intros i Hi. destruct (Nat.eqb_spec i n); [lia|reflexivity].
  - rewrite IH by lia. destruct (Nat.eqb_spec n j); [lia|]. generalize (f j). vring.
Qed.
Lemma cross_add_r : forall a b c, cross a (vadd b c) = vadd (cross a b) (cross a c). Proof. vring. Qed.
Lemma F6_shape : forall D F c a b, (0 < rn D)%nat ->
  (forall i, (i <= rn D)%nat -> F i = vadd (vscale (hw D i) c) (vadd (if Nat.eqb i 0 then a else vzero) (if Nat.eqb i (rn D) then b else vzero))) ->
  rF6 D F (rn D + 1) = V6 (vadd (vscale (INR (rn D)) c) (vadd a b))
                          (vadd (cross (vscale (rlen D / 2) (rq D)) (vscale (INR (rn D)) c)) (cross (vscale (rlen D) (rq D)) b)).
Proof.
  intros D F c a b HN HF. pose proof (N_pos D HN). rewrite rF6_sums by lia. f_equal.
  - erewrite (vsum_ext _ F) by (intros; apply HF; lia). rewrite !vsum_add, vsum_const, w_1 by assumption.
    rewrite (vsum_at _ 0 (fun _ => a)), (vsum_at _ (rn D) (fun _ => b)) by lia. reflexivity.
  - rewrite (vsum_ext _ _ (fun i => vadd (vscale (rl D * (hw D i * INR i)) (cross (rq D) c))
        (vadd (if Nat.eqb i 0 then cross (vscale (INR i * rl D) (rq D)) a else vzero) (if Nat.eqb i (rn D) then cross (vscale (INR i * rl D) (rq D)) b else vzero)))).
    + rewrite !vsum_add, vsum_const, nsum_scale, w_i by assumption.
      rewrite (vsum_at _ 0 (fun i => cross (vscale (INR i * rl D) (rq D)) a)), (vsum_at _ (rn D) (fun i => cross (vscale (INR i * rl D) (rq D)) b)) by lia.
      rewrite rl_pos_n by assumption. cbn [INR].
      replace (INR (rn D) * (rlen D / INR (rn D))) with (rlen D) by (field; lra).
      replace (rlen D / INR (rn D) * (INR (rn D) * INR (rn D) / 2)) with (rlen D / 2 * INR (rn D)) by (field; lra).
      generalize (rlen D / INR (rn D)) (rlen D) (rlen D / 2) (INR (rn D)) (rq D). vring.
    + intros i Hi. rewrite HF by lia. rewrite !cross_add_r.
      f_equal; [|destruct (Nat.eqb i 0), (Nat.eqb i (rn D)); f_equal; try reflexivity; generalize (INR i * rl D) (rq D); vring].
      generalize (INR i) (rl D) (hw D i) (rq D). vring.
Qed.
Lemma vz_node : forall D i, (0 < rn D)%nat -> (i <= rn D)%nat -> vz (rnode D i) = vz (rA D) + INR i * rl D * vz (rq D).
Proof. intros. rewrite rnode_at by assumption. reflexivity. Qed.
Lemma vz_B : forall D, (0 < rn D)%nat -> vz (rB D) = vz (rA D) + rlen D * vz (rq D).
Proof. intros. rewrite rB_pos_n by assumption. reflexivity. Qed.
Lemma node_N : forall D, (0 < rn D)%nat -> rnode D (rn D) = rB D.
Proof. intros D H. unfold rnode. destruct (Nat.eqb_spec (rn D) 0); [lia|]. rewrite Nat.eqb_refl. reflexivity. Qed.
Lemma node_0 : forall D, rnode D 0 = rA D. Proof. reflexivity. Qed.

(* what is left of the node forces when nothing moves *)
Lemma norm_vzero : norm vzero = 0.
Proof. unfold norm, dot, vzero. cbn [vx vy vz]. replace (0 * 0 + 0 * 0 + 0 * 0) with 0 by ring. apply sqrt_0. Qed.
Lemma still_forces : forall D e k ph be zeta i, (0 < rn D)%nat -> (i <= rn D)%nat -> calm k zeta -> off_bottom D k -> rvA D = vzero -> rw D = vzero ->
  rF D e k ph be i = vadd (rW D e i) (rBo D e zeta ph be i).
Proof.
  intros D e k ph be zeta i HN Hi (K1 & K2 & K3 & K4) OB V0 W0. unfold rF.
  assert (Z : vsub (wU k i) (rvel D i) = vzero). { rewrite rvel_at, K2, V0, W0 by assumption. generalize (INR i * rl D) (rq D). vring. }
  assert (Ac : across (rq D) vzero = vzero) by (unfold across, along; generalize (rq D); vring).
  assert (Al : along (rq D) vzero = vzero) by (unfold along; generalize (rq D); vring).
  assert (VS : forall x, vscale x vzero = vzero) by (intros; vring).
  assert (rDp D e k ph i = vzero) as ->. { unfold rDp. cbv zeta. rewrite Z, Ac, VS. destruct (Nat.eqb _ _); reflexivity. }
  assert (rDq D e k ph i = vzero) as ->. { unfold rDq. cbv zeta. rewrite Z, Al, VS. destruct (rwetEnd _ _ _ _); reflexivity. }
  assert (rAp D e k ph i = vzero) as ->. { unfold rAp. cbv zeta. rewrite K3, Ac, VS. destruct (Nat.eqb _ _); reflexivity. }
  assert (rAq D e k ph i = vzero) as ->. { unfold rAq. cbv zeta. rewrite K3, Al, VS. destruct (rwetEnd _ _ _ _); reflexivity. }
  assert (rPd D e k ph i = vzero) as ->.
  { unfold rPd. cbv zeta. rewrite K4. destruct (rwetEnd _ _ _ _); [|reflexivity].
    destruct (Nat.eqb i 0), (Nat.eqb i (rn D)); generalize (rVOF D (wzeta k (rn D)) ph i * rArea D) (rq D); vring. }
  assert (rBot D e k i = vzero) as ->.
  { unfold rBot. cbv zeta. pose proof (OB i Hi). destruct (Nat.eqb _ _); [reflexivity|]. destruct (Rlt_dec _ _); [lra|reflexivity]. }
  rewrite K1. rewrite !vadd_0_r. reflexivity.
Qed.
Lemma below_ends : forall D ph zeta, (0 < rn D)%nat -> 0 < rdia D -> below D ph zeta -> vz (rA D) < zeta /\ vz (rB D) < zeta.
Proof.
  intros D ph zeta HN Hd H. pose proof (H 0%nat ltac:(lia)) as A. pose proof (H (rn D) ltac:(lia)) as B. unfold rz1hi in *.
  rewrite node_N in B by assumption. rewrite node_0 in A. pose proof (Rabs_pos (sin ph)). split; nra.
Qed.
Lemma rod_archimedes : forall D e k ph be zeta, sensible_rod D -> headed (rq D) -> rangles D = Ok (ph, be) ->
  calm k zeta -> off_bottom D k -> rvA D = vzero -> rw D = vzero -> below D ph zeta ->
  rF6net D e k ph be [] [] =
  wrench_at (vscale (rlen D / 2) (rq D)) (V3 0 0 ((rho_w e * (PI / 4 * rdia D * rdia D * rlen D) - rmass D) * gr e)).
Proof.
  intros D e k ph be zeta HS HH HA HK OB V0 W0 HB. destruct HS as (HN & Hd & Hr & HL & _).
  pose proof (N_pos D HN). destruct (below_ends D ph zeta HN Hd HB) as [BA BB].
  rewrite angles_n in HA by assumption. destruct (headed_ok _ _ _ HH HA) as [Q S0]. pose proof (sc1 ph) as SP. pose proof (sc1 be) as SB.
  change (forall i, (i <= rn D)%nat -> rz1hi D ph i < zeta) in HB.
  assert (VF : forall i, (i <= rn D)%nat -> rVOF D zeta ph i = 1) by (intros; apply submerged_VOF; auto; lra).
  assert (LO : forall i, (i <= rn D)%nat -> rz1lo D ph i < zeta).
  { intros i Hi. pose proof (HB i Hi). unfold rz1lo, rz1hi in *. pose proof (Rabs_pos (sin ph)). nra. }
  assert (WE : forall i, (i <= rn D)%nat -> rwetEnd D zeta ph i = true).
  { intros i Hi. unfold rwetEnd. destruct (Rlt_dec _ zeta); [reflexivity|]. pose proof (LO i Hi). lra. }
  assert (SEC : forall i, (i <= rn D)%nat -> snd (rsection D zeta ph i) = vz (rnode D i)).
  { intros i Hi. unfold rsection. pose proof (HB i Hi). pose proof (LO i Hi). destruct (Rlt_dec zeta _); [lra|]. destruct (Rlt_dec _ zeta); [reflexivity|lra]. }
  set (G := rho_w e * gr e).
  set (cb := V3 (- (rV D * G * sin ph) * cos be * cos ph) (- (rV D * G * sin ph) * sin be * cos ph) (rV D * G * sin ph * sin ph)).
  set (c := vadd (V3 0 0 (- (rArea D * rrho D * rl D) * gr e)) cb).
  set (a := vscale (- (rArea D * G * vz (rA D))) (rq D)). set (b := vscale (rArea D * G * vz (rB D)) (rq D)).
  unfold rF6net. rewrite (F6_shape D _ c a b HN).
  2: { intros i Hi. unfold rFnet, es_force. cbn [fold_left].
       replace (if Nat.eqb i 0 then vzero else vzero) with vzero by (destruct (Nat.eqb _ _); reflexivity).
       replace (if Nat.eqb i (rn D) then vzero else vzero) with vzero by (destruct (Nat.eqb _ _); reflexivity). rewrite !vadd_0_r.
       rewrite (still_forces D e k ph be zeta i HN Hi HK OB V0 W0). unfold rW, rBo, rBoSide, rBoEnd. rewrite (WE i Hi), (VF i Hi), (SEC i Hi).
       destruct (Nat.eqb_spec (rn D) 0); [lia|].
       assert (IA : i = 0%nat -> vz (rnode D i) = vz (rA D)) by (intros ->; reflexivity).
       assert (IB : i = rn D -> vz (rnode D i) = vz (rB D)) by (intros ->; rewrite node_N by assumption; reflexivity).
       assert (QQ : forall x y, x = y -> V3 (x * cos be * sin ph) (x * sin be * sin ph) (x * cos ph) = vscale y (rq D)).
       { intros x y ->. rewrite Q. unfold vscale. cbn [vx vy vz]. apply v3eq; cbn [vx vy vz]; ring. }
       assert (EA : (if Nat.eqb i 0 then V3 (-1 * 1 * rArea D * rho_w e * gr e * vz (rnode D i) * cos be * sin ph) (-1 * 1 * rArea D * rho_w e * gr e * vz (rnode D i) * sin be * sin ph) (-1 * 1 * rArea D * rho_w e * gr e * vz (rnode D i) * cos ph) else vzero)
           = if Nat.eqb i 0 then a else vzero).
       { destruct (Nat.eqb_spec i 0) as [E0|E0]; [|reflexivity]. apply QQ. rewrite (IA E0). unfold G. ring. }
       assert (EB : (if Nat.eqb i (rn D) then V3 (1 * 1 * rArea D * rho_w e * gr e * vz (rnode D i) * cos be * sin ph) (1 * 1 * rArea D * rho_w e * gr e * vz (rnode D i) * sin be * sin ph) (1 * 1 * rArea D * rho_w e * gr e * vz (rnode D i) * cos ph) else vzero)
           = if Nat.eqb i (rn D) then b else vzero).
       { destruct (Nat.eqb_spec i (rn D)) as [E0|E0]; [|reflexivity]. apply QQ. rewrite (IB E0). unfold G. ring. }
       cbv zeta. rewrite EA, EB. rewrite rmi_hw, rvi_hw. unfold c, cb, G.
       generalize (if Nat.eqb i 0 then a else vzero) (if Nat.eqb i (rn D) then b else vzero). intros [a1 a2 a3] [b1 b2 b3].
       unfold vadd, vscale. cbn [vx vy vz]. apply v3eq; cbn [vx vy vz]; ring. }
  cbn [v6hd v6tl].
  assert (ME : rMext D e k ph be [] [] = vzero).
  { unfold rMext, es_moment. cbn [fold_left]. destruct HK as (K1 & _). rewrite K1. unfold rMEnd. rewrite !WE by lia. rewrite !VF by lia.
    destruct (Rlt_dec _ zeta); [|lra]. destruct (Rlt_dec zeta _); [lra|]. unfold vadd, vzero. cbn [vx vy vz]. apply v3eq; cbn [vx vy vz]; field. }
  rewrite ME, vadd_0_r.
  assert (CZ : vz (rq D) = cos ph) by (rewrite Q; reflexivity).
  assert (NC : vscale (INR (rn D)) c = vadd (V3 0 0 ((rho_w e * (PI / 4 * rdia D * rdia D * rlen D) - rmass D) * gr e)) (vscale (- (G * (PI / 4 * rdia D * rdia D * rlen D) * cos ph)) (rq D))).
  { assert (E25 : 0.25 = / 4) by lra.
    unfold c, cb, G, rV, rArea, rmass. rewrite E25, rl_pos_n, Q by assumption. unfold vadd, vscale. cbn [vx vy vz].
    apply v3eq; cbn [vx vy vz]; try (field; lra).
    replace (sin ph * sin ph) with (1 - cos ph * cos ph) by lra.
    match goal with |- ?l = ?r => replace l with (((- (/ 4 * PI * rdia D * rdia D * rrho D * (rlen D / INR (rn D))) * gr e) + rlen D / INR (rn D) * / 4 * PI * rdia D * rdia D * (rho_w e * gr e) * (sin ph * sin ph)) * INR (rn D)) by ring end.
    replace (sin ph * sin ph) with (1 - cos ph * cos ph) by lra. field. lra. }
  unfold wrench_at. f_equal.
  - rewrite NC. unfold a, b. rewrite vz_B, CZ by assumption. assert (E25 : 0.25 = / 4) by lra. unfold rArea. rewrite E25.
    generalize (rq D) G ((rho_w e * (PI / 4 * rdia D * rdia D * rlen D) - rmass D) * gr e) (vz (rA D)) (cos ph) (rdia D) (rlen D).
    intros [q1 q2 q3] g0 f0 z0 c0 d0 l0. unfold vadd, vscale. cbn [vx vy vz]. apply v3eq; cbn [vx vy vz]; field.
  - rewrite NC. unfold b. generalize (rq D) G ((rho_w e * (PI / 4 * rdia D * rdia D * rlen D) - rmass D) * gr e) (PI / 4 * rdia D * rdia D * rlen D) (cos ph) (rlen D / 2) (rlen D) (rArea D) (vz (rB D)).
    intros [q1 q2 q3] g0 f0 z0 c0 d0 l0 ar zb. unfold vadd, vscale, cross. cbn [vx vy vz]. apply v3eq; cbn [vx vy vz]; ring.
Qed.

(* ----- a vertical rod through the surface ----- *)
Lemma rod_partly : forall D e k ph be, sensible_rod D -> rq D = V3 0 0 1 -> rangles D = Ok (ph, be) ->
  calm k 0 -> off_bottom D k -> rvA D = vzero -> rw D = vzero -> vz (rA D) < 0 < vz (rB D) ->
  let h := - vz (rA D) in
  v6hd (rF6net D e k ph be [] []) =
  V3 0 0 (rho_w e * (PI / 4 * rdia D * rdia D * h) * gr e * Rmin 1 (h / (rlen D / (2 * INR (rn D)))) - rmass D * gr e).
Proof.
  intros D e k ph be HS Hq HA HK OB V0 W0 [ZA ZB] h. destruct HS as (HN & Hd & Hr & HL & _). pose proof (N_pos D HN) as HNp.
  destruct (up_angles D ph be HN HA) as [S C]; rewrite ?Hq; try reflexivity. { unfold dot. cbn [vx vy vz]. ring. }
  rewrite Hq in C. cbn [vz] in C.
  assert (LO : forall i, rz1lo D ph i = vz (rnode D i)) by (intros; unfold rz1lo; rewrite S, Rabs_R0; ring).
  assert (HI : forall i, rz1hi D ph i = vz (rnode D i)) by (intros; unfold rz1hi; rewrite S, Rabs_R0; ring).
  set (F := rVOF D 0 ph 0). set (a := V3 0 0 (F * rArea D * rho_w e * gr e * h)).
  set (c := V3 0 0 (- (rArea D * rrho D * rl D) * gr e)).
  unfold rF6net. cbn [v6hd]. rewrite (F6_shape D _ c a vzero HN).
  2: { intros i Hi. unfold rFnet, es_force. cbn [fold_left].
       replace (if Nat.eqb i 0 then vzero else vzero) with vzero by (destruct (Nat.eqb _ _); reflexivity).
       replace (if Nat.eqb i (rn D) then vzero else vzero) with vzero by (destruct (Nat.eqb _ _); reflexivity). rewrite !vadd_0_r.
       rewrite (still_forces D e k ph be 0 i HN Hi HK OB V0 W0). unfold rW, rBo, rBoSide, rBoEnd.
       destruct (Nat.eqb_spec (rn D) 0); [lia|]. rewrite S, C.
       assert (EA : (if Nat.eqb i 0 then (if rwetEnd D 0 ph i then let F := -1 * rVOF D 0 ph i * rArea D * rho_w e * gr e * snd (rsection D 0 ph i) in V3 (F * cos be * 0) (F * sin be * 0) (F * 1) else vzero) else vzero)
          = if Nat.eqb i 0 then a else vzero).
       { destruct (Nat.eqb_spec i 0) as [->|E0]; [|reflexivity]. unfold rwetEnd. rewrite LO, node_0. destruct (Rlt_dec _ 0); [|lra].
         unfold rsection. rewrite LO, HI, node_0. destruct (Rlt_dec 0 _); [lra|]. destruct (Rlt_dec _ 0); [|lra]. cbn [snd]. unfold a, F, h.
         cbv zeta. apply v3eq; cbn [vx vy vz]; ring. }
       assert (EB : (if Nat.eqb i (rn D) then (if rwetEnd D 0 ph i then let F := 1 * rVOF D 0 ph i * rArea D * rho_w e * gr e * snd (rsection D 0 ph i) in V3 (F * cos be * 0) (F * sin be * 0) (F * 1) else vzero) else vzero) = if Nat.eqb i (rn D) then vzero else vzero).
       { destruct (Nat.eqb_spec i (rn D)) as [->|E0]; [|reflexivity]. unfold rwetEnd. rewrite LO, node_N by assumption. destruct (Rlt_dec _ 0); [lra|]. reflexivity. }
       cbv zeta in EA, EB |- *. rewrite EA, EB. rewrite rmi_hw. unfold c. destruct (Nat.eqb i (rn D)); rewrite ?vadd_0_r.
       all: generalize (if Nat.eqb i 0 then a else vzero); intros [a1 a2 a3]; unfold vadd, vscale, vzero; cbn [vx vy vz]; apply v3eq; cbn [vx vy vz]; ring. }
  cbn [v6hd]. rewrite vadd_0_r.
  assert (HB := vz_B D HN). rewrite Hq in HB. cbn [vz] in HB.
  assert (FE : F = Rmin 1 (h / (rlen D / (2 * INR (rn D))))).
  { unfold F. rewrite vertical_VOF by (rewrite ?C; lra). cbn [rLsum].
    assert (rh0 D 0 = h) as ->. { unfold rh0. destruct (Rlt_dec _ 0); [|lra]. destruct (Rlt_dec _ 0); [lra|]. destruct (Rlt_dec 0 _); [|lra]. rewrite Hq. cbn [vz]. unfold h. field. }
    rewrite rdL_hw. unfold hw. cbn [Nat.eqb]. rewrite rl_pos_n by assumption.
    replace (rlen D / INR (rn D) * / 2) with (rlen D / (2 * INR (rn D))) by (field; lra).
    assert (HP : 0 < rlen D / (2 * INR (rn D))) by (apply Rmult_lt_0_compat; [lra | apply Rinv_0_lt_compat; lra]).
    set (d := rlen D / (2 * INR (rn D))) in *. assert (0 < h) by (unfold h; lra). assert (HX : h / d * d = h) by (field; lra).
    unfold vof0. destruct (Rlt_dec h 0); [lra|]. destruct (Rle_dec (0 + d) h).
    - rewrite Rmin_left; [reflexivity|]. nra.
    - destruct (Rlt_dec 0 h); [|lra]. rewrite Rmin_right; [f_equal; ring|]. nra. }
  rewrite <- FE. unfold c, a, rArea, rmass. rewrite rl_pos_n by assumption. unfold vadd, vscale. cbn [vx vy vz].
  assert (E25 : 0.25 = / 4) by lra. rewrite E25. apply v3eq; cbn [vx vy vz]; try ring. field. lra.
Qed.

(* ----- motion of the centre of mass ----- *)
Lemma mmulv_add_l : forall A B v, mmulv (madd A B) v = vadd (mmulv A v) (mmulv B v).
Proof. intros [[a b c] [d e f] [g h i]] [[a' b' c'] [d' e' f'] [g' h' i']] [x y z]. unfold mmulv, madd, vadd, dot. cbn [mr0 mr1 mr2 vx vy vz]. apply v3eq; cbn [vx vy vz]; ring. Qed.
Lemma mmulv_add_r : forall A u v, mmulv A (vadd u v) = vadd (mmulv A u) (mmulv A v).
Proof. intros [[a b c] [d e f] [g h i]] [x y z] [x' y' z']. unfold mmulv, vadd, dot. cbn [mr0 mr1 mr2 vx vy vz]. apply v3eq; cbn [vx vy vz]; ring. Qed.
Lemma rM6_force : forall D M n x, v6hd (m6mulv (rM6 D M n) x) = vsum n (fun i => mmulv (M i) (velocity_at (vsub (rnode D i) (rA D)) x)).
Proof.
  induction n as [|n IH]; intros x; cbn [rM6 vsum].
  - unfold m6mulv. cbn [v6hd m6tl m6tr]. destruct x as [[a b c] [d e f]]. unfold mzero, mmulv, dot, vadd, vzero. cbn [mr0 mr1 mr2 vx vy vz v6hd v6tl]. apply v3eq; cbn [vx vy vz]; ring.
  - rewrite <- IH. unfold translateMass. set (r := vsub _ _). clearbody r. set (K := rM6 D M n). clearbody K. generalize (M n). intros m.
    destruct K as [k1 k2 k3 k4]. destruct x as [p w]. unfold m6mulv, m6add, velocity_at. cbn [v6hd v6tl m6tl m6tr].
    rewrite <- getH_cross. generalize (getH r). intros H. rewrite mmulv_add_l, mmulv_add_l, mmulv_mmul, mmulv_add_r.
    generalize (mmulv k1 p) (mmulv m p) (mmulv k2 w) (mmulv m (mmulv H w)). vring.
Qed.
Lemma vacuum_forces : forall D e k ph be zeta i, (0 < rn D)%nat -> (i <= rn D)%nat -> calm k zeta -> off_bottom D k -> rho_w e = 0 ->
  rF D e k ph be i = rW D e i.
Proof.
  intros D e k ph be zeta i HN Hi (K1 & K2 & K3 & K4) OB E0. unfold rF.
  assert (VS : forall x, vscale x vzero = vzero) by (intros; vring).
  assert (V0 : forall x, vscale 0 x = vzero) by (intros; vring).
  assert (Ac : across (rq D) vzero = vzero) by (unfold across, along; generalize (rq D); vring).
  assert (Al : along (rq D) vzero = vzero) by (unfold along; generalize (rq D); vring).
  assert (rDp D e k ph i = vzero) as ->.
  { unfold rDp. cbv zeta. rewrite E0. destruct (Nat.eqb _ _); [reflexivity|].
    match goal with |- vscale ?x _ = _ => replace x with 0 by ring end. apply V0. }
  assert (rDq D e k ph i = vzero) as ->.
  { unfold rDq. cbv zeta. rewrite E0. destruct (rwetEnd _ _ _ _); [|reflexivity].
    match goal with |- vscale ?x _ = _ => replace x with 0 by ring end. apply V0. }
  assert (rAp D e k ph i = vzero) as ->. { unfold rAp. cbv zeta. rewrite K3, Ac, VS. destruct (Nat.eqb _ _); reflexivity. }
  assert (rAq D e k ph i = vzero) as ->. { unfold rAq. cbv zeta. rewrite K3, Al, VS. destruct (rwetEnd _ _ _ _); reflexivity. }
  assert (rPd D e k ph i = vzero) as ->.
  { unfold rPd. cbv zeta. rewrite K4. destruct (rwetEnd _ _ _ _); [|reflexivity].
    destruct (Nat.eqb i 0), (Nat.eqb i (rn D)); generalize (rVOF D (wzeta k (rn D)) ph i * rArea D) (rq D); vring. }
  assert (rBot D e k i = vzero) as ->.
  { unfold rBot. cbv zeta. pose proof (OB i Hi). destruct (Nat.eqb _ _); [reflexivity|]. destruct (Rlt_dec _ _); [lra|reflexivity]. }
  assert (rBo D e (wzeta k (rn D)) ph be i = vzero) as ->.
  { assert (EE : forall s, rBoEnd D e (wzeta k (rn D)) ph be s i = vzero).
    { intros s. unfold rBoEnd. rewrite E0. destruct (rwetEnd _ _ _ _); [|reflexivity]. unfold vzero. apply v3eq; cbn [vx vy vz]; ring. }
    unfold rBo. rewrite !EE.
    replace (rBoSide D e (wzeta k (rn D)) ph be i) with vzero.
    - destruct (Nat.eqb i 0), (Nat.eqb i (rn D)); vring.
    - unfold rBoSide. rewrite E0. destruct (Nat.eqb _ _); [reflexivity|]. unfold vzero. apply v3eq; cbn [vx vy vz]; ring. }
  rewrite !vadd_0_r. reflexivity.
Qed.
Lemma rMnet_vacuum : forall D e k ph i v, rho_w e = 0 -> mmulv (rMnet D e k ph [] [] i) v = vscale (rmi D i) v.
Proof.
  intros D e k ph i v E0. unfold rMnet, rM, es_mass. cbn [fold_left]. rewrite E0.
  replace (if Nat.eqb i 0 then mzero else mzero) with mzero by (destruct (Nat.eqb _ _); reflexivity).
  replace (if Nat.eqb i (rn D) then mzero else mzero) with mzero by (destruct (Nat.eqb _ _); reflexivity).
  assert (Z : forall w, mmulv mzero w = vzero) by (intros [a b c]; unfold mmulv, mzero, dot, vzero; cbn [mr0 mr1 mr2 vx vy vz]; apply v3eq; cbn [vx vy vz]; ring).
  assert (SC : forall x m w, mmulv (mscale x m) w = vscale x (mmulv m w)).
  { intros x [[a b c] [d f g] [h j l]] [o p q]. unfold mmulv, mscale, vscale, dot. cbn [mr0 mr1 mr2 vx vy vz]. apply v3eq; cbn [vx vy vz]; ring. }
  rewrite !mmulv_add_l, Z. rewrite !SC. rewrite mmulv_id.
  assert (V0 : forall x y, x = 0 -> vscale x y = vzero) by (intros x y ->; generalize y; vring).
  rewrite (V0 (rVOF D (wzeta k (rn D)) ph i * 0 * rvi D i)) by ring. rewrite !vadd_0_r.
  destruct (rwetEnd _ _ _ _); [rewrite SC; match goal with |- vadd _ (vscale ?x ?y) = _ => rewrite (V0 x y) by ring end | rewrite Z]; apply vadd_0_r.
Qed.
Lemma rod_com : forall D e k ph be zeta M a, sensible_rod D -> rho_w e = 0 -> calm k zeta -> off_bottom D k ->
  rM6net D e k ph be [] [] = Some M -> m6mulv M a = rF6net D e k ph be [] [] ->
  let rc := vscale (rlen D / 2) (rq D) in
  acceleration_at rc (v6hd a) (v6tl a) (rw D) = vadd (V3 0 0 (- gr e)) (cross (rw D) (cross (rw D) rc)).
Proof.
  intros D e k ph be zeta M a HS E0 HK OB HM HE rc. destruct HS as (HN & Hd & Hr & HL & _). pose proof (N_pos D HN) as HNp.
  unfold acceleration_at. f_equal.
  assert (TOP : v6hd (m6mulv M a) = vsum (rn D + 1) (fun i => vscale (rmi D i) (velocity_at (vsub (rnode D i) (rA D)) a))).
  { unfold rM6net in HM. destruct (rImat D ph be) as [I|]; [|discriminate]. cbn [obnd] in HM. injection HM; intros; subst M.
    erewrite vsum_ext by (intros; symmetry; apply rMnet_vacuum; exact E0). rewrite <- rM6_force. reflexivity. }
  rewrite HE in TOP. unfold rF6net in TOP. cbn [v6hd] in TOP. rewrite rF6_sums in TOP by lia. cbn [v6hd] in TOP.
  rewrite (vsum_ext _ (rFnet D e k ph be [] []) (fun i => vscale (rmi D i) (V3 0 0 (- gr e)))) in TOP.
  2: { intros i Hi. unfold rFnet, es_force. cbn [fold_left].
       replace (if Nat.eqb i 0 then vzero else vzero) with vzero by (destruct (Nat.eqb _ _); reflexivity).
       replace (if Nat.eqb i (rn D) then vzero else vzero) with vzero by (destruct (Nat.eqb _ _); reflexivity). rewrite !vadd_0_r.
       rewrite (vacuum_forces D e k ph be zeta i HN ltac:(lia) HK OB E0). unfold rW. destruct (Nat.eqb_spec (rn D) 0); [lia|].
       unfold vscale. cbn [vx vy vz]. apply v3eq; cbn [vx vy vz]; ring. }
  rewrite vsum_const in TOP.
  assert (SM : nsum (rn D + 1) (rmi D) = rmass D).
  { rewrite (nsum_ext _ _ (fun i => rArea D * rrho D * rl D * hw D i)) by (intros; apply rmi_hw). rewrite nsum_scale, w_1 by assumption.
    rewrite rl_pos_n by assumption. unfold rArea, rmass. field. lra. }
  rewrite SM in TOP.
  assert (SV : vsum (rn D + 1) (fun i => vscale (rmi D i) (velocity_at (vsub (rnode D i) (rA D)) a)) = vscale (rmass D) (vadd (v6hd a) (cross (v6tl a) rc))).
  { rewrite (vsum_ext _ _ (fun i => vadd (vscale (rArea D * rrho D * rl D * hw D i) (v6hd a)) (vscale (rArea D * rrho D * rl D * rl D * (hw D i * INR i)) (cross (v6tl a) (rq D))))).
    2: { intros i Hi. rewrite node_vel by lia. rewrite rmi_hw.
         generalize (rArea D * rrho D) (rl D) (hw D i) (INR i) (v6hd a) (cross (v6tl a) (rq D)). vring. }
    rewrite vsum_add, !vsum_const, !nsum_scale, w_1, w_i by assumption. rewrite rl_pos_n by assumption.
    replace (rArea D * rrho D * (rlen D / INR (rn D)) * INR (rn D)) with (rmass D) by (unfold rmass, rArea; field; lra).
    replace (rArea D * rrho D * (rlen D / INR (rn D)) * (rlen D / INR (rn D)) * (INR (rn D) * INR (rn D) / 2)) with (rmass D * (rlen D / 2)) by (unfold rmass, rArea; field; lra).
    unfold rc. generalize (rmass D) (rlen D / 2) (v6hd a) (v6tl a) (rq D). vring. }
  rewrite SV in TOP.
  assert (MP : 0 < rmass D). { unfold rmass. pose proof (area_pos D Hd). replace (rlen D * 0.25 * PI * rdia D * rdia D * rrho D) with (rlen D * (0.25 * PI * rdia D * rdia D) * rrho D) by ring. apply Rmult_lt_0_compat; [|lra]. apply Rmult_lt_0_compat; lra. }
  symmetry. destruct (vadd (v6hd a) (cross (v6tl a) rc)) as [p1 p2 p3]. unfold vscale in TOP. cbn [vx vy vz] in TOP.
  injection TOP; intros T3 T2 T1. apply v3eq; cbn [vx vy vz]; apply (Rmult_eq_reg_l (rmass D)); lra.
Qed.
Lemma spin_extra : forall w q L, dot q q = 1 -> dot w q = 0 -> w <> vzero -> L <> 0 -> cross w (cross w (vscale (L / 2) q)) <> vzero.
Proof.
  intros w q L Hq Hw Hn HL E.
  assert (X : dot (cross w (cross w (vscale (L / 2) q))) q = - (L / 2) * (dot w w * dot q q - dot w q * dot w q)).
  { destruct w as [a b c], q as [x y z]. unfold dot, cross, vscale. cbn [vx vy vz]. ring. }
  rewrite E, Hq, Hw in X. replace (dot vzero q) with 0 in X by (destruct q as [x y z]; unfold dot, vzero; cbn [vx vy vz]; ring).
  assert (dot w w = 0) by nra. apply Hn. destruct w as [a b c]. unfold dot in *. cbn [vx vy vz] in *. apply v3eq; cbn [vx vy vz vzero]; nra.
Qed.

(* ----- positive definite mass ----- *)
Lemma dot_zero : forall a, dot a a = 0 -> a = vzero.
Proof. intros [x y z]. unfold dot. cbn [vx vy vz]. intros H. apply v3eq; cbn [vx vy vz vzero]; nra. Qed.
Lemma cylinder_pos : forall m L r q t, 0 < m -> 0 < L -> 0 < r -> dot q q = 1 -> t <> v6zero -> 0 < cylinder_energy m L r q t.
Proof.
  intros m L r q t Hm HL Hr Hq Ht. unfold cylinder_energy. cbv zeta. set (w := v6tl t). set (c := velocity_at _ t).
  pose proof (dot_pos c) as P1. pose proof (cross_sq w q Hq) as X. pose proof (dot_pos (cross w q)) as P2. pose proof (Rle_0_sqr (dot w q)) as P3. unfold Rsqr in P3.
  set (K1 := m * (r * r / 4 + L * L / 12)). set (K2 := m * (r * r) / 2).
  assert (0 < K1) by (unfold K1; apply Rmult_lt_0_compat; [exact Hm|]; nra). assert (0 < K2) by (unfold K2; assert (0 < r * r) by nra; assert (0 < m * (r * r)) by (apply Rmult_lt_0_compat; assumption); lra).
  assert (0 <= m * dot c c) by (apply Rmult_le_pos; lra). assert (0 <= K1 * dot (cross w q) (cross w q)) by (apply Rmult_le_pos; lra).
  assert (0 <= K2 * (dot w q * dot w q)) by (apply Rmult_le_pos; lra).
  rewrite <- X. destruct (Req_dec (m * dot c c + K1 * dot (cross w q) (cross w q) + K2 * (dot w q * dot w q)) 0) as [E|E]; [|lra].
  exfalso. apply Ht.
  assert (Z1 : dot c c = 0) by nra. assert (Z2 : dot (cross w q) (cross w q) = 0) by nra. assert (Z3 : dot w q * dot w q = 0) by nra.
  assert (W : w = vzero) by (apply dot_zero; lra). apply dot_zero in Z1. unfold c, velocity_at in Z1. fold w in Z1. rewrite W in Z1.
  assert (V : v6hd t = vzero). { revert Z1. generalize (v6hd t) (vscale (L / 2) q). intros [a1 a2 a3] [b1 b2 b3]. unfold vadd, cross, vzero. cbn [vx vy vz]. intros Z. injection Z; intros. apply v3eq; cbn [vx vy vz]; lra. }
  destruct t as [v' w']. cbn [v6hd v6tl] in *. subst w. unfold v6zero. congruence.
Qed.
Lemma rmass_pos : forall D, sensible_rod D -> 0 < rmass D.
Proof.
  intros D (HN & Hd & Hr & HL & _). unfold rmass. pose proof (area_pos D Hd).
  replace (rlen D * 0.25 * PI * rdia D * rdia D * rrho D) with (rlen D * (0.25 * PI * rdia D * rdia D) * rrho D) by ring. apply Rmult_lt_0_compat; [|lra]. apply Rmult_lt_0_compat; lra.
Qed.
Lemma rod_inertia : forall D e k ph be, sensible_rod D -> few_segments D -> headed (rq D) -> rangles D = Ok (ph, be) -> rho_w e = 0 ->
  exists M, rM6net D e k ph be [] [] = Some M /\ symmetric6 M /\
  forall t, energy6 M t = cylinder_energy (rmass D) (rlen D) (rdia D / 2) (rq D) t.
Proof.
  intros D e k ph be HS HF HH HA E0. destruct (rod_energy D e k ph be [] [] (proj1 HS) HF HH HA) as (M & M1 & M2 & M3); try constructor.
  exists M. split; [exact M1|]. split; [exact M2|]. intros t. rewrite M3.
  rewrite (nsum_ext _ _ (fun _ => 0 * 1)) by (intros; rewrite radded_vacuum by exact E0; ring). rewrite nsum_scale. ring.
Qed.
Lemma rod_inertia_wet : forall D e k ph be a b, sensible_rod D -> few_segments D -> headed (rq D) -> rangles D = Ok (ph, be) -> 0 <= rho_w e ->
  proper_lines a -> proper_lines b ->
  exists M, rM6net D e k ph be a b = Some M /\ symmetric6 M /\
  (forall t, cylinder_energy (rmass D) (rlen D) (rdia D / 2) (rq D) t <= energy6 M t) /\ forall t, t <> v6zero -> 0 < energy6 M t.
Proof.
  intros D e k ph be a b HS HF HH HA E0 Ha Hb.
  assert (SY : forall l, proper_lines l -> lines_sym l /\ lines_nonneg l).
  { intros l Hl. split; (eapply Forall_impl; [|exact Hl]); intros s [? ?]; assumption. }
  destruct (SY a Ha), (SY b Hb).
  destruct (rod_energy D e k ph be a b (proj1 HS) HF HH HA) as (M & M1 & M2 & M3); try assumption.
  assert (LE : forall t, cylinder_energy (rmass D) (rlen D) (rdia D / 2) (rq D) t <= energy6 M t).
  { intros t. rewrite M3. match goal with |- _ <= _ + ?S => assert (0 <= S) end; [|lra].
    apply nsum_nonneg. intros. apply radded_nonneg; try assumption. exact (proj1 HH). }
  exists M. repeat split; try assumption. intros t Ht. pose proof (LE t). pose proof (rmass_pos D HS).
  destruct HS as (HN & Hd & Hr & HL & _). pose proof (cylinder_pos (rmass D) (rlen D) (rdia D / 2) (rq D) t H4 HL ltac:(lra) (proj1 HH) Ht). lra.
Qed.
Lemma many_segments : forall D e k ph be a b, rn D = Z.to_nat 65536 -> rM6net D e k ph be a b = None.
Proof.
  intros D e k ph be a b H. unfold rM6net, rImat, rIr, six_n_n. rewrite H. rewrite Z2Nat.id by lia.
  destruct (Nat.eqb_spec (Z.to_nat 65536) 0) as [E|_]; [lia|].
  change ((6 * 65536 * 65536) mod 2 ^ 32)%Z with 0%Z. unfold fdiv. destruct (Req_EM_T 0 0); [reflexivity|contradiction].
Qed.

(* ----- examples ----- *)
Definition rod1 (q a w : v3) : rod := Rod 2 0.5 8000 4 1 0.1 1.2 0.8 0.6 q a vzero w.
Lemma rod1_sensible : forall q a w, sensible_rod (rod1 q a w).
Proof. intros. unfold sensible_rod. cbn. repeat split; try lra; try lia. Qed.
Lemma rod1_few : forall q a w, few_segments (rod1 q a w).
Proof. intros. unfold few_segments. cbn. lia. Qed.
Lemma up_headed : headed (V3 0 0 1) /\ headed (V3 0 0 (-1)).
Proof. unfold headed, dot. cbn [vx vy vz]. repeat split; try ring; left; ring. Qed.
Lemma slant_headed : headed (V3 0.6 0 0.8).
Proof. unfold headed, dot. cbn [vx vy vz]. split; [lra|]. right. replace (0.6 * 0.6 + 0 * 0) with (0.6 * 0.6) by ring. rewrite sqrt_square; lra. Qed.
Definition pool (z : R) : wkin := Wkin (fun _ => z) (fun _ => vzero) (fun _ => vzero) (fun _ => 0) (fun _ _ => -1000).
Lemma pool_calm : forall z, calm (pool z) z.
Proof. intros. unfold calm, pool. cbn. auto. Qed.
Definition tilt : v3 := V3 (0.0006 / 1.00000009) 0 (0.99999991 / 1.00000009).
Lemma tilt_unit : dot tilt tilt = 1.
Proof. unfold dot, tilt. cbn [vx vy vz]. lra. Qed.
Lemma tilt_headed : headed tilt.
Proof.
  split; [exact tilt_unit|]. right. unfold tilt. cbn [vx vy vz].
  replace (0.0006 / 1.00000009 * (0.0006 / 1.00000009) + 0 * 0) with ((0.0006 / 1.00000009) * (0.0006 / 1.00000009)) by ring.
  rewrite sqrt_square; lra.
Qed.
Lemma fraction_above_one : exists D ph be zeta, sensible_rod D /\ headed (rq D) /\ rangles D = Ok (ph, be) /\ 1 < rVOF D zeta ph (rn D).
Proof.
  set (D := rod1 tilt (vscale (-4) tilt) vzero).
  destruct (headed_angles D ltac:(cbn; lia) tilt_headed) as (ph & be & HA). exists D, ph, be, 0.0001.
  split; [apply rod1_sensible|]. split; [exact tilt_headed|]. split; [exact HA|].
  rewrite angles_n in HA by (cbn; lia). destruct (orientation_range _ _ _ HA) as (R1 & _ & _ & R4).
  change (rq D) with tilt in R4. assert (norm tilt = 1) as N1 by (unfold norm; rewrite tilt_unit; apply sqrt_1). rewrite N1, Rmult_1_l in R4.
  assert (HS : sin ph = 0.0006 / 1.00000009).
  { rewrite R4. unfold hypot, tilt. cbn [vx vy vz].
    replace (0.0006 / 1.00000009 * (0.0006 / 1.00000009) + 0 * 0) with ((0.0006 / 1.00000009) * (0.0006 / 1.00000009)) by ring. apply sqrt_square. lra. }
  assert (ZB : rB D = vzero). { rewrite rB_pos_n by (cbn; lia). unfold D, rod1. cbn [rA rlen rq]. generalize tilt. vring. }
  assert (ZA : vz (rA D) < 0). { unfold D, rod1, tilt. cbn. lra. }
  apply rVOF_above1.
  - cbn; lia.
  - cbn; lra.
  - unfold D, rod1. cbn [rdia]. pose proof PI_4. lra.
  - unfold rh0. rewrite ZB. cbn [vz vzero]. destruct (Rlt_dec _ 0.0001); [|lra]. destruct (Rlt_dec 0 0.0001); [|lra].
    pose proof (rLsum_le D (rn D) ltac:(cbn; lia) ltac:(cbn; lra) ltac:(lia)). unfold vof0. destruct (Rlt_dec _ 0) as [X|X]; [cbn in X; lra|]. destruct (Rle_dec _ _); [reflexivity|contradiction].
  - unfold odd_section. rewrite node_N by (cbn; lia). rewrite ZB, HS. cbn [vz vzero]. unfold D, rod1. cbn [rdia]. rewrite Rabs_right by lra. lra.
  - rewrite HS. lra.
Qed.
Lemma rod_com_still : forall D e k ph be zeta M a, sensible_rod D -> rho_w e = 0 -> calm k zeta -> off_bottom D k -> rw D = vzero ->
  rM6net D e k ph be [] [] = Some M -> m6mulv M a = rF6net D e k ph be [] [] ->
  acceleration_at (vscale (rlen D / 2) (rq D)) (v6hd a) (v6tl a) (rw D) = V3 0 0 (- gr e).
Proof.
  intros D e k ph be zeta M a HS E0 HK OB W0 HM HE. pose proof (rod_com D e k ph be zeta M a HS E0 HK OB HM HE) as X. cbv zeta in X. rewrite X, W0.
  generalize (vscale (rlen D / 2) (rq D)). intros [x y z]. unfold vadd, cross, vzero. cbn [vx vy vz]. apply v3eq; cbn [vx vy vz]; ring.
Qed.
