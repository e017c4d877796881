(** More proofs about the rods of MRod.v: submergence, drag, buoyancy, motion *)
From Coq Require Import Reals List Lra Lia Psatz Arith ZArith.
From Verif Require Import MErr MVec MStateOps MMat MInterp MLine MRod SMat SLine SRod PMat PEuler PLine PLineB PRod.
Import ListNotations.
Open Scope R_scope.

(* ----- lengths ----- *)
Lemma rl_nonneg : forall D, (0 < rn D)%nat -> 0 <= rlen D -> 0 <= rl D.
Proof. intros D HN H. pose proof (N_pos D HN). rewrite rl_pos_n by assumption. apply Rmult_le_pos; [lra | left; apply Rinv_0_lt_compat; lra]. Qed.
Lemma rl_pos : forall D, (0 < rn D)%nat -> 0 < rlen D -> 0 < rl D.
Proof. intros D HN H. pose proof (N_pos D HN). rewrite rl_pos_n by assumption. apply Rmult_lt_0_compat; [lra | apply Rinv_0_lt_compat; lra]. Qed.
Lemma hw_pos : forall D i, 0 < hw D i.
Proof. intros. unfold hw. destruct (Nat.eqb i 0), (Nat.eqb i (rn D)); lra. Qed.
Lemma rLsum_S : forall D i, (i < rn D)%nat -> rLsum D (S i) = (INR i + / 2) * rl D.
Proof.
  intros D i H. induction i as [|i IH]; cbn [rLsum].
  - rewrite rdL_hw. unfold hw. cbn [Nat.eqb INR]. lra.
  - rewrite (rdL_hw D (S i)). cbn [rLsum] in IH. rewrite IH by lia. unfold hw. change (Nat.eqb (S i) 0) with false. destruct (Nat.eqb_spec (S i) (rn D)); [lia|].
    rewrite S_INR. cbv iota. lra.
Qed.
Lemma rLsum_nonneg : forall D i, 0 <= rl D -> 0 <= rLsum D i.
Proof. induction i; intros H; cbn [rLsum]; [lra|]. rewrite rdL_hw. pose proof (hw_pos D i). pose proof (IHi H). nra. Qed.
Lemma rLsum_end : forall D, (0 < rn D)%nat -> rLsum D (rn D) + rdL D (rn D) = rlen D.
Proof.
  intros D H. pose proof (N_pos D H). remember (rn D) as N eqn:EN. destruct N as [|M]; [lia|].
  rewrite rLsum_S by lia. rewrite rdL_hw. unfold hw. rewrite <- EN, Nat.eqb_refl. change (Nat.eqb (S M) 0) with false. cbv iota.
  rewrite rl_pos_n by lia. rewrite <- EN. rewrite S_INR in *. field. lra.
Qed.
Lemma rLsum_le : forall D i, (0 < rn D)%nat -> 0 <= rlen D -> (i <= rn D)%nat -> rLsum D i + rdL D i <= rlen D.
Proof.
  intros D i HN HL Hi. pose proof (rl_nonneg D HN HL). pose proof (N_pos D HN).
  destruct (Nat.eq_dec i (rn D)) as [->|E]; [rewrite rLsum_end by assumption; lra|].
  change (rLsum D (S i) <= rlen D). rewrite rLsum_S by lia. rewrite rl_pos_n in * by assumption.
  assert (INR i + 1 <= INR (rn D)) by (rewrite <- S_INR; apply le_INR; lia).
  replace (rlen D) with (INR (rn D) * (rlen D / INR (rn D))) at 2 by (field; lra). nra.
Qed.
Lemma rLsum_share : forall D i, (0 < rn D)%nat -> 0 <= rlen D -> (i <= rn D)%nat ->
  rLsum D i = share_lo (rn D) (rlen D) i /\ rLsum D i + rdL D i = share_hi (rn D) (rlen D) i.
Proof.
  intros D i HN HL Hi. pose proof (N_pos D HN). pose proof (rl_nonneg D HN HL) as Hl. unfold share_lo, share_hi.
  rewrite <- rl_pos_n by assumption. split.
  - destruct i as [|i].
    + cbn [rLsum INR]. rewrite Rmax_left; nra.
    + rewrite rLsum_S by lia. rewrite S_INR. pose proof (pos_INR i). rewrite Rmax_right; [field|nra].
  - destruct (Nat.eq_dec i (rn D)) as [->|E].
    + rewrite rLsum_end by assumption. rewrite Rmin_left; [reflexivity|].
      rewrite rl_pos_n in * by assumption. replace (rlen D) with (INR (rn D) * (rlen D / INR (rn D))) at 1 by (field; lra). nra.
    + change (rLsum D (S i) = Rmin (rlen D) ((INR i + 1 / 2) * rl D)). rewrite rLsum_S by lia.
      pose proof (rLsum_le D i HN HL Hi) as G. change (rLsum D (S i) <= rlen D) in G. rewrite rLsum_S in G by lia.
      rewrite Rmin_right; [field|]. lra.
Qed.

(* ----- fractions ----- *)
Lemma vof0_range : forall h L d, 0 <= L -> 0 <= d -> 0 <= vof0 h L d <= 1.
Proof.
  intros h L d HL Hd. unfold vof0. destruct (Rlt_dec h 0).
  - destruct (Rle_dec h (L + d)); lra.
  - destruct (Rle_dec (L + d) h); [lra|]. destruct (Rlt_dec L h); [|lra].
    assert (0 < d) by lra. assert (I := Rinv_0_lt_compat d H). assert (d * / d = 1) by (field; lra). unfold Rdiv. split; nra.
Qed.
Lemma sin_lt_x0 : forall x, 0 <= x -> sin x <= x.
Proof. intros x H. destruct (Req_dec x 0) as [->|]; [rewrite sin_0; lra|]. left. apply sin_lt_x. lra. Qed.
Lemma section_range : forall al, 0 <= al <= PI -> 0 <= 2 * al - sin (2 * al) <= 2 * PI.
Proof.
  intros al H. pose proof (sin_lt_x0 (2 * al) ltac:(lra)). split; [lra|].
  pose proof (sin_lt_x0 (2 * (PI - al)) ltac:(lra)) as G.
  replace (2 * (PI - al)) with (- (2 * al) + 2 * INR 1 * PI) in G by (cbn; ring). rewrite sin_period, sin_neg in G. cbn in G. lra.
Qed.
Lemma area_pos : forall D, 0 < rdia D -> 0 < 0.25 * PI * rdia D * rdia D.
Proof. intros. pose proof PI_RGT_0. apply Rmult_lt_0_compat; [|lra]. apply Rmult_lt_0_compat; lra. Qed.
Lemma sin2_le : forall x, 0 <= sin x * sin x <= 1.
Proof. intros. pose proof (sc1 x). split; [apply Rle_0_sqr|]. pose proof (Rle_0_sqr (cos x)). unfold Rsqr in *. lra. Qed.
Lemma section_area : forall D zeta ph i, 0 < rdia D ->
  0 <= fst (rsection D zeta ph i) /\ (odd_section D zeta ph i \/ fst (rsection D zeta ph i) <= 0.25 * PI * rdia D * rdia D).
Proof.
  intros D zeta ph i Hd. pose proof (area_pos D Hd) as HA. unfold rsection, odd_section, rz1lo, rz1hi.
  destruct (Rlt_dec zeta _); [cbn [fst]; split; lra|]. destruct (Rlt_dec _ zeta); [cbn [fst]; split; lra|].
  destruct (Rlt_dec _ 0.001); [cbn [fst]; split; [lra|]; left; split; lra|]. cbn [fst].
  set (al := acos _). assert (0 <= al <= PI) by apply acos_bound. pose proof (section_range al H).
  set (x := 2 * al - sin (2 * al)) in *. assert (0 < rdia D * rdia D) by nra. split; [|right].
  - apply Rmult_le_pos; lra.
  - replace (0.25 * PI * rdia D * rdia D) with (rdia D * rdia D / 8 * (2 * PI)) by lra. apply Rmult_le_compat_l; lra.
Qed.
Lemma rVOF_nonneg : forall D zeta ph i, (0 < rn D)%nat -> 0 < rdia D -> 0 <= rlen D -> 0 <= rVOF D zeta ph i.
Proof.
  intros D zeta ph i HN Hd HL. pose proof (area_pos D Hd). destruct (section_area D zeta ph i Hd) as [S _].
  pose proof (rl_nonneg D HN HL) as Hl. pose proof (rLsum_nonneg D i Hl). pose proof (hw_pos D i).
  destruct (vof0_range (rh0 D zeta) (rLsum D i) (rdL D i) H0 ltac:(rewrite rdL_hw; nra)) as [V _].
  unfold rVOF. rewrite !Rmult_assoc. apply Rplus_le_le_0_compat.
  - apply Rmult_le_pos; [exact V | apply Rle_0_sqr].
  - apply Rmult_le_pos; [|apply Rle_0_sqr]. apply Rmult_le_pos; [exact S|]. left. apply Rinv_0_lt_compat. rewrite <- !Rmult_assoc. lra.
Qed.
Lemma rVOF_le1 : forall D zeta ph i, (0 < rn D)%nat -> 0 < rdia D -> 0 <= rlen D -> ~ odd_section D zeta ph i -> rVOF D zeta ph i <= 1.
Proof.
  intros D zeta ph i HN Hd HL HO. pose proof (area_pos D Hd) as HA. destruct (section_area D zeta ph i Hd) as [S [S'|S']]; [contradiction|].
  pose proof (rl_nonneg D HN HL) as Hl. pose proof (rLsum_nonneg D i Hl). pose proof (hw_pos D i).
  destruct (vof0_range (rh0 D zeta) (rLsum D i) (rdL D i) H ltac:(rewrite rdL_hw; nra)) as [V V'].
  unfold rVOF. set (f := vof0 _ _ _) in *. set (A := fst _) in *. set (T := 0.25 * PI * rdia D * rdia D) in *.
  assert (A / T <= 1). { apply (Rmult_le_reg_r T); [exact HA|]. unfold Rdiv. rewrite Rmult_assoc, Rinv_l by lra. lra. }
  pose proof (sc1 ph). pose proof (Rle_0_sqr (sin ph)). pose proof (Rle_0_sqr (cos ph)). unfold Rsqr in *. nra.
Qed.
Lemma rVOF_above1 : forall D zeta ph i, (0 < rn D)%nat -> 0 < rdia D -> 0.25 * PI * rdia D * rdia D < 0.5 ->
  vof0 (rh0 D zeta) (rLsum D i) (rdL D i) = 1 -> odd_section D zeta ph i -> sin ph <> 0 -> 1 < rVOF D zeta ph i.
Proof.
  intros D zeta ph i HN Hd HA HV [[O1 O2] O3] HS. pose proof (area_pos D Hd) as HT. unfold rVOF. rewrite HV. unfold rsection, rz1lo, rz1hi.
  destruct (Rlt_dec zeta _); [lra|]. destruct (Rlt_dec _ zeta); [lra|]. destruct (Rlt_dec _ 0.001); [|lra]. cbn [fst].
  set (T := 0.25 * PI * rdia D * rdia D) in *.
  assert (1 < 0.5 / T). { apply (Rmult_lt_reg_r T); [exact HT|]. unfold Rdiv. rewrite Rmult_assoc, Rinv_l by lra. lra. }
  pose proof (sc1 ph). assert (0 < sin ph * sin ph) by (apply Rsqr_pos_lt; exact HS). nra.
Qed.

(* ----- which nodes are under water ----- *)
Lemma vof0_len : forall h L d, 0 <= h -> 0 < d -> vof0 h L d * d = before L (L + d) h.
Proof.
  intros h L d Hh Hd. unfold vof0, before. destruct (Rlt_dec h 0); [lra|].
  destruct (Rle_dec (L + d) h).
  - rewrite Rmin_left by lra. rewrite Rmax_right by lra. ring.
  - rewrite Rmin_right by lra. destruct (Rlt_dec L h).
    + rewrite Rmax_right by lra. field. lra.
    + rewrite Rmax_left by lra. ring.
Qed.
Lemma up_angles : forall D ph be, (0 < rn D)%nat -> rangles D = Ok (ph, be) -> vx (rq D) = 0 -> vy (rq D) = 0 -> dot (rq D) (rq D) = 1 ->
  sin ph = 0 /\ cos ph = vz (rq D).
Proof.
  intros D ph be HN HA HX HY HU. rewrite angles_n in HA by assumption.
  destruct (orientation_range _ _ _ HA) as (_ & _ & C & S). assert (N1 : norm (rq D) = 1) by (unfold norm; rewrite HU; apply sqrt_1).
  rewrite N1, Rmult_1_l in *. rewrite HX, HY in S. unfold hypot in S. replace (0 * 0 + 0 * 0) with 0 in S by ring. rewrite sqrt_0 in S. lra.
Qed.
Lemma vertical_VOF : forall D zeta ph i, sin ph = 0 -> cos ph * cos ph = 1 -> rVOF D zeta ph i = vof0 (rh0 D zeta) (rLsum D i) (rdL D i).
Proof. intros D zeta ph i S C. unfold rVOF. rewrite S, Rmult_assoc, C. ring. Qed.
Lemma upright_submergence : forall D zeta ph be i h, (0 < rn D)%nat -> 0 < rlen D -> rq D = V3 0 0 1 -> rangles D = Ok (ph, be) ->
  vz (rA D) < zeta < vz (rB D) -> vz (rA D) + h = zeta -> (i <= rn D)%nat ->
  let a := share_lo (rn D) (rlen D) i in let b := share_hi (rn D) (rlen D) i in
  rVOF D zeta ph i * (b - a) = before a b h.
Proof.
  intros D zeta ph be i h HN HL Hq HA [Hz Hz'] Hh Hi. cbv zeta.
  destruct (up_angles D ph be HN HA) as [S C]; rewrite ?Hq; try reflexivity. { unfold dot. cbn [vx vy vz]. ring. }
  rewrite Hq in C. cbn [vz] in C. rewrite vertical_VOF by (rewrite ?C; lra).
  destruct (rLsum_share D i HN ltac:(lra) Hi) as [A B]. rewrite <- A, <- B.
  assert (rh0 D zeta = h) as ->. { unfold rh0. destruct (Rlt_dec _ zeta); [|lra]. destruct (Rlt_dec (vz (rB D)) zeta); [lra|].
    destruct (Rlt_dec zeta (vz (rB D))); [|lra]. rewrite Hq. cbn [vz]. lra. }
  pose proof (rl_pos D HN HL). pose proof (hw_pos D i).
  replace (rLsum D i + rdL D i - rLsum D i) with (rdL D i) by ring. apply vof0_len; [lra|]. rewrite rdL_hw. nra.
Qed.
Lemma upside_down_all_wet : forall D zeta ph be i, (0 < rn D)%nat -> 0 < rlen D -> rq D = V3 0 0 (-1) -> rangles D = Ok (ph, be) ->
  vz (rB D) < zeta < vz (rA D) -> (i <= rn D)%nat -> rVOF D zeta ph i = 1.
Proof.
  intros D zeta ph be i HN HL Hq HA [Hz Hz'] Hi.
  destruct (up_angles D ph be HN HA) as [S C]; rewrite ?Hq; try reflexivity. { unfold dot. cbn [vx vy vz]. ring. }
  rewrite Hq in C. cbn [vz] in C. rewrite vertical_VOF by (rewrite ?C; lra).
  assert (rh0 D zeta = zeta - vz (rA D)) as ->. { unfold rh0. destruct (Rlt_dec (vz (rA D)) zeta); [lra|]. destruct (Rlt_dec (vz (rB D)) zeta); [|lra].
    destruct (Rlt_dec zeta (vz (rA D))); [|lra]. rewrite Hq. cbn [vz]. field. }
  pose proof (rl_nonneg D HN ltac:(lra)) as Hl. pose proof (rLsum_nonneg D i Hl). pose proof (hw_pos D i).
  unfold vof0. destruct (Rlt_dec _ 0); [|lra]. destruct (Rle_dec _ _); [reflexivity|]. rewrite rdL_hw in *. nra.
Qed.
Lemma all_wet_sub : forall D zeta ph, (forall i, (i <= rn D)%nat -> rVOF D zeta ph i = 1) -> rod_sub D zeta ph = 1.
Proof.
  intros D zeta ph H. unfold rod_sub.
  assert (G : forall n, (n <= rn D + 1)%nat -> rVOFsum D zeta ph n = INR n).
  { induction n; intros Hn; [reflexivity|]. rewrite S_INR. cbn [rVOFsum]. rewrite IHn by lia. rewrite H by lia. reflexivity. }
  rewrite G by lia. field. rewrite plus_INR. cbn [INR]. pose proof (pos_INR (rn D)). lra.
Qed.
Lemma touching_dry : forall D zeta ph be i, (0 < rn D)%nat -> 0 < rlen D -> rq D = V3 0 0 1 -> rangles D = Ok (ph, be) ->
  vz (rB D) = zeta -> (i <= rn D)%nat -> rVOF D zeta ph i = 0.
Proof.
  intros D zeta ph be i HN HL Hq HA Hz Hi.
  destruct (up_angles D ph be HN HA) as [S C]; rewrite ?Hq; try reflexivity. { unfold dot. cbn [vx vy vz]. ring. }
  rewrite Hq in C. cbn [vz] in C. rewrite vertical_VOF by (rewrite ?C; lra).
  assert (rh0 D zeta = 0) as ->. { unfold rh0. rewrite Hz. destruct (Rlt_dec (vz (rA D)) zeta); destruct (Rlt_dec zeta zeta); lra. }
  pose proof (rl_pos D HN ltac:(lra)) as Hl. pose proof (rLsum_nonneg D i ltac:(lra)). pose proof (hw_pos D i).
  unfold vof0. destruct (Rlt_dec 0 0); [lra|]. rewrite rdL_hw. destruct (Rle_dec _ 0); [nra|]. destruct (Rlt_dec _ 0); lra.
Qed.
Lemma submerged_VOF : forall D zeta ph i, (0 < rn D)%nat -> 0 < rdia D -> 0 <= rlen D -> (i <= rn D)%nat ->
  vz (rA D) < zeta -> vz (rB D) < zeta -> rz1hi D ph i < zeta -> rVOF D zeta ph i = 1.
Proof.
  intros D zeta ph i HN Hd HL Hi H0 H1 H2. pose proof (area_pos D Hd) as HA. unfold rVOF, rsection.
  assert (rz1lo D ph i <= rz1hi D ph i). { unfold rz1lo, rz1hi. pose proof (Rabs_pos (sin ph)). nra. }
  destruct (Rlt_dec zeta _); [lra|]. destruct (Rlt_dec _ zeta); [|lra]. cbn [fst].
  assert (rh0 D zeta = rlen D) as ->. { unfold rh0. destruct (Rlt_dec _ zeta); [|lra]. destruct (Rlt_dec _ zeta); [reflexivity|lra]. }
  pose proof (rLsum_le D i HN HL Hi). unfold vof0. destruct (Rlt_dec _ 0); [lra|]. destruct (Rle_dec _ _); [|lra].
  replace (PI * 0.25 * rdia D * rdia D) with (0.25 * PI * rdia D * rdia D) by ring.
  unfold Rdiv. rewrite Rinv_r by lra. pose proof (sc1 ph). lra.
Qed.
Lemma dry_VOF : forall D zeta ph i, (0 < rn D)%nat -> 0 < rdia D -> 0 < rlen D -> (i <= rn D)%nat ->
  zeta < vz (rA D) -> zeta < vz (rB D) -> zeta < rz1lo D ph i -> rVOF D zeta ph i = 0.
Proof.
  intros D zeta ph i HN Hd HL Hi H0 H1 H2. unfold rVOF, rsection. destruct (Rlt_dec zeta _); [|lra]. cbn [fst].
  assert (rh0 D zeta = 0) as ->. { unfold rh0. destruct (Rlt_dec _ zeta); [lra|]. destruct (Rlt_dec _ zeta); [lra|reflexivity]. }
  pose proof (rl_pos D HN ltac:(lra)) as Hl. pose proof (rLsum_nonneg D i ltac:(lra)). pose proof (hw_pos D i).
  unfold vof0. destruct (Rlt_dec 0 0); [lra|]. rewrite rdL_hw. destruct (Rle_dec _ 0); [nra|]. destruct (Rlt_dec _ 0); [lra|]. unfold Rdiv. ring.
Qed.

(* ----- added mass and drag ----- *)
Lemma e3_across : forall q v, energy3 (msub mid (outer q)) v = (dot v v - dot q v * dot q v) / 2.
Proof. intros. unfold msub, mid, outer. dv. ex. field. Qed.
Lemma rvi_nonneg : forall D i, (0 < rn D)%nat -> 0 < rdia D -> 0 <= rlen D -> 0 <= rvi D i.
Proof.
  intros D i HN Hd HL. rewrite rvi_hw. unfold rV. pose proof (rl_nonneg D HN HL). pose proof (hw_pos D i). pose proof (area_pos D Hd).
  replace (rl D * 0.25 * PI * rdia D * rdia D) with (rl D * (0.25 * PI * rdia D * rdia D)) by ring. apply Rmult_le_pos; [|lra]. apply Rmult_le_pos; lra.
Qed.
Definition lines_nonneg (l : list endstuff) := Forall (fun s => forall u, 0 <= energy3 (esMass s) u) l.
Lemma radded_nonneg : forall D e k ph a b i v, sensible_rod D -> 0 <= rho_w e -> dot (rq D) (rq D) = 1 ->
  lines_nonneg a -> lines_nonneg b -> 0 <= radded D e k ph a b i v.
Proof.
  intros D e k ph a b i v (HN & Hd & Hr & HL & C1 & C2 & C3 & C4 & C5) He Hq Ha Hb.
  unfold radded, rMnet, rM. rewrite !e3_add. rewrite e3_mid. set (F := rVOF D _ ph i).
  assert (HF : 0 <= F) by (apply rVOF_nonneg; [assumption | assumption | lra]).
  pose proof (rvi_nonneg D i HN Hd ltac:(lra)) as Hv.
  assert (HK : 0 <= F * rho_w e) by (apply Rmult_le_pos; assumption).
  rewrite e3_scale, e3_add, !e3_scale, e3_across.
  assert (HO : energy3 (outer (rq D)) v = dot (rq D) v * dot (rq D) v / 2).
  { pose proof (e3_outer 1 (rq D) v) as E. rewrite e3_scale in E. lra. }
  rewrite HO. pose proof (cauchy (rq D) v) as HC. rewrite Hq in HC. pose proof (Rle_0_sqr (dot (rq D) v)) as HS. unfold Rsqr in HS.
  assert (X1 : 0 <= F * rho_w e * rvi D i * (rCan D * ((dot v v - dot (rq D) v * dot (rq D) v) / 2) + rCat D * (dot (rq D) v * dot (rq D) v / 2))).
  { apply Rmult_le_pos; [apply Rmult_le_pos; assumption|]. apply Rplus_le_le_0_compat; apply Rmult_le_pos; lra. }
  assert (X2 : 0 <= energy3 (if rwetEnd D (wzeta k (rn D)) ph i then mscale (INR (rends D i) * (F * rho_w e * rCaEnd D * rVend D)) (outer (rq D)) else mzero) v).
  { destruct (rwetEnd _ _ _ _); [|rewrite e3_zero; lra]. rewrite e3_scale, HO. apply Rmult_le_pos; [|lra].
    apply Rmult_le_pos; [apply pos_INR|]. apply Rmult_le_pos; [apply Rmult_le_pos; assumption|].
    unfold rVend. pose proof PI_RGT_0. assert (0 <= rdia D * rdia D * rdia D) by (repeat apply Rmult_le_pos; lra).
    replace (2 / 3 * PI * rdia D * rdia D * rdia D / 8) with (PI * (rdia D * rdia D * rdia D) / 12) by field. apply Rmult_le_pos; [|lra]. apply Rmult_le_pos; lra. }
  assert (X3 : 0 <= energy3 (if Nat.eqb i 0 then es_mass a else mzero) v) by (destruct (Nat.eqb i 0); [apply es_mass_nonneg; assumption | rewrite e3_zero; lra]).
  assert (X4 : 0 <= energy3 (if Nat.eqb i (rn D) then es_mass b else mzero) v) by (destruct (Nat.eqb i (rn D)); [apply es_mass_nonneg; assumption | rewrite e3_zero; lra]).
  lra.
Qed.
Lemma radded_vacuum : forall D e k ph i v, rho_w e = 0 -> radded D e k ph [] [] i v = 0.
Proof.
  intros D e k ph i v He. unfold radded, rMnet, rM, es_mass. cbn [fold_left]. rewrite !e3_add, e3_mid. rewrite e3_scale, He.
  replace (if Nat.eqb i 0 then mzero else mzero) with mzero by (destruct (Nat.eqb _ _); reflexivity).
  replace (if Nat.eqb i (rn D) then mzero else mzero) with mzero by (destruct (Nat.eqb _ _); reflexivity). rewrite e3_zero.
  destruct (rwetEnd _ _ _ _); [rewrite e3_scale | rewrite e3_zero]; ring.
Qed.
Lemma rod_drag : forall D e k ph i, sensible_rod D -> 0 <= rho_w e -> dot (rq D) (rq D) <= 1 ->
  dot (vadd (rDp D e k ph i) (rDq D e k ph i)) (vsub (rvel D i) (wU k i)) <= 0.
Proof.
  intros D e k ph i (HN & Hd & Hr & HL & C1 & C2 & C3 & C4 & C5) He Hq.
  unfold rDp, rDq. destruct (Nat.eqb_spec (rn D) 0); [lia|].
  set (F := rVOF D _ ph i). assert (HF : 0 <= F) by (apply rVOF_nonneg; [assumption | assumption | lra]).
  set (vi := vsub (wU k i) (rvel D i)). pose proof (across_pow (rq D) vi Hq) as P1. pose proof (along_pow (rq D) vi) as P2.
  assert (S1 : forall x y, dot (vscale x y) (vsub (rvel D i) (wU k i)) = - (x * dot y vi)).
  { intros x [a b c]. unfold vi, dot, vsub, vscale. cbn [vx vy vz]. ring. }
  assert (S2 : forall x y z, dot (vadd x y) z = dot x z + dot y z) by (intros [a b c] [d f g] [h j l]; unfold dot, vadd; cbn [vx vy vz]; ring).
  rewrite S2. assert (Hh : 0 <= 0.5) by lra. assert (Hq4 : 0 <= 0.25) by lra. assert (Hpi : 0 <= PI) by (pose proof PI_RGT_0; lra). assert (Hdd : 0 <= rdia D) by lra.
  pose proof (rl_nonneg D HN ltac:(lra)). pose proof (hw_pos D i). pose proof (norm_pos (across (rq D) vi)) as N1. pose proof (norm_pos (along (rq D) vi)) as N2.
  assert (0 <= rdL D i) by (rewrite rdL_hw; nra).
  assert (T1 : dot (vscale (F * 0.5 * rho_w e * rCdn D * rdia D * rdL D i * norm (across (rq D) vi)) (across (rq D) vi)) (vsub (rvel D i) (wU k i)) <= 0).
  { rewrite S1. assert (0 <= F * 0.5 * rho_w e * rCdn D * rdia D * rdL D i * norm (across (rq D) vi) * dot (across (rq D) vi) vi); [|lra].
    repeat (apply Rmult_le_pos; try assumption); lra. }
  assert (T2 : dot (if rwetEnd D (wzeta k (rn D)) ph i then vscale (INR (rends D i) * (0.5 * F * rArea D * rho_w e * rCdEnd D * norm (along (rq D) vi))) (along (rq D) vi) else vzero) (vsub (rvel D i) (wU k i)) <= 0).
  { destruct (rwetEnd _ _ _ _); [|unfold dot, vzero; cbn [vx vy vz]; lra]. rewrite S1. pose proof (area_pos D Hd). pose proof (pos_INR (rends D i)).
    assert (0 <= INR (rends D i) * (0.5 * F * rArea D * rho_w e * rCdEnd D * norm (along (rq D) vi)) * dot (along (rq D) vi) vi); [|lra].
    apply Rmult_le_pos; [|assumption]. apply Rmult_le_pos; [assumption|]. unfold rArea. repeat (apply Rmult_le_pos; try assumption); lra. }
  lra.
Qed.
