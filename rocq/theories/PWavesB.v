(** What a wave or current grid returns. *)
From Coq Require Import Reals ZArith List Arith Lra Lia.
From Verif Require Import MErr MVec MStateOps MInterp MSeafloor MWaves SInterp PInterp SWaves SWavesG PWaves.
Import ListNotations.
Open Scope R_scope.

Lemma on_axis_frac xp x p : on_axis xp x p -> frac_ok p.
Proof. destruct p as [[a b] f]. intros (_ & _ & _ & H & _). exact H. Qed.
Lemma linear1_within g p lo hi : frac_ok p -> (forall i, touches p i -> lo <= g i <= hi) -> lo <= linear1 g p <= hi.
Proof.
  destruct p as [[a b] f]. unfold frac_ok, touches, linear1, between. cbn. intros Hf H.
  pose proof (H a (or_introl eq_refl)). pose proof (H b (or_intror eq_refl)). nra.
Qed.
Lemma linear3_within g X Y T lo hi : frac_ok X -> frac_ok Y -> frac_ok T ->
  (forall i j t, touches X i -> touches Y j -> touches T t -> lo <= g i j t <= hi) -> lo <= linear3 g X Y T <= hi.
Proof. intros. unfold linear3. apply linear1_within; [assumption|]. intros. apply linear1_within; [assumption|]. intros. apply linear1_within; auto. Qed.
Lemma linear4_within g X Y Z T lo hi : frac_ok X -> frac_ok Y -> frac_ok Z -> frac_ok T ->
  (forall i j k t, touches X i -> touches Y j -> touches Z k -> touches T t -> lo <= g i j k t <= hi) -> lo <= linear4 g X Y Z T <= hi.
Proof. intros. unfold linear4. apply linear1_within; [assumption|]. intros. apply linear3_within; auto. Qed.

Lemma linear1_gt g p lo : frac_ok p -> (forall i, touches p i -> lo < g i) -> lo < linear1 g p.
Proof.
  destruct p as [[a b] f]. unfold frac_ok, touches, linear1, between. cbn. intros Hf H.
  pose proof (H a (or_introl eq_refl)). pose proof (H b (or_intror eq_refl)). destruct (Rle_dec f (1/2)); nra.
Qed.
Lemma linear3_gt g X Y T lo : frac_ok X -> frac_ok Y -> frac_ok T ->
  (forall i j t, touches X i -> touches Y j -> touches T t -> lo < g i j t) -> lo < linear3 g X Y T.
Proof. intros. unfold linear3. apply linear1_gt; [assumption|]. intros. apply linear1_gt; [assumption|]. intros. apply linear1_gt; auto. Qed.
Lemma on_axis_touches xp x p i : on_axis xp x p -> touches p i -> (i < length xp)%nat.
Proof. destruct p as [[a b] f]. intros (Ha & Hb & _). intros [E|E]; cbn in E; subst i; assumption. Qed.
(** at a node the interpolation returns the node *)
Lemma clamp_node xp i : increasing xp -> (i < length xp)%nat -> clamp xp (nth i xp 0) = nth i xp 0.
Proof.
  intros Hi H. unfold clamp. rewrite Rmin_right by (apply incr_le; [assumption|lia]). apply Rmax_right. apply incr_le; [assumption|lia].
Qed.
Lemma linear1_node xp i p g : increasing xp -> (i < length xp)%nat -> on_axis xp (nth i xp 0) p -> linear1 g p = g i.
Proof.
  destruct p as [[a b] f]. intros Hi H (Ha & Hb & Hab & Hf & E). rewrite clamp_node in E by assumption. unfold linear1, between.
  destruct Hab as [-> | ->].
  - destruct (lt_eq_lt_dec a i) as [[L|L]|L]; [exfalso|subst; ring|exfalso].
    + specialize (Hi a i ltac:(lia)). lra.
    + specialize (Hi i a ltac:(lia)). lra.
  - pose proof (Hi a (S a) ltac:(lia)) as Hs. set (xa := nth a xp 0) in *. set (xb := nth (S a) xp 0) in *.
    destruct (lt_eq_lt_dec a i) as [[L|L]|L].
    + destruct (Nat.eq_dec i (S a)) as [->|N].
      * fold xb in E. assert (f = 1) by (apply Rmult_eq_reg_r with (xb - xa); lra). subst f. ring.
      * exfalso. specialize (Hi (S a) i ltac:(lia)). fold xb in Hi. nra.
    + subst i. fold xa in E. assert (f = 0) by (apply Rmult_eq_reg_r with (xb - xa); lra). subst f. ring.
    + exfalso. specialize (Hi i a ltac:(lia)). fold xa in Hi. nra.
Qed.
Lemma linear1_ext g h p : (forall i, touches p i -> g i = h i) -> linear1 g p = linear1 h p.
Proof. destruct p as [[a b] f]. intros H. unfold linear1. now rewrite (H a (or_introl eq_refl)), (H b (or_intror eq_refl)). Qed.
Lemma linear1_affine xp x p c d : on_axis xp x p -> linear1 (fun i => c + d * nth i xp 0) p = c + d * clamp xp x.
Proof. destruct p as [[a b] f]. intros (_ & _ & _ & _ & E). unfold linear1, between. rewrite <- E. ring. Qed.
Lemma linear1_plus g h p : linear1 (fun i => g i + h i) p = linear1 g p + linear1 h p.
Proof. destruct p as [[a b] f]. unfold linear1, between. ring. Qed.
Lemma linear1_const c p : linear1 (fun _ => c) p = c.
Proof. destruct p as [[a b] f]. unfold linear1, between. ring. Qed.
Lemma linear4_affine qx qy qz x y z X Y Z T c cx cy cz h : on_axis qx x X -> on_axis qy y Y -> on_axis qz z Z ->
  linear4 (fun i j k t => c + cx * nth i qx 0 + cy * nth j qy 0 + cz * nth k qz 0 + h t) X Y Z T
  = c + cx * clamp qx x + cy * clamp qy y + cz * clamp qz z + linear1 h T.
Proof.
  intros HX HY HZ. unfold linear4, linear3.
  rewrite (linear1_ext _ (fun i => (c + cy * clamp qy y + cz * clamp qz z + linear1 h T) + cx * nth i qx 0)).
  - rewrite (linear1_affine qx x) by assumption. ring.
  - intros i _. rewrite (linear1_ext _ (fun j => (c + cx * nth i qx 0 + cz * clamp qz z + linear1 h T) + cy * nth j qy 0)).
    + rewrite (linear1_affine qy y) by assumption. ring.
    + intros j _. rewrite (linear1_ext _ (fun k => (c + cx * nth i qx 0 + cy * nth j qy 0 + linear1 h T) + cz * nth k qz 0)).
      * rewrite (linear1_affine qz z) by assumption. ring.
      * intros k _. rewrite linear1_plus, linear1_const. ring.
Qed.
Lemma linear3_node qx qy i j X Y T g : increasing qx -> increasing qy -> (i < length qx)%nat -> (j < length qy)%nat ->
  on_axis qx (nth i qx 0) X -> on_axis qy (nth j qy 0) Y -> linear3 g X Y T = linear1 (g i j) T.
Proof. intros. unfold linear3. rewrite (linear1_node qx i) by assumption. now rewrite (linear1_node qy j) by assumption. Qed.
Lemma linear4_node qx qy qz i j k X Y Z T g : increasing qx -> increasing qy -> increasing qz -> (i < length qx)%nat -> (j < length qy)%nat -> (k < length qz)%nat ->
  on_axis qx (nth i qx 0) X -> on_axis qy (nth j qy 0) Y -> on_axis qz (nth k qz 0) Z -> linear4 g X Y Z T = linear1 (g i j k) T.
Proof. intros. unfold linear4. rewrite (linear1_node qx i) by assumption. now apply (linear3_node qy qz). Qed.

(* ------------------------------ stretching ------------------------------ *)
Lemma stretched_column avg bottom zeta z : avg <= 0 -> bottom < zeta -> exists s, stretched avg bottom zeta z = Ok s /\ column avg bottom zeta z s.
Proof.
  intros Ha Hb. unfold stretched. destruct (Req_EM_T (zeta - bottom) 0); [lra|].
  set (s := - avg * (z - bottom) / (zeta - bottom) + avg).
  assert (E : s * (zeta - bottom) = avg * (zeta - z)) by (unfold s; field; lra).
  eexists; split; [reflexivity|]. destruct (Rlt_dec 0 s); split; intros H.
  - nra.
  - reflexivity.
  - assert (s * (zeta - bottom) = avg * (zeta - z)) by exact E. lra.
  - nra.
Qed.

(* ------------------------------ grids ------------------------------ *)
Section G.
Variables (g : wgrid) (pos : v3) (time : R) (sf : provider) (bottom : R) (w : nat) (ft : R).
Hypothesis Hg : wgrid_ok g.
Hypothesis Hb : getDepth sf (vx pos) (vy pos) = Ok bottom.
Hypothesis Ha : getAverageDepth sf <= 0.
Hypothesis Hf : 0 <= ft <= 1.
Hypothesis Hw : (w < nt (wg_axes g))%nat.
Hypothesis Ht : time_index (wg_axes g) time = Ok (w, ft).
Hypothesis Hz : forall i j k, (i < length (px (wg_axes g)))%nat -> (j < length (py (wg_axes g)))%nat -> (k < nt (wg_axes g))%nat -> bottom < cell3 0 (wg_zeta g) i j k.
Lemma wave_kin_run : exists out X Y Z s, wave_kin g pos time sf = Ok out /\
  on_axis (px (wg_axes g)) (vx pos) X /\ on_axis (py (wg_axes g)) (vy pos) Y /\
  o_zeta out = linear3 (cell3 0 (wg_zeta g)) X Y (low w, w, ft) /\
  column (getAverageDepth sf) bottom (o_zeta out) (vz pos) s /\ on_axis (pz (wg_axes g)) s Z /\
  o_vel out = vlinear4 (wg_vel g) X Y Z (low w, w, ft) /\ o_acc out = vlinear4 (wg_acc g) X Y Z (low w, w, ft) /\
  o_pdyn out = linear4 (cell4 0 (wg_pdyn g)) X Y Z (low w, w, ft).
Proof.
  destruct Hg as ((Ix & Nx & Iy & Ny & Iz & Nz) & S3 & Sp & Sv & Sa). set (a := wg_axes g) in *.
  destruct (factor_place (px a) (vx pos) Ix Nx) as (i & fx & Ei & Li & Pi).
  destruct (factor_place (py a) (vy pos) Iy Ny) as (j & fy & Ej & Lj & Pj).
  set (zeta := linear3 (cell3 0 (wg_zeta g)) (low i, i, fx) (low j, j, fy) (low w, w, ft)).
  assert (Hzeta : bottom < zeta).
  { assert (F : forall u v t, touches (low i, i, fx) u -> touches (low j, j, fy) v -> touches (low w, w, ft) t ->
       bottom < cell3 0 (wg_zeta g) u v t).
    { intros u v t Hu Hv Htt. apply Hz.
      - apply (on_axis_touches _ _ _ _ Pi Hu).
      - apply (on_axis_touches _ _ _ _ Pj Hv).
      - unfold touches, low in Htt. cbn in Htt. lia. }
    apply linear3_gt; [exact (on_axis_frac _ _ _ Pi)|exact (on_axis_frac _ _ _ Pj)|exact Hf|exact F]. }
  destruct (stretched_column (getAverageDepth sf) bottom zeta (vz pos) Ha Hzeta) as (s & Es & Cs).
  destruct (factor_place (pz a) s Iz Nz) as (k & fz & Ek & Lk & Pk).
  exists (WOut zeta (vlinear4 (wg_vel g) (low i, i, fx) (low j, j, fy) (low k, k, fz) (low w, w, ft))
               (vlinear4 (wg_acc g) (low i, i, fx) (low j, j, fy) (low k, k, fz) (low w, w, ft))
               (linear4 (cell4 0 (wg_pdyn g)) (low i, i, fx) (low j, j, fy) (low k, k, fz) (low w, w, ft))).
  exists (low i, i, fx), (low j, j, fy), (low k, k, fz), s. cbn [o_zeta o_vel o_acc o_pdyn].
  split; [|split; [exact Pi|split; [exact Pj|split; [reflexivity|split; [exact Cs|split; [exact Pk|split; [reflexivity|split; reflexivity]]]]]]].
  unfold wave_kin. fold a. rewrite Ei. cbn [obind]. rewrite Ej. cbn [obind]. rewrite Ht. cbn [obind].
  rewrite (interp3_linear (wg_zeta g) (length (px a)) (length (py a)) (nt a)) by assumption. cbn [obind fst snd]. fold zeta.
  rewrite Hb. cbn [obind]. rewrite Es. cbn [obind]. rewrite Ek. cbn [obind fst snd].
  rewrite (interp4Vec_linear (wg_vel g) (length (px a)) (length (py a)) (length (pz a)) (nt a)) by assumption. cbn [obind].
  rewrite (interp4Vec_linear (wg_acc g) (length (px a)) (length (py a)) (length (pz a)) (nt a)) by assumption. cbn [obind].
  rewrite (interp4_linear (wg_pdyn g) (length (px a)) (length (py a)) (length (pz a)) (nt a)) by assumption. reflexivity.
Qed.
End G.

Section C.
Variables (g : cgrid) (pos : v3) (time : R) (w : nat) (ft : R).
Hypothesis Hg : cgrid_ok g.
Hypothesis Hw : (w < nt (cg_axes g))%nat.
Hypothesis Ht : time_index (cg_axes g) time = Ok (w, ft).
Lemma current_kin_run : exists X Y Z, 
  on_axis (px (cg_axes g)) (vx pos) X /\ on_axis (py (cg_axes g)) (vy pos) Y /\ on_axis (pz (cg_axes g)) (vz pos) Z /\
  current_kin g pos time = Ok (vlinear4 (cg_vel g) X Y Z (low w, w, ft), vlinear4 (cg_acc g) X Y Z (low w, w, ft)).
Proof.
  destruct Hg as ((Ix & Nx & Iy & Ny & Iz & Nz) & Sv & Sa). set (a := cg_axes g) in *.
  destruct (factor_place (px a) (vx pos) Ix Nx) as (i & fx & Ei & Li & Pi).
  destruct (factor_place (py a) (vy pos) Iy Ny) as (j & fy & Ej & Lj & Pj).
  destruct (factor_place (pz a) (vz pos) Iz Nz) as (k & fz & Ek & Lk & Pk).
  exists (low i, i, fx), (low j, j, fy), (low k, k, fz). split; [assumption|]. split; [assumption|]. split; [assumption|].
  unfold current_kin. fold a. rewrite Ei. cbn [obind]. rewrite Ej. cbn [obind]. rewrite Ht. cbn [obind]. rewrite Ek. cbn [obind fst snd].
  rewrite (interp4Vec_linear (cg_vel g) (length (px a)) (length (py a)) (length (pz a)) (nt a)) by assumption. cbn [obind].
  rewrite (interp4Vec_linear (cg_acc g) (length (px a)) (length (py a)) (length (pz a)) (nt a)) by assumption. reflexivity.
Qed.
End C.

(** the place in time *)
Lemma time_place a t k : (2 <= nt a)%nat -> 0 < dtWave a -> INR k * dtWave a <= t < INR (S k) * dtWave a -> (Z.of_nat k < 2 ^ 32 - 1)%Z ->
  exists w ft, time_index a t = Ok (w, ft) /\ (w < nt a)%nat /\ 0 <= ft <= 1 /\ ft = t / dtWave a - INR k /\
    (Nat.modulo k (nt a) <> (nt a - 1)%nat -> (low w, w, ft) = (Nat.modulo k (nt a), Nat.modulo (S k) (nt a), t / dtWave a - INR k)) /\
    (Nat.modulo k (nt a) = (nt a - 1)%nat -> (low w, w, ft) = (O, O, ft)).
Proof.
  intros Hn Hd Ht Hk. eexists _, _. split; [apply time_index_run; eassumption|]. split; [apply Nat.mod_upper_bound; lia|].
  assert (E : t = t / dtWave a * dtWave a) by (field; lra). set (q := t / dtWave a) in *. rewrite S_INR in Ht.
  assert (INR k <= q < INR k + 1) by (split; [apply Rmult_le_reg_r with (dtWave a)|apply Rmult_lt_reg_r with (dtWave a)]; lra).
  split; [lra|]. split; [reflexivity|]. split; intros H1.
  - rewrite (next_in_period k) by assumption. f_equal. f_equal. unfold low. lia.
  - rewrite (next_at_end k) by assumption. reflexivity.
Qed.
Lemma time_steady a t : (nt a <= 1)%nat -> time_index a t = Ok (O, 0).
Proof. intros H. unfold time_index. destruct (Nat.ltb_spec 1 (nt a)); [lia|reflexivity]. Qed.

Lemma wave_kin_at g pos time sf bottom w ft : wgrid_ok g -> getDepth sf (vx pos) (vy pos) = Ok bottom -> getAverageDepth sf <= 0 -> afloat g bottom ->
  0 <= ft <= 1 -> (w < nt (wg_axes g))%nat -> time_index (wg_axes g) time = Ok (w, ft) ->
  exists out, wave_kin g pos time sf = Ok out /\ wave_at g pos (getAverageDepth sf) bottom (low w, w, ft) out.
Proof.
  intros Hg Hb Ha Hz Hf Hw Ht. destruct (wave_kin_run g pos time sf bottom w ft Hg Hb Ha Hf Hw Ht Hz) as (out & X & Y & Z & s & E & H).
  exists out. split; [exact E|]. exists X, Y, Z, s. exact H.
Qed.
Lemma current_kin_at g pos time w ft : cgrid_ok g -> (w < nt (cg_axes g))%nat -> time_index (cg_axes g) time = Ok (w, ft) ->
  exists out, current_kin g pos time = Ok out /\ current_at g pos (low w, w, ft) out.
Proof.
  intros Hg Hw Ht. destruct (current_kin_run g pos time w ft Hg Hw Ht) as (X & Y & Z & HX & HY & HZ & E).
  eexists. split; [exact E|]. exists X, Y, Z. cbn. repeat (split; [assumption|]). split; reflexivity.
Qed.

Lemma short_k dt t k : 0 < dt -> INR k * dt <= t -> short dt t -> (Z.of_nat k < 2 ^ 32 - 1)%Z.
Proof.
  unfold short. intros Hd H1 H2. apply lt_IZR. rewrite <- INR_IZR_INZ. apply Rmult_lt_reg_r with dt; lra.
Qed.

Lemma wave_in_time g pos t sf bottom T : wgrid_ok g -> getDepth sf (vx pos) (vy pos) = Ok bottom -> getAverageDepth sf <= 0 -> afloat g bottom ->
  (2 <= nt (wg_axes g))%nat -> 0 < dtWave (wg_axes g) -> short (dtWave (wg_axes g)) t ->
  in_time (nt (wg_axes g)) (dtWave (wg_axes g)) t T -> fst (fst T) <> (nt (wg_axes g) - 1)%nat ->
  exists out, wave_kin g pos t sf = Ok out /\ wave_at g pos (getAverageDepth sf) bottom T out.
Proof.
  intros Hg Hb Ha Hz Hn Hd Hs (k & Hk & ->) HT. cbn [fst] in HT.
  destruct (time_place (wg_axes g) t k Hn Hd Hk (short_k _ _ _ Hd (proj1 Hk) Hs)) as (w & ft & E & Hw & Hf & _ & Hl & _).
  rewrite <- (Hl HT). now apply wave_kin_at.
Qed.
Lemma wave_in_last g pos t sf bottom T : wgrid_ok g -> getDepth sf (vx pos) (vy pos) = Ok bottom -> getAverageDepth sf <= 0 -> afloat g bottom ->
  (2 <= nt (wg_axes g))%nat -> 0 < dtWave (wg_axes g) -> short (dtWave (wg_axes g)) t ->
  in_time (nt (wg_axes g)) (dtWave (wg_axes g)) t T -> fst (fst T) = (nt (wg_axes g) - 1)%nat ->
  exists out, wave_kin g pos t sf = Ok out /\ wave_at g pos (getAverageDepth sf) bottom (O, O, snd T) out.
Proof.
  intros Hg Hb Ha Hz Hn Hd Hs (k & Hk & ->) HT. cbn [fst snd] in *.
  destruct (time_place (wg_axes g) t k Hn Hd Hk (short_k _ _ _ Hd (proj1 Hk) Hs)) as (w & ft & E & Hw & Hf & Eft & _ & Hl).
  rewrite <- Eft, <- (Hl HT). now apply wave_kin_at.
Qed.
Lemma current_in_time g pos t T : cgrid_ok g -> (2 <= nt (cg_axes g))%nat -> 0 < dtWave (cg_axes g) -> short (dtWave (cg_axes g)) t ->
  in_time (nt (cg_axes g)) (dtWave (cg_axes g)) t T -> fst (fst T) <> (nt (cg_axes g) - 1)%nat ->
  exists out, current_kin g pos t = Ok out /\ current_at g pos T out.
Proof.
  intros Hg Hn Hd Hs (k & Hk & ->) HT. cbn [fst] in HT.
  destruct (time_place (cg_axes g) t k Hn Hd Hk (short_k _ _ _ Hd (proj1 Hk) Hs)) as (w & ft & E & Hw & Hf & _ & Hl & _).
  rewrite <- (Hl HT). now apply current_kin_at.
Qed.
Lemma current_in_last g pos t T : cgrid_ok g -> (2 <= nt (cg_axes g))%nat -> 0 < dtWave (cg_axes g) -> short (dtWave (cg_axes g)) t ->
  in_time (nt (cg_axes g)) (dtWave (cg_axes g)) t T -> fst (fst T) = (nt (cg_axes g) - 1)%nat ->
  exists out, current_kin g pos t = Ok out /\ current_at g pos (O, O, snd T) out.
Proof.
  intros Hg Hn Hd Hs (k & Hk & ->) HT. cbn [fst snd] in *.
  destruct (time_place (cg_axes g) t k Hn Hd Hk (short_k _ _ _ Hd (proj1 Hk) Hs)) as (w & ft & E & Hw & Hf & Eft & _ & Hl).
  rewrite <- Eft, <- (Hl HT). now apply current_kin_at.
Qed.
Lemma wave_steady g pos t sf bottom : wgrid_ok g -> getDepth sf (vx pos) (vy pos) = Ok bottom -> getAverageDepth sf <= 0 -> afloat g bottom ->
  nt (wg_axes g) = 1%nat -> exists out, wave_kin g pos t sf = Ok out /\ wave_at g pos (getAverageDepth sf) bottom (O, O, 0) out.
Proof. intros Hg Hb Ha Hz Hn. apply (wave_kin_at g pos t sf bottom O 0); try assumption; [lra|lia|]. apply time_steady. lia. Qed.
Lemma current_steady g pos t : cgrid_ok g -> nt (cg_axes g) = 1%nat -> exists out, current_kin g pos t = Ok out /\ current_at g pos (O, O, 0) out.
Proof. intros Hg Hn. apply (current_kin_at g pos t O 0); try assumption; [lia|]. apply time_steady. lia. Qed.

(* ------------------------------ consequences of multilinear interpolation ------------------------------ *)
Lemma wave_bounds g pos avg bottom T out : wave_at g pos avg bottom T out -> frac_ok T ->
  (forall lo hi, (forall i j t, (i < length (px (wg_axes g)))%nat -> (j < length (py (wg_axes g)))%nat -> touches T t -> lo <= cell3 0 (wg_zeta g) i j t <= hi) -> lo <= o_zeta out <= hi) /\
  (forall lo hi, (forall i j k t, (i < length (px (wg_axes g)))%nat -> (j < length (py (wg_axes g)))%nat -> (k < length (pz (wg_axes g)))%nat -> touches T t -> lo <= vx (cell4 vzero (wg_vel g) i j k t) <= hi) -> lo <= vx (o_vel out) <= hi) /\
  (forall lo hi, (forall i j k t, (i < length (px (wg_axes g)))%nat -> (j < length (py (wg_axes g)))%nat -> (k < length (pz (wg_axes g)))%nat -> touches T t -> lo <= vy (cell4 vzero (wg_vel g) i j k t) <= hi) -> lo <= vy (o_vel out) <= hi) /\
  (forall lo hi, (forall i j k t, (i < length (px (wg_axes g)))%nat -> (j < length (py (wg_axes g)))%nat -> (k < length (pz (wg_axes g)))%nat -> touches T t -> lo <= vz (cell4 vzero (wg_vel g) i j k t) <= hi) -> lo <= vz (o_vel out) <= hi) /\
  (forall lo hi, (forall i j k t, (i < length (px (wg_axes g)))%nat -> (j < length (py (wg_axes g)))%nat -> (k < length (pz (wg_axes g)))%nat -> touches T t -> lo <= cell4 0 (wg_pdyn g) i j k t <= hi) -> lo <= o_pdyn out <= hi).
Proof.
  intros (X & Y & Z & s & HX & HY & E & _ & HZ & Ev & _ & Ep) HT.
  pose proof (on_axis_frac _ _ _ HX). pose proof (on_axis_frac _ _ _ HY). pose proof (on_axis_frac _ _ _ HZ).
  split; [|split; [|split; [|split]]]; intros lo hi B.
  - rewrite E. apply linear3_within; auto. intros. apply B; eauto using on_axis_touches.
  - rewrite Ev. apply linear4_within; auto. intros. apply B; eauto using on_axis_touches.
  - rewrite Ev. apply linear4_within; auto. intros. apply B; eauto using on_axis_touches.
  - rewrite Ev. apply linear4_within; auto. intros. apply B; eauto using on_axis_touches.
  - rewrite Ep. apply linear4_within; auto. intros. apply B; eauto using on_axis_touches.
Qed.
Lemma current_affine g pos T out c cx cy cz h : current_at g pos T out ->
  (forall i j k t, (i < length (px (cg_axes g)))%nat -> (j < length (py (cg_axes g)))%nat -> (k < length (pz (cg_axes g)))%nat -> touches T t ->
     vx (cell4 vzero (cg_vel g) i j k t) = c + cx * nth i (px (cg_axes g)) 0 + cy * nth j (py (cg_axes g)) 0 + cz * nth k (pz (cg_axes g)) 0 + h t) ->
  vx (fst out) = c + cx * clamp (px (cg_axes g)) (vx pos) + cy * clamp (py (cg_axes g)) (vy pos) + cz * clamp (pz (cg_axes g)) (vz pos) + linear1 h T.
Proof.
  intros (X & Y & Z & HX & HY & HZ & Ev & _) H. rewrite Ev. cbn [vx].
  rewrite <- (linear4_affine (px (cg_axes g)) (py (cg_axes g)) (pz (cg_axes g)) (vx pos) (vy pos) (vz pos) X Y Z T) by assumption.
  unfold linear4, linear3. apply linear1_ext. intros i Hi. apply linear1_ext. intros j Hj. apply linear1_ext. intros k Hk. apply linear1_ext. intros t Ht.
  apply H; [apply (on_axis_touches _ _ _ _ HX Hi)|apply (on_axis_touches _ _ _ _ HY Hj)|apply (on_axis_touches _ _ _ _ HZ Hk)|exact Ht].
Qed.
Lemma current_node g pos T out i j k : cgrid_ok g -> current_at g pos T out ->
  (i < length (px (cg_axes g)))%nat -> (j < length (py (cg_axes g)))%nat -> (k < length (pz (cg_axes g)))%nat ->
  vx pos = nth i (px (cg_axes g)) 0 -> vy pos = nth j (py (cg_axes g)) 0 -> vz pos = nth k (pz (cg_axes g)) 0 ->
  fst out = V3 (linear1 (fun t => vx (cell4 vzero (cg_vel g) i j k t)) T) (linear1 (fun t => vy (cell4 vzero (cg_vel g) i j k t)) T) (linear1 (fun t => vz (cell4 vzero (cg_vel g) i j k t)) T) /\
  snd out = V3 (linear1 (fun t => vx (cell4 vzero (cg_acc g) i j k t)) T) (linear1 (fun t => vy (cell4 vzero (cg_acc g) i j k t)) T) (linear1 (fun t => vz (cell4 vzero (cg_acc g) i j k t)) T).
Proof.
  intros ((Ix & _ & Iy & _ & Iz & _) & _) (X & Y & Z & HX & HY & HZ & Ev & Ea) Hi Hj Hk Ex Ey Ez. rewrite Ex in HX. rewrite Ey in HY. rewrite Ez in HZ.
  rewrite Ev, Ea. unfold vlinear4. split; f_equal; apply (linear4_node (px (cg_axes g)) (py (cg_axes g)) (pz (cg_axes g)) i j k); assumption.
Qed.
Lemma wave_node g pos avg bottom T out i j : wgrid_ok g -> wave_at g pos avg bottom T out ->
  (i < length (px (wg_axes g)))%nat -> (j < length (py (wg_axes g)))%nat ->
  vx pos = nth i (px (wg_axes g)) 0 -> vy pos = nth j (py (wg_axes g)) 0 ->
  o_zeta out = linear1 (cell3 0 (wg_zeta g) i j) T.
Proof.
  intros ((Ix & _ & Iy & _ & _ & _) & _) (X & Y & Z & s & HX & HY & Ez & _) Hi Hj Ex Ey. rewrite Ex in HX. rewrite Ey in HY.
  rewrite Ez. now apply (linear3_node (px (wg_axes g)) (py (wg_axes g))).
Qed.
(** at the surface, or above it, the top of the grid is read; at the sea bed its average depth *)
Lemma wave_above g pos avg bottom T out : wave_at g pos avg bottom T out -> o_zeta out <= vz pos ->
  exists X Y Z, on_axis (px (wg_axes g)) (vx pos) X /\ on_axis (py (wg_axes g)) (vy pos) Y /\ on_axis (pz (wg_axes g)) 0 Z /\
    o_vel out = vlinear4 (wg_vel g) X Y Z T /\ o_acc out = vlinear4 (wg_acc g) X Y Z T.
Proof.
  intros (X & Y & Z & s & HX & HY & _ & (_ & Hs) & HZ & Ev & Ea & _) H. rewrite (Hs H) in HZ. exists X, Y, Z. auto.
Qed.
Lemma wave_bed g pos avg bottom T out : wave_at g pos avg bottom T out -> bottom < o_zeta out -> vz pos = bottom ->
  exists X Y Z, on_axis (px (wg_axes g)) (vx pos) X /\ on_axis (py (wg_axes g)) (vy pos) Y /\ on_axis (pz (wg_axes g)) avg Z /\
    o_vel out = vlinear4 (wg_vel g) X Y Z T /\ o_acc out = vlinear4 (wg_acc g) X Y Z T.
Proof.
  intros (X & Y & Z & s & HX & HY & _ & (Hs & _) & HZ & Ev & Ea & _) H Eb.
  assert (s = avg).
  { specialize (Hs ltac:(lra)). rewrite Eb in Hs. apply Rminus_diag_uniq. apply Rmult_eq_reg_r with (o_zeta out - bottom); lra. }
  subst s. exists X, Y, Z. auto.
Qed.
