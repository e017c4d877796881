(** Property theorems: wave and current grids (C52, C53, C80, C81). *)
From Coq Require Import Reals ZArith List Arith Lra Lia.
From Verif Require Import MErr MVec MStateOps MInterp MSeafloor MWaves SInterp PInterp SWaves SWavesG PWaves PWavesB.
Import ListNotations.
Open Scope R_scope.

(** C52: within a period the elevation, velocity, acceleration and pressure are the linear interpolation
    between the two neighbouring samples; missing: the last interval of each period, where the claim is
    false, and times beyond 2^32 samples. *)
Theorem C52_wave_samples_partial : forall g pos t sf bottom T,
  wgrid_ok g -> getDepth sf (vx pos) (vy pos) = Ok bottom -> getAverageDepth sf <= 0 -> afloat g bottom ->
  (2 <= nt (wg_axes g))%nat -> 0 < dtWave (wg_axes g) -> short (dtWave (wg_axes g)) t ->
  in_time (nt (wg_axes g)) (dtWave (wg_axes g)) t T -> fst (fst T) <> (nt (wg_axes g) - 1)%nat ->
  exists out, wave_kin g pos t sf = Ok out /\ wave_at g pos (getAverageDepth sf) bottom T out.
Proof. exact wave_in_time. Qed.
Print Assumptions C52_wave_samples_partial.

Theorem C52_current_samples_partial : forall g pos t T,
  cgrid_ok g -> (2 <= nt (cg_axes g))%nat -> 0 < dtWave (cg_axes g) -> short (dtWave (cg_axes g)) t ->
  in_time (nt (cg_axes g)) (dtWave (cg_axes g)) t T -> fst (fst T) <> (nt (cg_axes g) - 1)%nat ->
  exists out, current_kin g pos t = Ok out /\ current_at g pos T out.
Proof. exact current_in_time. Qed.
Print Assumptions C52_current_samples_partial.

(** during the whole last interval of every period, also at the instant of the last sample, the first
    sample is returned *)
Theorem C52_wave_last_interval_refuted : forall g pos t sf bottom T,
  wgrid_ok g -> getDepth sf (vx pos) (vy pos) = Ok bottom -> getAverageDepth sf <= 0 -> afloat g bottom ->
  (2 <= nt (wg_axes g))%nat -> 0 < dtWave (wg_axes g) -> short (dtWave (wg_axes g)) t ->
  in_time (nt (wg_axes g)) (dtWave (wg_axes g)) t T -> fst (fst T) = (nt (wg_axes g) - 1)%nat ->
  exists out, wave_kin g pos t sf = Ok out /\ wave_at g pos (getAverageDepth sf) bottom (O, O, snd T) out.
Proof. exact wave_in_last. Qed.
Print Assumptions C52_wave_last_interval_refuted.

Theorem C52_current_last_interval_refuted : forall g pos t T,
  cgrid_ok g -> (2 <= nt (cg_axes g))%nat -> 0 < dtWave (cg_axes g) -> short (dtWave (cg_axes g)) t ->
  in_time (nt (cg_axes g)) (dtWave (cg_axes g)) t T -> fst (fst T) = (nt (cg_axes g) - 1)%nat ->
  exists out, current_kin g pos t = Ok out /\ current_at g pos (O, O, snd T) out.
Proof. exact current_in_last. Qed.
Print Assumptions C52_current_last_interval_refuted.

(** steady tables do not depend on the time *)
Theorem C52_wave_steady : forall g pos t sf bottom,
  wgrid_ok g -> getDepth sf (vx pos) (vy pos) = Ok bottom -> getAverageDepth sf <= 0 -> afloat g bottom ->
  nt (wg_axes g) = 1%nat -> exists out, wave_kin g pos t sf = Ok out /\ wave_at g pos (getAverageDepth sf) bottom (O, O, 0) out.
Proof. exact wave_steady. Qed.
Print Assumptions C52_wave_steady.
Theorem C52_current_steady : forall g pos t, cgrid_ok g -> nt (cg_axes g) = 1%nat ->
  exists out, current_kin g pos t = Ok out /\ current_at g pos (O, O, 0) out.
Proof. exact current_steady. Qed.
Print Assumptions C52_current_steady.

(** C53 *)
Theorem C53_lattice : forall (tok : Type) (atof : tok -> R) stoul e0 e1 e2 n, stoul e2 = Ok (Z.of_nat n) -> (2 <= n)%nat -> (Z.of_nat n < 2 ^ 32)%Z ->
  exists l, gridAxisCoords atof stoul GRID_LATTICE [e0; e1; e2] = Ok l /\ length l = n /\
    forall i, (i < n)%nat -> nth i l 0 = atof e0 + INR i * ((atof e1 - atof e0) / INR (n - 1)).
Proof. exact @lattice_axis. Qed.
Print Assumptions C53_lattice.
Theorem C53_lattice_increasing : forall (tok : Type) (atof : tok -> R) stoul e0 e1 e2 n l, stoul e2 = Ok (Z.of_nat n) -> (2 <= n)%nat -> (Z.of_nat n < 2 ^ 32)%Z ->
  atof e0 < atof e1 -> gridAxisCoords atof stoul GRID_LATTICE [e0; e1; e2] = Ok l ->
  increasing l /\ nth 0 l 0 = atof e0 /\ nth (n - 1) l 0 = atof e1.
Proof. exact @lattice_increasing. Qed.
Print Assumptions C53_lattice_increasing.
Theorem C53_list : forall (tok : Type) (atof : tok -> R) stoul l, gridAxisCoords atof stoul GRID_LIST l = Ok (map atof l).
Proof. reflexivity. Qed.
Print Assumptions C53_list.

(** C80: the water column is stretched; above the surface the values of the surface apply, at the sea
    bed those of the bottom of the grid *)
Theorem C80_above : forall g pos avg bottom T out, wave_at g pos avg bottom T out -> o_zeta out <= vz pos ->
  exists X Y Z, on_axis (px (wg_axes g)) (vx pos) X /\ on_axis (py (wg_axes g)) (vy pos) Y /\ on_axis (pz (wg_axes g)) 0 Z /\
    o_vel out = vlinear4 (wg_vel g) X Y Z T /\ o_acc out = vlinear4 (wg_acc g) X Y Z T.
Proof. exact wave_above. Qed.
Print Assumptions C80_above.
Theorem C80_bed : forall g pos avg bottom T out, wave_at g pos avg bottom T out -> bottom < o_zeta out -> vz pos = bottom ->
  exists X Y Z, on_axis (px (wg_axes g)) (vx pos) X /\ on_axis (py (wg_axes g)) (vy pos) Y /\ on_axis (pz (wg_axes g)) avg Z /\
    o_vel out = vlinear4 (wg_vel g) X Y Z T /\ o_acc out = vlinear4 (wg_acc g) X Y Z T.
Proof. exact wave_bed. Qed.
Print Assumptions C80_bed.

(** C81: grid values at the nodes, bounds, exactness for affine fields *)
Theorem C81_wave_node : forall g pos avg bottom T out i j, wgrid_ok g -> wave_at g pos avg bottom T out ->
  (i < length (px (wg_axes g)))%nat -> (j < length (py (wg_axes g)))%nat ->
  vx pos = nth i (px (wg_axes g)) 0 -> vy pos = nth j (py (wg_axes g)) 0 ->
  o_zeta out = linear1 (cell3 0 (wg_zeta g) i j) T.
Proof. exact wave_node. Qed.
Print Assumptions C81_wave_node.
Theorem C81_current_node : forall g pos T out i j k, cgrid_ok g -> current_at g pos T out ->
  (i < length (px (cg_axes g)))%nat -> (j < length (py (cg_axes g)))%nat -> (k < length (pz (cg_axes g)))%nat ->
  vx pos = nth i (px (cg_axes g)) 0 -> vy pos = nth j (py (cg_axes g)) 0 -> vz pos = nth k (pz (cg_axes g)) 0 ->
  fst out = V3 (linear1 (fun t => vx (cell4 vzero (cg_vel g) i j k t)) T) (linear1 (fun t => vy (cell4 vzero (cg_vel g) i j k t)) T) (linear1 (fun t => vz (cell4 vzero (cg_vel g) i j k t)) T) /\
  snd out = V3 (linear1 (fun t => vx (cell4 vzero (cg_acc g) i j k t)) T) (linear1 (fun t => vy (cell4 vzero (cg_acc g) i j k t)) T) (linear1 (fun t => vz (cell4 vzero (cg_acc g) i j k t)) T).
Proof. exact current_node. Qed.
Print Assumptions C81_current_node.
Theorem C81_wave_bounds : forall g pos avg bottom T out, wave_at g pos avg bottom T out -> frac_ok T ->
  (forall lo hi, (forall i j t, (i < length (px (wg_axes g)))%nat -> (j < length (py (wg_axes g)))%nat -> touches T t -> lo <= cell3 0 (wg_zeta g) i j t <= hi) -> lo <= o_zeta out <= hi) /\
  (forall lo hi, (forall i j k t, (i < length (px (wg_axes g)))%nat -> (j < length (py (wg_axes g)))%nat -> (k < length (pz (wg_axes g)))%nat -> touches T t -> lo <= vx (cell4 vzero (wg_vel g) i j k t) <= hi) -> lo <= vx (o_vel out) <= hi) /\
  (forall lo hi, (forall i j k t, (i < length (px (wg_axes g)))%nat -> (j < length (py (wg_axes g)))%nat -> (k < length (pz (wg_axes g)))%nat -> touches T t -> lo <= vy (cell4 vzero (wg_vel g) i j k t) <= hi) -> lo <= vy (o_vel out) <= hi) /\
  (forall lo hi, (forall i j k t, (i < length (px (wg_axes g)))%nat -> (j < length (py (wg_axes g)))%nat -> (k < length (pz (wg_axes g)))%nat -> touches T t -> lo <= vz (cell4 vzero (wg_vel g) i j k t) <= hi) -> lo <= vz (o_vel out) <= hi) /\
  (forall lo hi, (forall i j k t, (i < length (px (wg_axes g)))%nat -> (j < length (py (wg_axes g)))%nat -> (k < length (pz (wg_axes g)))%nat -> touches T t -> lo <= cell4 0 (wg_pdyn g) i j k t <= hi) -> lo <= o_pdyn out <= hi).
Proof. exact wave_bounds. Qed.
Print Assumptions C81_wave_bounds.
Theorem C81_current_affine : forall g pos T out c cx cy cz h, current_at g pos T out ->
  (forall i j k t, (i < length (px (cg_axes g)))%nat -> (j < length (py (cg_axes g)))%nat -> (k < length (pz (cg_axes g)))%nat -> touches T t ->
     vx (cell4 vzero (cg_vel g) i j k t) = c + cx * nth i (px (cg_axes g)) 0 + cy * nth j (py (cg_axes g)) 0 + cz * nth k (pz (cg_axes g)) 0 + h t) ->
  vx (fst out) = c + cx * clamp (px (cg_axes g)) (vx pos) + cy * clamp (py (cg_axes g)) (vy pos) + cz * clamp (pz (cg_axes g)) (vz pos) + linear1 h T.
Proof. exact current_affine. Qed.
Print Assumptions C81_current_affine.

(* ------------------------------ the hypotheses are met ------------------------------ *)
(** one column of water of depth 10 with three samples, every second; the second elevation is 1 *)
Definition gax : axes := Axes [0] [0] [-10; 0] 3 1.
Definition gex : wgrid :=
  WGrid gax [[[0; 1; 2]]] [[[[0; 0; 0]; [0; 1; 2]]]]
    [[[[vzero; vzero; vzero]; [vzero; V3 1 0 0; V3 2 0 0]]]] [[[[vzero; vzero; vzero]; [vzero; vzero; vzero]]]].
Definition flat10 : provider := Prov (-10) None.
Lemma gex_ok : wgrid_ok gex.
Proof.
  unfold wgrid_ok, axes_ok, gex, gax. cbn. repeat split; try discriminate; repeat constructor.
  - intros i j H. cbn in H. lia.
  - intros i j H. cbn in H. lia.
  - intros i j H. cbn in H. destruct i as [|[|i]], j as [|[|j]]; try lia; cbn; lra.
Qed.
Lemma gex_afloat : afloat gex (-10).
Proof.
  intros i j k Hi Hj Hk. cbn in Hi, Hj, Hk. destruct i; [|lia]. destruct j; [|lia]. destruct k as [|[|[|k]]]; try lia; cbn; lra.
Qed.
(** half a second after the start: within the first interval *)
Example C52_case : exists out, wave_kin gex (V3 0 0 0) (1/2) flat10 = Ok out /\ o_zeta out = 1/2.
Proof.
  destruct (C52_wave_samples_partial gex (V3 0 0 0) (1/2) flat10 (-10) (0%nat, 1%nat, 1/2)) as (out & E & H).
  - apply gex_ok. - reflexivity. - cbn; lra. - apply gex_afloat. - cbn; lia. - cbn; lra. - unfold short; cbn; lra.
  - exists O. cbn. split; [lra|]. f_equal. field. - cbn; lia.
  - exists out. split; [exact E|]. rewrite (C81_wave_node gex (V3 0 0 0) _ _ _ out 0 0 gex_ok H) by (cbn; try lia; reflexivity).
    cbn. unfold between. field.
Qed.
(** at the instant of the last sample the elevation is 2, but the table yields the first sample, 0 *)
Example C52_last_case : exists out, wave_kin gex (V3 0 0 0) 2 flat10 = Ok out /\ o_zeta out = 0 /\
  in_time 3 1 2 (2%nat, 0%nat, 0) /\ linear1 (cell3 0 (wg_zeta gex) 0 0) (2%nat, 0%nat, 0) = 2.
Proof.
  assert (T : in_time 3 1 2 (2%nat, 0%nat, 0)). { exists 2%nat. cbn. split; [lra|]. f_equal. field. }
  destruct (C52_wave_last_interval_refuted gex (V3 0 0 0) 2 flat10 (-10) (2%nat, 0%nat, 0)) as (out & E & H).
  - apply gex_ok. - reflexivity. - cbn; lra. - apply gex_afloat. - cbn; lia. - cbn; lra. - unfold short; cbn; lra.
  - exact T. - reflexivity.
  - exists out. split; [exact E|]. split; [|split; [exact T|cbn; unfold between; ring]].
    rewrite (C81_wave_node gex (V3 0 0 0) _ _ _ out 0 0 gex_ok H) by (cbn; try lia; reflexivity). cbn. unfold between. ring.
Qed.
(** a current increasing linearly with the height: 10 + z *)
Definition cex : cgrid := CGrid (Axes [0] [0] [-10; 0] 1 0) [[[[vzero]; [V3 10 0 0]]]] [[[[vzero]; [vzero]]]].
Lemma cex_ok : cgrid_ok cex.
Proof.
  unfold cgrid_ok, axes_ok, cex. cbn. repeat split; try discriminate; repeat constructor.
  - intros i j H. cbn in H. lia.
  - intros i j H. cbn in H. lia.
  - intros i j H. cbn in H. destruct i as [|[|i]], j as [|[|j]]; try lia; cbn; lra.
Qed.
Example C81_affine_case t : exists out, current_kin cex (V3 7 7 (-3)) t = Ok out /\ vx (fst out) = 7.
Proof.
  destruct (C52_current_steady cex (V3 7 7 (-3)) t cex_ok eq_refl) as (out & E & H). exists out. split; [exact E|].
  rewrite (C81_current_affine cex _ _ out 10 0 0 1 (fun _ => 0) H).
  - cbn. unfold clamp, between. cbn. rewrite (Rmin_right 0 (-3)) by lra. rewrite (Rmax_right (-10) (-3)) by lra. lra.
  - intros i j k w Hi Hj Hk [Hw|Hw]; cbn in Hi, Hj, Hk, Hw; subst w; destruct i; try lia; destruct j; try lia; destruct k as [|[|k]]; try lia; cbn; lra.
Qed.
Example C80_above_case : exists out, wave_kin gex (V3 0 0 5) (1/2) flat10 = Ok out /\ o_zeta out <= 5 /\ vx (o_vel out) = 1/2.
Proof.
  destruct (C52_wave_samples_partial gex (V3 0 0 5) (1/2) flat10 (-10) (0%nat, 1%nat, 1/2)) as (out & E & H).
  - apply gex_ok. - reflexivity. - cbn; lra. - apply gex_afloat. - cbn; lia. - cbn; lra. - unfold short; cbn; lra.
  - exists O. cbn. split; [lra|]. f_equal. field. - cbn; lia.
  - exists out. split; [exact E|]. assert (Hz : o_zeta out = 1/2).
    { rewrite (C81_wave_node gex (V3 0 0 5) _ _ _ out 0 0 gex_ok H) by (cbn; try lia; reflexivity). cbn. unfold between. field. }
    split; [lra|]. destruct (C80_above gex (V3 0 0 5) _ _ _ out H) as (X & Y & Z & HX & HY & HZ & Ev & _); [cbn; lra|].
    rewrite Ev. unfold vlinear4. cbn [vx]. rewrite (linear4_node [0] [0] [-10; 0] 0 0 1) by (try assumption; try (cbn; lia); apply gex_ok).
    cbn. unfold between. field.
Qed.
(** five points from 0 to 8 *)
Example C53_case : exists l, gridAxisCoords (fun x : R => x) (fun _ => Ok 5%Z) GRID_LATTICE [0; 8; 5] = Ok l /\ length l = 5%nat /\ nth 3 l 0 = 6.
Proof.
  destruct (C53_lattice R (fun x => x) (fun _ => Ok 5%Z) 0 8 5 5) as (l & E & Hl & Hn); [reflexivity|lia|lia|].
  exists l. split; [exact E|]. split; [exact Hl|]. rewrite Hn by lia. cbn. field.
Qed.
