(** Property theorems: the wave grids made from a spectrum or from a record of the elevation (C93). *)
From Coq Require Import Reals ZArith List Arith Lra Lia Bool.
From Verif Require Import MErr MVec MMat MStateOps MInterp MSeafloor MWaves MSpec MFFT MFill SInterp SWaves SMat SSpec SSpecB SFFT SFill PInterp PSpec PSpecB PFFTE PFill PFillB.
Import ListNotations.
Open Scope R_scope.

(** C93: the grid made from a spectrum holds, at all its nodes and instants, the samples of linear waves:
    the sum of the components of the evenly resampled spectrum (C91).  Missing: the mean and the highest
    component come with half of their amplitudes, see [C93_mean_halved_refuted]. *)
Theorem C93_spectrum_grid_partial : forall junk fs dw px py pz rho g h, let om := map f_omega fs in
  increasing om -> (2 <= length fs)%nat -> nth 0 om 0 = 0 -> smallest_gap om dw -> last om 0 < IZR (2 ^ 32 - 1) * dw -> 0 < g -> 0 < h ->
  exists ev G F, interpEvenlySpaced fs = Ok ev /\ (2 <= length ev)%nat /\ spectrum_grid junk fs px py pz rho g h = Ok G /\
    wg_axes G = Axes px py pz (2 * (length ev - 1)) (2 * PI / dw / INR (2 * (length ev - 1))) /\ samples G F /\
    linear_waves g h rho ev (share (length ev)) F.
Proof. exact spectrum_run. Qed.
Print Assumptions C93_spectrum_grid_partial.

(** a spectrum without energy in its mean and in its highest frequency is represented in full *)
Theorem C93_spectrum_grid : forall junk fs dw px py pz rho g h, let om := map f_omega fs in
  increasing om -> (2 <= length fs)%nat -> nth 0 om 0 = 0 -> smallest_gap om dw -> last om 0 < IZR (2 ^ 32 - 1) * dw -> 0 < g -> 0 < h ->
  forall ev, interpEvenlySpaced fs = Ok ev ->
  (forall i, i = 0%nat \/ i = (length ev - 1)%nat -> f_re (nc ev i) = 0 /\ f_im (nc ev i) = 0) ->
  exists G F, spectrum_grid junk fs px py pz rho g h = Ok G /\
    wg_axes G = Axes px py pz (2 * (length ev - 1)) (2 * PI / dw / INR (2 * (length ev - 1))) /\ samples G F /\
    linear_waves g h rho ev (fun _ => 1) F.
Proof.
  intros junk fs dw px py pz rho g h om H1 H2 H3 H4 H5 H6 H7 ev E Z. destruct (spectrum_run junk fs dw px py pz rho g h H1 H2 H3 H4 H5 H6 H7) as (ev' & G & F & E' & L & R & A & S & W).
  assert (ev' = ev) by congruence. subst ev'. exists G, F. split; [exact R|]. split; [exact A|]. split; [exact S|].
  apply (waves_share g h rho ev (share (length ev))); [|exact W]. intros i Hi. unfold share. destruct (Nat.eqb_spec i 0) as [->|N0]; [right; apply Z; left; reflexivity|].
  destruct (Nat.eqb_spec i (length ev - 1)) as [->|N1]; [right; apply Z; right; reflexivity|left; reflexivity].
Qed.
Print Assumptions C93_spectrum_grid.

(** a spectrum which does not start at 0 rad/s is rejected *)
Theorem C93_first_frequency : forall junk f fs px py pz rho g h, f_omega f <> 0 -> spectrum_grid junk (f :: fs) px py pz rho g h = Throw ExInvalidValue.
Proof. intros junk f fs px py pz rho g h H. unfold spectrum_grid. destruct (Req_EM_T (f_omega f) 0); [contradiction|reflexivity]. Qed.
Print Assumptions C93_first_frequency.

(** the spectrum of a constant elevation of 2 m: everywhere and at all instants the grid has 1 m *)
Definition mean_of_2 : list fcomp := [FComp 0 2 0 0; FComp 1 0 0 0].
Lemma mean_hyp : let om := map f_omega mean_of_2 in increasing om /\ nth 0 om 0 = 0 /\ smallest_gap om 1 /\ last om 0 < IZR (2 ^ 32 - 1) * 1 /\ interpEvenlySpaced mean_of_2 = Ok mean_of_2.
Proof.
  cbn [mean_of_2 map f_omega]. split; [|split; [reflexivity|split; [|split]]].
  - intros i j [H1 H2]. cbn in H2. destruct i as [|[|i]], j as [|[|j]]; try lia. cbn. lra.
  - split; [|exists 0%nat; cbn [nth length]; split; [lia|lra]]. intros [|i] Hi; cbn in *; [lra|lia].
  - cbn [last]. replace (2 ^ 32 - 1)%Z with 4294967295%Z by reflexivity. lra.
  - apply (resample_even _ 1); [lra|cbn; lia| |].
    + cbn [length Nat.sub INR mean_of_2]. replace (2 ^ 32 - 1)%Z with 4294967295%Z by reflexivity. lra.
    + intros [|[|k]] Hk; cbn [mean_of_2 length nth f_omega INR] in *; try lra; lia.
Qed.
Theorem C93_mean_halved_refuted : forall junk, exists G, spectrum_grid junk mean_of_2 [0; 10] [0] [-5; 0] 1025 9.8 20 = Ok G /\
  forall ix r, (ix < 2)%nat -> (r < 2)%nat -> cell3 0 (wg_zeta G) ix 0 r = 1.
Proof.
  intros junk. destruct mean_hyp as (H1 & H3 & H4 & H5 & E).
  destruct (spectrum_run junk mean_of_2 1 [0; 10] [0] [-5; 0] 1025 9.8 20 H1 ltac:(cbn; lia) H3 H4 H5 ltac:(lra) ltac:(lra)) as (ev & G & F & E' & L & R & A & (_ & _ & _ & _ & S) & (ka & Q & W & _ & K0 & _)).
  assert (ev = mean_of_2) by congruence. subst ev. exists G. split; [exact R|]. intros ix r Hx Hr. rewrite A in S. cbn [MWaves.px MWaves.py MWaves.nt length mean_of_2 Nat.sub Nat.mul Nat.add] in S.
  destruct (S ix 0%nat r Hx ltac:(lia) Hr) as [-> _]. rewrite W. cbn [length mean_of_2 rsum nc nth]. unfold real_wave, share. cbn [f_omega f_beta f_re f_im Nat.eqb Nat.sub orb]. cbv zeta. rewrite K0.
  match goal with |- context [cos ?a] => match a with 0 * _ - 0 * _ => replace a with 0 by ring end end. rewrite cos_0. field.
Qed.
Print Assumptions C93_mean_halved_refuted.

(** the same file means different waves for the grid and for the sum of components (C90): the crest of
    the former is where the latter crosses the mean level *)
Definition one_crest : list fcomp := [FComp 0 0 0 0; FComp 1 1 0 0; FComp 2 0 0 0].
Lemma crest_hyp : let om := map f_omega one_crest in increasing om /\ nth 0 om 0 = 0 /\ smallest_gap om 1 /\ last om 0 < IZR (2 ^ 32 - 1) * 1 /\ interpEvenlySpaced one_crest = Ok one_crest.
Proof.
  cbn [one_crest map f_omega]. split; [|split; [reflexivity|split; [|split]]].
  - intros i j [H1 H2]. cbn in H2. destruct i as [|[|[|i]]], j as [|[|[|j]]]; try lia; cbn; lra.
  - split; [|exists 0%nat; cbn [nth length]; split; [lia|lra]]. intros [|[|i]] Hi; cbn in *; [lra|lra|lia].
  - cbn [last]. replace (2 ^ 32 - 1)%Z with 4294967295%Z by reflexivity. lra.
  - apply (resample_even _ 1); [lra|cbn; lia| |].
    + cbn [length Nat.sub INR one_crest]. replace (2 ^ 32 - 1)%Z with 4294967295%Z by reflexivity. lra.
    + intros [|[|[|k]]] Hk; cbn [one_crest length nth f_omega INR] in *; try lra; lia.
Qed.
Theorem C93_modes_disagree_refuted : forall junk, exists G out, spectrum_grid junk one_crest [0] [0] [-5] 1025 9.8 20 = Ok G /\ cell3 0 (wg_zeta G) 0 0 0 = 1 /\
  spectrum_kin (setup 9.8 20 one_crest) (V3 0 0 (-5)) 0 (Prov (-20) None) = Ok out /\ o_zeta out = 0.
Proof.
  intros junk. destruct crest_hyp as (H1 & H3 & H4 & H5 & E).
  destruct (spectrum_run junk one_crest 1 [0] [0] [-5] 1025 9.8 20 H1 ltac:(cbn; lia) H3 H4 H5 ltac:(lra) ltac:(lra)) as (ev & G & F & E' & L & R & A & (_ & _ & _ & _ & S) & (ka & Q & W & _)).
  assert (ev = one_crest) by congruence. subst ev.
  assert (Z : elev (setup 9.8 20 one_crest) 0 0 0 = 0). { rewrite elev_setup. cbn [one_crest lsum f_omega f_beta f_re f_im]. cbv zeta. assert (P : forall w k, w * 0 - k * (cos 0 * 0 + sin 0 * 0) = 0) by (intros; ring). rewrite !P, sin_0. ring. }
  destruct (kin_run (setup 9.8 20 one_crest) (V3 0 0 (-5)) 0 (Prov (-20) None) (-20) 20) as (out & s & K & OZ & _); [reflexivity|lra|reflexivity|cbn [vx vy]; rewrite Z; lra|].
  exists G, out. split; [exact R|]. split; [|split; [exact K|rewrite OZ; exact Z]].
  rewrite A in S. cbn [MWaves.px MWaves.py MWaves.nt length one_crest Nat.sub Nat.mul Nat.add nth] in S. destruct (S 0%nat 0%nat 0%nat ltac:(lia) ltac:(lia) ltac:(lia)) as [-> _]. rewrite W. cbn [length one_crest rsum nc nth]. unfold real_wave, share. cbn [f_omega f_beta f_re f_im Nat.eqb Nat.sub orb INR]. cbv zeta.
  assert (P : forall w k d, w * (0 * d) - k * (cos 0 * 0 + sin 0 * 0) = 0) by (intros; ring). rewrite !P, cos_0, sin_0. field.
Qed.
Print Assumptions C93_modes_disagree_refuted.

(** the grid made from a record of the elevation: the record is resampled every dtWave by linear
    interpolation, an odd sample at the end is dropped, and the grid holds the samples of linear waves
    along x, the components of the record up to pi rad/s (0.5 Hz).  With dtWave >= 1 s nothing is cut and
    the elevation at x = 0 is the record.  Missing: faster waves are lost, see [C93_fast_waves_refuted];
    the components at 0 rad/s and at the highest frequency are halved when they are shown at a place (as
    they should: the transform counts them twice). *)
Theorem C93_elevation_grid_partial : forall junk ts es dt px py pz rho g h,
  increasing ts -> (2 <= length ts)%nat -> length es = length ts -> 0 < dt -> dt <= last ts 0 < IZR (2 ^ 32 - 1) * dt -> 0 < g -> 0 < h ->
  exists m G F rec, (0 < m)%nat /\ INR (2 * m - 1) * dt <= last ts 0 < INR (2 * m + 1) * dt /\
    elevation_grid junk ts es dt px py pz rho g h = Ok G /\ wg_axes G = Axes px py pz (2 * m) dt /\ samples G F /\
    (forall r, (r < 2 * m)%nat -> lin_interp ts es (INR r * dt) (rec r)) /\
    (let A := fun i => if Rlt_dec PI (INR i * (PI / (dt * INR m))) then Cx 0 0 else real_dft (2 * m) rec i in
     linear_waves g h rho (map (fun i => FComp (INR i * (PI / (dt * INR m))) (re (A i) / INR m) (im (A i) / INR m) 0) (seq 0 (m + 1))) (share (m + 1)) F) /\
    (1 <= dt -> forall y r, (r < 2 * m)%nat -> wf_eta F 0 y (INR r * dt) = rec r).
Proof. exact elevation_run. Qed.
Print Assumptions C93_elevation_grid_partial.

(** a record of waves of 1 s: the grid is calm *)
Definition fast_t : list R := [0; 1 / 2; 1; 3 / 2].
Definition fast_e : list R := [1; -1; 1; -1].
Lemma fast_inc : increasing fast_t.
Proof. intros i j [H1 H2]. cbn in H2. destruct i as [|[|[|[|i]]]], j as [|[|[|[|j]]]]; try lia; cbn; lra. Qed.
Theorem C93_fast_waves_refuted : forall junk, exists G, elevation_grid junk fast_t fast_e (1 / 2) [0] [0] [-5] 1025 9.8 20 = Ok G /\
  wg_axes G = Axes [0] [0] [-5] 4 (1 / 2) /\ forall r, (r < 4)%nat -> cell3 0 (wg_zeta G) 0 0 r = 0.
Proof.
  intros junk. destruct (elevation_run junk fast_t fast_e (1 / 2) [0] [0] [-5] 1025 9.8 20 fast_inc ltac:(cbn; lia) eq_refl ltac:(lra)) as (m & G & F & rec & Hm & Hr & R & A & (_ & _ & _ & _ & S) & LI & (ka & Q & W & _) & _); [cbn [last fast_t]; replace (2 ^ 32 - 1)%Z with 4294967295%Z by reflexivity; lra|lra|lra|].
  assert (m = 2)%nat.
  { cbn [last fast_t] in Hr. destruct Hr as [L1 L2]. assert (I4 : INR 4 = 4) by (cbn; lra). assert (I3 : INR 3 = 3) by (cbn; lra). assert (H : INR (2 * m - 1) < INR 4) by lra. assert (H0 : INR 3 < INR (2 * m + 1)) by lra. apply INR_lt in H, H0. lia. }
  subst m. exists G. split; [exact R|]. split; [exact A|]. intros r Hr'. rewrite A in S. cbn [MWaves.px MWaves.py MWaves.nt length Nat.mul Nat.add nth] in S. destruct (S 0%nat 0%nat r ltac:(lia) ltac:(lia) Hr') as [-> _]. rewrite W.
  assert (R0 : rec 0%nat = 1). { destruct (LI 0%nat ltac:(lia)) as [L _]. cbn [fast_t fast_e nth INR] in L. apply L. lra. }
  assert (R1 : rec 1%nat = -1). { destruct (LI 1%nat ltac:(lia)) as (_ & _ & L). specialize (L 0%nat). cbn [fast_t fast_e nth INR length] in L. specialize (L ltac:(lia) ltac:(lra)). lra. }
  assert (R2 : rec 2%nat = 1). { destruct (LI 2%nat ltac:(lia)) as (_ & _ & L). specialize (L 1%nat). cbn [fast_t fast_e nth INR length] in L. specialize (L ltac:(lia) ltac:(lra)). lra. }
  assert (R3 : rec 3%nat = -1). { destruct (LI 3%nat ltac:(lia)) as (_ & L & _). cbn [fast_t fast_e nth INR length Nat.sub] in L. apply L. lra. }
  rewrite map_length, seq_length. cbn [Nat.add rsum seq map nc nth]. unfold real_wave. cbn [f_omega f_beta f_re f_im]. cbv zeta.
  replace (INR 2) with 2 by reflexivity. replace (INR 1) with 1 by reflexivity. replace (INR 0) with 0 by reflexivity. pose proof PI_RGT_0 as PP.
  destruct (Rlt_dec PI (0 * (PI / (1 / 2 * 2)))) as [X|_]; [exfalso; replace (0 * (PI / (1 / 2 * 2))) with 0 in X by ring; lra|].
  destruct (Rlt_dec PI (1 * (PI / (1 / 2 * 2)))) as [X|_]; [exfalso; replace (1 * (PI / (1 / 2 * 2))) with PI in X by field; lra|].
  destruct (Rlt_dec PI (2 * (PI / (1 / 2 * 2)))) as [_|X]; [|exfalso; apply X; replace (2 * (PI / (1 / 2 * 2))) with (2 * PI) by field; lra].
  assert (D0 : real_dft (2 * 2) rec 0 = Cx 0 0).
  { unfold real_dft. cbn [Nat.mul Nat.add rsum]. rewrite R0, R1, R2, R3. replace (INR 0) with 0 by reflexivity. replace (2 * PI * 0 / INR 4) with 0 by (unfold Rdiv; ring). rewrite cos_0, sin_0. f_equal; ring. }
  assert (D1 : real_dft (2 * 2) rec 1 = Cx 0 0).
  { unfold real_dft. cbn [Nat.mul Nat.add rsum]. rewrite R0, R1, R2, R3. replace (INR 4) with 4 by (cbn; lra). replace (INR 3) with 3 by (cbn; lra). replace (INR 2) with 2 by reflexivity. replace (INR 1) with 1 by reflexivity. replace (INR 0) with 0 by reflexivity.
    replace (2 * PI * 0 / 4) with 0 by field. replace (2 * PI * 1 / 4) with (PI / 2) by field. replace (2 * PI * 2 / 4) with PI by field. replace (2 * PI * 3 / 4) with (3 * (PI / 2)) by field.
    rewrite cos_0, sin_0, cos_PI2, sin_PI2, cos_PI, sin_PI, cos_3PI2, sin_3PI2. f_equal; ring. }
  rewrite D0, D1. cbn [re im]. unfold Rdiv. ring.
Qed.
Print Assumptions C93_fast_waves_refuted.

(* ------------------------------ the hypotheses are met ------------------------------ *)
Example C93_case : let om := map f_omega one_crest in increasing om /\ nth 0 om 0 = 0 /\ smallest_gap om 1 /\ last om 0 < IZR (2 ^ 32 - 1) * 1 /\ interpEvenlySpaced one_crest = Ok one_crest.
Proof. exact crest_hyp. Qed.
(** a record of 4 s every second, shown at the origin *)
Example C93_record_case : forall junk, exists G, elevation_grid junk [0; 1; 2; 3] [5; 6; 8; 4] 1 [0] [0] [-5] 1025 9.8 20 = Ok G /\ cell3 0 (wg_zeta G) 0 0 2 = 8.
Proof.
  intros junk. destruct (elevation_run junk [0; 1; 2; 3] [5; 6; 8; 4] 1 [0] [0] [-5] 1025 9.8 20) as (m & G & F & rec & Hm & Hr & R & A & (_ & _ & _ & _ & S) & LI & _ & K); try lra; try reflexivity; try (cbn; lia).
  - intros i j [H1 H2]. cbn in H2. destruct i as [|[|[|[|i]]]], j as [|[|[|[|j]]]]; try lia; cbn; lra.
  - cbn [last]. replace (2 ^ 32 - 1)%Z with 4294967295%Z by reflexivity. lra.
  - exists G. split; [exact R|]. cbn [last] in Hr. destruct Hr as [L1 L2]. assert (I4 : INR 4 = 4) by (cbn; lra). assert (I3 : INR 3 = 3) by (cbn; lra). assert (H : INR (2 * m - 1) < INR 4) by lra. assert (H0 : INR 3 < INR (2 * m + 1)) by lra. apply INR_lt in H, H0.
    assert (m = 2)%nat by lia. subst m. rewrite A in S. cbn [MWaves.px MWaves.py MWaves.nt MWaves.dtWave length Nat.mul Nat.add nth] in S. destruct (S 0%nat 0%nat 2%nat ltac:(lia) ltac:(lia) ltac:(lia)) as [-> _].
    rewrite K by (lra || lia). destruct (LI 2%nat ltac:(lia)) as (_ & _ & L). specialize (L 1%nat). cbn [nth INR length] in L. specialize (L ltac:(lia) ltac:(lra)). lra.
Qed.
