(** Proofs about the construction of wave grids *)
From Coq Require Import Reals ZArith List Arith Lra Lia Bool.
From Verif Require Import MErr MVec MMat MStateOps MInterp MSeafloor MWaves MSpec MFFT MFill SInterp SWaves SMat SSpec SFFT SFill PEuler PSpec PFFT PFFTB PFFTC PFFTD PFFTE.
Import ListNotations.
Open Scope R_scope.

(* ------------------------------ the loops ------------------------------ *)
Lemma each_all {A B} (f : A -> option B) (g : A -> B) l : (forall a, f a = Some (g a)) -> each f l = Some (map g l).
Proof. intros H. induction l as [|a l IH]; [reflexivity|]. cbn. rewrite H, IH. reflexivity. Qed.
Definition sampled (n : nat) (A : nat -> cpx) : list R := map (fun r => real_signal (n / 2) A r / INR n) (seq 0 n).
Lemma doIFFT_ok junk cfg h A : rstate cfg h true -> doIFFT junk cfg (2 * h) A = Some (sampled (2 * h) A).
Proof.
  intros S. unfold doIFFT. pose proof S as (Hh & _). assert (E : (2 * h / 2 = h)%nat) by (rewrite Nat.mul_comm, Nat.div_mul; lia). rewrite E.
  destruct (fftri_signal cfg h (fun i => if (i <? h + 1)%nat then A i else junk i) junk junk S) as (x & -> & P). f_equal. unfold sampled. rewrite E.
  apply map_ext_in. intros r Hr. apply in_seq in Hr. rewrite P by lia. f_equal. apply signal_ext; [exact Hh|]. intros k Hk.
  replace (k <? h + 1)%nat with true by (symmetry; apply Nat.ltb_lt; lia). reflexivity.
Qed.
Lemma zip3_map (n : nat) (a b c : nat -> R) l : zip3 (map a l) (map b l) (map c l) = map (fun r => V3 (a r) (b r) (c r)) l.
Proof. induction l as [|x l IH]; [reflexivity|]. cbn. rewrite IH. reflexivity. Qed.
Definition sampled3 (n : nat) (A B C : nat -> cpx) : list v3 :=
  map (fun r => V3 (real_signal (n / 2) A r / INR n) (real_signal (n / 2) B r / INR n) (real_signal (n / 2) C r / INR n)) (seq 0 n).
Lemma ifft3_ok junk cfg h A B C : rstate cfg h true -> ifft3 junk cfg (2 * h) A B C = Some (sampled3 (2 * h) A B C).
Proof. intros S. unfold ifft3. rewrite !(doIFFT_ok junk cfg h _ S). f_equal. unfold sampled. rewrite (zip3_map (2 * h)). reflexivity. Qed.

(* ------------------------------ signals ------------------------------ *)
Lemma rsum_plus n f g : rsum n (fun i => f i + g i) = rsum n f + rsum n g.
Proof. induction n as [|n IH]; cbn; [ring|rewrite IH; ring]. Qed.
Lemma rsum_scal n a f : rsum n (fun i => a * f i) = a * rsum n f.
Proof. induction n as [|n IH]; cbn; [ring|rewrite IH; ring]. Qed.
Lemma rsum_first n f : rsum (S n) f = f 0%nat + rsum n (fun i => f (S i)).
Proof. induction n as [|n IH]; [cbn; ring|]. change (rsum (S (S n)) f) with (rsum (S n) f + f (S n)). rewrite IH. cbn. ring. Qed.
Definition turn (c : cpx) (a : R) : R := re c * cos a - im c * sin a.
Lemma signal_sum h A r : (0 < h)%nat -> real_signal h A r / INR (2 * h) = rsum (S h) (fun i => share (S h) i * (turn (A i) (2 * PI * INR (i * r) / INR (2 * h)) / INR h)).
Proof.
  intros Hh. assert (I : 0 < INR h) by (apply lt_0_INR; exact Hh). destruct h as [|h]; [lia|]. rewrite rsum_first.
  change (rsum (S h) (fun i => share (S (S h)) (S i) * (turn (A (S i)) (2 * PI * INR (S i * r) / INR (2 * S h)) / INR (S h))))
    with (rsum h (fun i => share (S (S h)) (S i) * (turn (A (S i)) (2 * PI * INR (S i * r) / INR (2 * S h)) / INR (S h))) + share (S (S h)) (S h) * (turn (A (S h)) (2 * PI * INR (S h * r) / INR (2 * S h)) / INR (S h))).
  rewrite (rsum_ext h _ (fun i => / INR (S h) * (re (A (S i)) * cos (2 * PI * INR (S i * r) / INR (2 * S h)) - im (A (S i)) * sin (2 * PI * INR (S i * r) / INR (2 * S h))))).
  2: { intros i Hi. unfold share, turn. replace (S i =? 0)%nat with false by reflexivity. replace (S i =? S (S h) - 1)%nat with false by (symmetry; apply Nat.eqb_neq; lia). cbn [orb]. field. lra. }
  rewrite rsum_scal. unfold real_signal. replace (S h - 1)%nat with h by lia. set (S1 := rsum h _).
  assert (E0 : share (S (S h)) 0 = 1 / 2) by reflexivity. assert (E1 : share (S (S h)) (S h) = 1 / 2). { unfold share. replace (S h =? S (S h) - 1)%nat with true by (symmetry; apply Nat.eqb_eq; lia). rewrite orb_true_r. reflexivity. }
  rewrite E0, E1. unfold turn. replace (2 * PI * INR (0 * r) / INR (2 * S h)) with 0 by (cbn [Nat.mul INR]; unfold Rdiv; ring). rewrite cos_0, sin_0.
  assert (E2 : 2 * PI * INR (S h * r) / INR (2 * S h) = PI * INR r) by (rewrite !mult_INR; change (INR 2) with 2; field; lra). rewrite E2.
  rewrite (mult_INR 2). change (INR 2) with 2.
  assert (E3 : sin (PI * INR r) = 0) by (destruct (cexp_PI r) as [Q _]; apply (f_equal im) in Q; exact Q). rewrite E3. field. lra.
Qed.

(* ------------------------------ one component ------------------------------ *)
(** the component of [setup] whose elevation is the real part *)
Definition quarter (s : R) (c : fcomp) : fcomp := FComp (f_omega c) (- (s * f_im c)) (s * f_re c) (f_beta c).
Lemma cos_wave_setup g h f x y t : cos_wave (setup_comp g h f) x y t =
  let psi := f_omega f * t - WaveNumber (f_omega f) g h * (cos (f_beta f) * x + sin (f_beta f) * y) in f_re f * cos psi - f_im f * sin psi.
Proof.
  cbv zeta. unfold cos_wave, theta. cbn [setup_comp c_omega c_amp c_beta c_phase c_k]. set (psi := _ - _). rewrite cos_plus.
  pose proof (atan2_cos (f_im f) (f_re f)) as C. pose proof (atan2_sin (f_im f) (f_re f)) as S. unfold hypot in C, S. set (a := sqrt _) in *. nra.
Qed.
(** what the code's transforms turn into at an instant t with w t = a *)
Section One.
Variables (g h rho dw : R) (z : nat -> cpx) (be : nat -> R) (m : R) (i : nat) (sh : R).
Hypothesis mp : m <> 0.
Let c := FComp (INR i * dw) (re (z i) / m) (im (z i) / m) (be i).
Let k := WaveNumber (INR i * dw) g h.
Lemma turn_zeta x y t : turn (zetaC g h dw z be x y i) (INR i * dw * t) / m = real_wave k c x y t.
Proof.
  unfold turn, zetaC, real_wave, k_, w_, k. cbv zeta. cbn [c f_omega f_beta f_re f_im cmul cexp re im]. set (l := cos (be i) * x + sin (be i) * y). set (kk := WaveNumber _ _ _).
  replace (INR i * dw * t - kk * l) with (INR i * dw * t + - (kk * l)) by ring. rewrite cos_plus, sin_plus. field. exact mp.
Qed.
Lemma turn_scale a u b : turn (cscale a u) b = a * turn u b. Proof. unfold turn, cscale. cbn [re im]. ring. Qed.
Lemma turn_p x y s t : turn (PDynC rho g h dw z be x y s i) (INR i * dw * t) / m = rho * g * cosh_cosh h k s * real_wave k c x y t.
Proof. unfold PDynC. rewrite !turn_scale. rewrite <- turn_zeta. unfold k_, w_, k, Rdiv. ring. Qed.
Let q := setup_comp g h (quarter sh c).
Lemma sin_q x y t : sin_wave q x y t = sh * real_wave k c x y t.
Proof. unfold q. rewrite sin_wave_setup. unfold real_wave, quarter, c, k. cbn [f_omega f_beta f_re f_im]. cbv zeta. ring. Qed.
Definition imag_wave x y t := let psi := f_omega c * t - k * (cos (f_beta c) * x + sin (f_beta c) * y) in f_re c * sin psi + f_im c * cos psi.
Lemma cos_q x y t : cos_wave q x y t = - (sh * imag_wave x y t).
Proof. unfold q. rewrite cos_wave_setup. unfold imag_wave, quarter, c, k. cbn [f_omega f_beta f_re f_im]. cbv zeta. ring. Qed.
Lemma turn_i u b : turn (cmul i1 u) b = - turn u (b - PI / 2).
Proof. unfold turn, i1. cbn [cmul re im]. rewrite cos_minus, sin_minus, cos_PI2, sin_PI2. ring. Qed.
Lemma turn_wi w u b : turn (cmul (cscale w i1) u) b = - (w * (re u * sin b + im u * cos b)).
Proof. unfold turn, cscale, i1. cbn [cmul re im]. ring. Qed.
Definition turns (u : cpx) (a : R) : R := re u * sin a + im u * cos a.
Lemma turns_zeta x y t : turns (zetaC g h dw z be x y i) (INR i * dw * t) / m = imag_wave x y t.
Proof.
  unfold turns, zetaC, imag_wave, k_, w_, k. cbv zeta. cbn [c f_omega f_beta f_re f_im cmul cexp re im]. set (l := cos (be i) * x + sin (be i) * y). set (kk := WaveNumber _ _ _).
  replace (INR i * dw * t - kk * l) with (INR i * dw * t + - (kk * l)) by ring. rewrite cos_plus, sin_plus. field. exact mp.
Qed.
Lemma turn_wi' w u b : turn (cmul (cscale w i1) u) b = - (w * turns u b). Proof. unfold turns. apply turn_wi. Qed.
Lemma turns_scale a u b : turns (cscale a u) b = a * turns u b. Proof. unfold turns, cscale. cbn [re im]. ring. Qed.
Lemma turns_wi w u b : turns (cmul (cscale w i1) u) b = w * turn u b. Proof. unfold turns, turn, cscale, i1. cbn [cmul re im]. ring. Qed.
Lemma one_vel x y s t : V3 (sh * (turn (UCx g h dw z be x y s i) (INR i * dw * t) / m)) (sh * (turn (UCy g h dw z be x y s i) (INR i * dw * t) / m)) (sh * (turn (UCz g h dw z be x y s i) (INR i * dw * t) / m))
  = comp_vel q h x y s t.
Proof.
  unfold comp_vel. rewrite sin_q, cos_q. rewrite <- turn_zeta, <- turns_zeta. unfold UCx, UCy, UCz. rewrite !turn_scale, turn_wi'. unfold k_, w_, q, k, c. cbn [setup_comp quarter c_omega c_k c_beta f_omega f_beta].
  unfold Rdiv. f_equal; ring.
Qed.
Lemma one_acc x y s t : V3 (sh * (turn (UdC dw (UCx g h dw z be) x y s i) (INR i * dw * t) / m)) (sh * (turn (UdC dw (UCy g h dw z be) x y s i) (INR i * dw * t) / m)) (sh * (turn (UdC dw (UCz g h dw z be) x y s i) (INR i * dw * t) / m))
  = comp_acc q h x y s t.
Proof.
  unfold comp_acc. rewrite sin_q, cos_q. rewrite <- turn_zeta, <- turns_zeta. unfold UdC. rewrite !turn_wi'. unfold UCx, UCy, UCz. rewrite !turns_scale, turns_wi. unfold k_, w_, q, k, c. cbn [setup_comp quarter c_omega c_k c_beta f_omega f_beta].
  unfold Rdiv. f_equal; ring.
Qed.
End One.

(* ------------------------------ sums ------------------------------ *)
Lemma vsum_app a b : vsum (a ++ b) = vadd (vsum a) (vsum b).
Proof. unfold vsum at 1. rewrite fold_left_app, vsum_acc. reflexivity. Qed.
Lemma vsum_seq f n : vsum (map f (seq 0 n)) = V3 (rsum n (fun i => vx (f i))) (rsum n (fun i => vy (f i))) (rsum n (fun i => vz (f i))).
Proof.
  induction n as [|n IH]; [reflexivity|]. rewrite seq_S, map_app, vsum_app, IH. cbn [map Nat.add]. unfold vsum. cbn [fold_left rsum]. unfold vadd, vzero. cbn [vx vy vz]. f_equal; ring.
Qed.
Lemma asum_seq f n : asum (map f (seq 0 n)) = rsum n f.
Proof.
  assert (A : forall a b, asum (a ++ b) = asum a + asum b) by (unfold asum; induction a as [|x a IH]; intros b; cbn [app fold_right]; [ring|rewrite IH; ring]).
  induction n as [|n IH]; [reflexivity|]. rewrite seq_S, map_app, A, IH. unfold asum. cbn [map fold_right rsum Nat.add]. ring.
Qed.
Section Field.
Variables (g h rho dw : R) (z : nat -> cpx) (be : nat -> R) (m : nat).
Hypothesis mp : (0 < m)%nat.
Hypothesis dp : 0 < dw.
Definition comps : list fcomp := map (fun i => FComp (INR i * dw) (re (z i) / INR m) (im (z i) / INR m) (be i)) (seq 0 (S m)).
Definition cs' : list fcomp := map (fun i => quarter (share (S m) i) (FComp (INR i * dw) (re (z i) / INR m) (im (z i) / INR m) (be i))) (seq 0 (S m)).
Definition filled : wave_field := WField (elev (setup g h cs')) (total (setup g h cs') h) (totacc (setup g h cs') h)
  (fun x y s t => rsum (S m) (fun i => rho * g * cosh_cosh h (WaveNumber (INR i * dw) g h) s * (share (S m) i * real_wave (WaveNumber (INR i * dw) g h) (FComp (INR i * dw) (re (z i) / INR m) (im (z i) / INR m) (be i)) x y t))).
Lemma nc_comps i : (i < S m)%nat -> nc comps i = FComp (INR i * dw) (re (z i) / INR m) (im (z i) / INR m) (be i).
Proof.
  intros H. unfold nc, comps. set (F := fun i => _). rewrite (nth_indep _ _ (F 0%nat)) by (rewrite map_length, seq_length; exact H). rewrite map_nth, seq_nth by exact H. reflexivity.
Qed.
Let im0 : INR m <> 0. Proof. apply not_0_INR. lia. Qed.
Lemma time_phase i r : 2 * PI * INR (i * r) / INR (2 * m) = INR i * dw * (INR r * (2 * PI / dw / INR (2 * m))).
Proof. rewrite !mult_INR. change (INR 2) with 2. pose proof im0. field. split; lra. Qed.
Lemma cell_zeta x y r : real_signal m (zetaC g h dw z be x y) r / INR (2 * m) = wf_eta filled x y (INR r * (2 * PI / dw / INR (2 * m))).
Proof.
  rewrite signal_sum by exact mp. cbn [filled wf_eta]. unfold elev, setup, cs'. rewrite !map_map, asum_seq. apply rsum_ext. intros i _. rewrite time_phase, sin_q. rewrite turn_zeta by exact im0. reflexivity.
Qed.
Lemma cell_p x y s r : real_signal m (PDynC rho g h dw z be x y s) r / INR (2 * m) = wf_p filled x y s (INR r * (2 * PI / dw / INR (2 * m))).
Proof. rewrite signal_sum by exact mp. cbn [filled wf_p]. apply rsum_ext. intros i _. rewrite time_phase, turn_p by exact im0. ring. Qed.
Lemma cell_vel x y s r : V3 (real_signal m (UCx g h dw z be x y s) r / INR (2 * m)) (real_signal m (UCy g h dw z be x y s) r / INR (2 * m)) (real_signal m (UCz g h dw z be x y s) r / INR (2 * m))
  = wf_vel filled x y s (INR r * (2 * PI / dw / INR (2 * m))).
Proof.
  rewrite !signal_sum by exact mp. cbn [filled wf_vel]. unfold total, setup, cs'. rewrite !map_map, vsum_seq. f_equal; apply rsum_ext; intros i _; rewrite time_phase, <- one_vel by exact im0; reflexivity.
Qed.
Lemma cell_acc x y s r : V3 (real_signal m (UdC dw (UCx g h dw z be) x y s) r / INR (2 * m)) (real_signal m (UdC dw (UCy g h dw z be) x y s) r / INR (2 * m)) (real_signal m (UdC dw (UCz g h dw z be) x y s) r / INR (2 * m))
  = wf_acc filled x y s (INR r * (2 * PI / dw / INR (2 * m))).
Proof.
  rewrite !signal_sum by exact mp. cbn [filled wf_acc]. unfold totacc, setup, cs'. rewrite !map_map, vsum_seq. f_equal; apply rsum_ext; intros i _; rewrite time_phase, <- one_acc by exact im0; reflexivity.
Qed.
End Field.
(* ------------------------------ tables ------------------------------ *)
Lemma shape_map1 {A B} (f : A -> list B) n l : (forall a, length (f a) = n) -> shape2 (length l) n (map f l).
Proof. intros H. split; [apply map_length|]. apply Forall_map, Forall_forall. intros a _. apply H. Qed.
Lemma shape_map2 {A B C} (f : A -> B -> list C) n l1 l2 : (forall a b, length (f a b) = n) -> shape3 (length l1) (length l2) n (map (fun a => map (f a) l2) l1).
Proof. intros H. split; [apply map_length|]. apply Forall_map, Forall_forall. intros a _. apply shape_map1. intros b. apply H. Qed.
Lemma shape_map3 {A B C D} (f : A -> B -> C -> list D) n l1 l2 l3 : (forall a b c, length (f a b c) = n) -> shape4 (length l1) (length l2) (length l3) n (map (fun a => map (fun b => map (f a b) l3) l2) l1).
Proof. intros H. split; [apply map_length|]. apply Forall_map, Forall_forall. intros a _. apply shape_map2. intros b c. apply H. Qed.
Lemma nth_map {A B} (f : A -> B) l i d d' : (i < length l)%nat -> nth i (map f l) d' = f (nth i l d).
Proof. intros H. rewrite (nth_indep _ _ (f d)) by (rewrite map_length; exact H). apply map_nth. Qed.
Lemma cell_map2 {C} (d : C) (f : R -> R -> nat -> C) n l1 l2 i j r : (i < length l1)%nat -> (j < length l2)%nat -> (r < n)%nat ->
  cell3 d (map (fun a => map (fun b => map (f a b) (seq 0 n)) l2) l1) i j r = f (nth i l1 0) (nth j l2 0) r.
Proof.
  intros H1 H2 H3. unfold cell3. rewrite (nth_map _ _ _ 0) by exact H1. rewrite (nth_map _ _ _ 0) by exact H2. rewrite (nth_map _ _ _ 0%nat) by (rewrite seq_length; exact H3). rewrite seq_nth by exact H3. reflexivity.
Qed.
Lemma cell_map3 {C} (d : C) (f : R -> R -> R -> nat -> C) n l1 l2 l3 i j k r : (i < length l1)%nat -> (j < length l2)%nat -> (k < length l3)%nat -> (r < n)%nat ->
  cell4 d (map (fun a => map (fun b => map (fun c => map (f a b c) (seq 0 n)) l3) l2) l1) i j k r = f (nth i l1 0) (nth j l2 0) (nth k l3 0) r.
Proof. intros H1 H2 H3 H4. unfold cell4. rewrite (nth_map _ _ _ 0) by exact H1. apply (cell_map2 d (f (nth i l1 0))); assumption. Qed.
Lemma fill_run junk px py pz m z nw be rho g h dw : (0 < m)%nat -> 0 < dw -> (m + 1 <= nw)%nat ->
  exists G, fillWaveGrid junk px py pz (2 * m) z nw be rho g h dw = Ok G /\ wg_axes G = Axes px py pz (2 * m) (2 * PI / dw / INR (2 * m)) /\ samples G (filled g h rho dw z be m).
Proof.
  intros Hm Hd Hn. assert (E2 : (2 * m / 2 = m)%nat) by (rewrite Nat.mul_comm, Nat.div_mul; lia). unfold fillWaveGrid. rewrite E2.
  replace (2 * m =? 0)%nat with false by (symmetry; apply Nat.eqb_neq; lia). replace (nw <? m + 1)%nat with false by (symmetry; apply Nat.ltb_ge; lia). cbn [orb].
  destruct (ralloc_ok (2 * m) true junk junk ltac:(lia) ltac:(rewrite Nat.even_spec; exists m; reflexivity)) as (cfg & -> & S). rewrite E2 in S.
  unfold fill_tables.
  rewrite (each_all _ (fun x => map (fun y => sampled (2 * m) (zetaC g h dw z be x y)) py)) by (intros x; apply each_all; intros y; apply doIFFT_ok; exact S).
  rewrite (each_all _ (fun x => map (fun y => map (fun s => sampled (2 * m) (PDynC rho g h dw z be x y s)) pz) py)) by (intros x; apply each_all; intros y; apply each_all; intros s; apply doIFFT_ok; exact S).
  rewrite (each_all _ (fun x => map (fun y => map (fun s => sampled3 (2 * m) (UCx g h dw z be x y s) (UCy g h dw z be x y s) (UCz g h dw z be x y s)) pz) py)) by (intros x; apply each_all; intros y; apply each_all; intros s; apply ifft3_ok; exact S).
  rewrite (each_all _ (fun x => map (fun y => map (fun s => sampled3 (2 * m) (UdC dw (UCx g h dw z be) x y s) (UdC dw (UCy g h dw z be) x y s) (UdC dw (UCz g h dw z be) x y s)) pz) py)) by (intros x; apply each_all; intros y; apply each_all; intros s; apply ifft3_ok; exact S).
  eexists. split; [reflexivity|]. cbn [wg_axes]. split; [reflexivity|]. unfold samples. cbn [wg_axes wg_zeta wg_pdyn wg_vel wg_acc MWaves.px MWaves.py MWaves.pz MWaves.nt MWaves.dtWave].
  split; [apply shape_map2; intros; unfold sampled; rewrite map_length, seq_length; reflexivity|].
  split; [apply shape_map3; intros; unfold sampled; rewrite map_length, seq_length; reflexivity|].
  split; [apply shape_map3; intros; unfold sampled3; rewrite map_length, seq_length; reflexivity|].
  split; [apply shape_map3; intros; unfold sampled3; rewrite map_length, seq_length; reflexivity|].
  intros ix iy r Hx Hy Hr. cbv zeta. unfold sampled, sampled3. rewrite E2. split.
  - rewrite (cell_map2 0 (fun x y r => real_signal m (zetaC g h dw z be x y) r / INR (2 * m))) by assumption. apply cell_zeta; assumption.
  - intros iz Hz. split; [|split].
    + rewrite (cell_map3 vzero (fun x y s r => V3 (real_signal m (UCx g h dw z be x y s) r / INR (2 * m)) (real_signal m (UCy g h dw z be x y s) r / INR (2 * m)) (real_signal m (UCz g h dw z be x y s) r / INR (2 * m)))) by assumption. apply cell_vel; assumption.
    + rewrite (cell_map3 vzero (fun x y s r => V3 (real_signal m (UdC dw (UCx g h dw z be) x y s) r / INR (2 * m)) (real_signal m (UdC dw (UCy g h dw z be) x y s) r / INR (2 * m)) (real_signal m (UdC dw (UCz g h dw z be) x y s) r / INR (2 * m)))) by assumption. apply cell_acc; assumption.
    + rewrite (cell_map3 0 (fun x y s r => real_signal m (PDynC rho g h dw z be x y s) r / INR (2 * m))) by assumption. apply cell_p; assumption.
Qed.

(* ------------------------------ the field ------------------------------ *)
Lemma cosh_pos x : 0 < cosh x. Proof. unfold cosh. pose proof (exp_pos x). pose proof (exp_pos (- x)). lra. Qed.
Lemma cosh_cosh_ok h k s : 0 < h -> 0 < k -> cosh (k * (s + h)) / cosh (k * h) <= cosh_cosh h k s <= cosh (k * (s + h)) / cosh (k * h) * (1 + exp (- 178.8)).
Proof.
  intros Hh Hk. assert (P : 0 < cosh (k * (s + h)) / cosh (k * h)) by (apply Rdiv_lt_0_compat; apply cosh_pos). pose proof (exp_pos (- 178.8)) as PE.
  unfold cosh_cosh. destruct (Req_EM_T k 0); [lra|]. destruct (Rlt_dec 89.4 (k * h)) as [D|D].
  - assert (E : exp (k * s) + exp (- k * (s + 2 * h)) = cosh (k * (s + h)) / cosh (k * h) * (1 + exp (- (2 * (k * h))))).
    { apply (Rmult_eq_reg_r (cosh (k * h))); [|pose proof (cosh_pos (k * h)); lra]. transitivity (cosh (k * (s + h)) * (1 + exp (- (2 * (k * h))))); [|field; pose proof (cosh_pos (k * h)); lra].
      unfold cosh. replace (exp (k * s)) with (exp (k * (s + h)) * exp (- (k * h))) by (rewrite <- exp_plus; f_equal; ring).
      replace (exp (- k * (s + 2 * h))) with (exp (- (k * (s + h))) * exp (- (k * h))) by (rewrite <- exp_plus; f_equal; ring).
      replace (exp (- (2 * (k * h)))) with (exp (- (k * h)) * exp (- (k * h))) by (rewrite <- exp_plus; f_equal; ring).
      assert (U : exp (k * h) * exp (- (k * h)) = 1) by (rewrite <- exp_plus; rewrite Rplus_opp_r; apply exp_0).
      set (a := exp (k * (s + h))). set (b := exp (- (k * (s + h)))). set (e := exp (- (k * h))) in *. set (f := exp (k * h)) in *.
      transitivity ((a + b) * (e * f + e * e) / 2); [field|]. replace (e * f) with 1 by lra. field. }
    rewrite E. pose proof (exp_pos (- (2 * (k * h)))). assert (exp (- (2 * (k * h))) <= exp (- 178.8)) by (left; apply exp_increasing; lra). split; nra.
  - destruct (Rlt_dec 89.4 (- k * h)); [nra|]. split; [lra|nra].
Qed.
Lemma quarter_amp s c : 0 <= s -> sqrt (f_re (quarter s c) * f_re (quarter s c) + f_im (quarter s c) * f_im (quarter s c)) = s * sqrt (f_re c * f_re c + f_im c * f_im c).
Proof.
  intros H. unfold quarter. cbn [f_re f_im]. replace (- (s * f_im c) * - (s * f_im c) + s * f_re c * (s * f_re c)) with ((s * s) * (f_re c * f_re c + f_im c * f_im c)) by ring.
  rewrite sqrt_mult_alt by nra. rewrite sqrt_square by exact H. reflexivity.
Qed.
Lemma share_bound n i : 0 <= share n i <= 1. Proof. unfold share. destruct (_ || _)%bool; lra. Qed.
Lemma rsum_le n f g : (forall i, (i < n)%nat -> f i <= g i) -> rsum n f <= rsum n g.
Proof. induction n as [|n IH]; intros H; cbn; [lra|]. specialize (IH ltac:(intros; apply H; lia)). specialize (H n ltac:(lia)). lra. Qed.
Lemma lsum_seq {A} (F : A -> R) (f : nat -> A) n : lsum F (map f (seq 0 n)) = rsum n (fun i => F (f i)).
Proof.
  assert (L : forall a b, lsum F (a ++ b) = lsum F a + lsum F b) by (induction a as [|x a IH]; intros b; cbn [app lsum]; [ring|rewrite IH; ring]).
  induction n as [|n IH]; [reflexivity|]. rewrite seq_S, map_app, L, IH. cbn [map lsum rsum Nat.add]. ring.
Qed.
Lemma filled_waves g h rho dw z be m : 0 < g -> 0 < h -> 0 < dw -> linear_waves g h rho (comps dw z be m) (share (S m)) (filled g h rho dw z be m).
Proof.
  intros Hg Hh Hd. set (fs := cs' dw z be m).
  assert (NN : Forall (fun f => 0 <= f_omega f) fs). { unfold fs, cs'. apply Forall_map, Forall_forall. intros i _. cbn. pose proof (pos_INR i). nra. }
  pose proof (setup_all g h fs Hg Hh NN) as K.
  assert (LN : length (comps dw z be m) = S m) by (unfold comps; rewrite map_length, seq_length; reflexivity).
  exists (fun w h => WaveNumber w g h), (fun k s => cosh_cosh h k s). cbv zeta. rewrite LN. cbn [filled wf_eta wf_vel wf_acc wf_p]. fold fs.
  split. { intros x y t. unfold elev, setup, fs, cs'. rewrite !map_map, asum_seq. apply rsum_ext. intros i Hi. rewrite nc_comps by exact Hi. rewrite sin_q. reflexivity. }
  split; [intros; apply wavenumber_pos; assumption|]. split; [apply wavenumber_0|]. split; [intros; apply wavenumber_dispersion; assumption|].
  split; [apply sum_surface; assumption|]. split; [apply sum_rate; assumption|].
  split; [|split; [|split; [|split; [|split]]]].
  - intros x y s t. destruct (sum_grad h Hh _ x y s t K) as (d & D1 & D2 & D3 & D4 & _). exists (d 0%nat 0%nat), (d 1%nat 1%nat), (d 2%nat 2%nat).
    split; [apply D1|]. split; [apply D2|]. split; [apply D3|exact D4].
  - intros x y s t. destruct (sum_grad h Hh _ x y s t K) as (d & D1 & D2 & D3 & _ & E1 & E2 & E3). exists (d 0%nat 1%nat), (d 0%nat 2%nat), (d 1%nat 2%nat).
    split; [apply D1|]. split; [rewrite E1; apply D2|]. split; [apply D1|]. split; [rewrite E2; apply D3|]. split; [apply D2|rewrite E3; apply D3].
  - intros x y t. eapply Rle_trans; [apply sum_bottom; assumption|]. apply Rmult_le_compat_l; [left; apply exp_pos|]. rewrite amp_setup. unfold fs, cs'. rewrite lsum_seq. apply rsum_le. intros i Hi.
    rewrite quarter_amp by apply share_bound. rewrite nc_comps by exact Hi. cbn [quarter f_omega f_re f_im]. pose proof (share_bound (S m) i). pose proof (sqrt_pos (re (z i) / INR m * (re (z i) / INR m) + im (z i) / INR m * (im (z i) / INR m))) as Q. set (q := sqrt _) in *. pose proof (pos_INR i).
    assert (0 <= INR i * dw) by nra. apply Rmult_le_compat_l; [assumption|]. nra.
  - intros x y s t. apply rsum_ext. intros i Hi. rewrite nc_comps by exact Hi. reflexivity.
  - intros s. unfold cosh_cosh. destruct (Req_EM_T 0 0); [reflexivity|contradiction].
  - intros k s Hk. apply cosh_cosh_ok; assumption.
Qed.
