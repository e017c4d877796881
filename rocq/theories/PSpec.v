(** Proofs about waves as a sum of components (MSpec.v) *)
From Coq Require Import Reals ZArith List Arith Lra Lia.
From Verif Require Import MErr MVec MMat MStateOps MInterp MSeafloor MWaves MSpec SInterp SWaves SMat SSpec PInterp PWavesB PEuler PLineE PBend.
Import ListNotations.
Open Scope R_scope.

(* ------------------------------ wave number ------------------------------ *)
Lemma exp4 : exp (-4) < 1 / 6.
Proof.
  assert (H : 6 < exp 4). { replace 4 with (2 + 2) by ring. rewrite exp_plus. pose proof (exp_ineq1 2 ltac:(lra)). nra. }
  replace (-4) with (- (4)) by ring. rewrite exp_Ropp. unfold Rdiv. rewrite Rmult_1_l. apply Rinv_lt_contravar; [|exact H]. pose proof (exp_pos 4). nra.
Qed.
Lemma guess_above C : 0 < C -> C < wn_guess C.
Proof.
  intros H. unfold wn_guess. destruct (Rle_dec C 2) as [L|L].
  - set (r := sqrt C). assert (R : r * r = C) by (apply sqrt_sqrt; lra). assert (P : 0 < r) by (apply sqrt_lt_R0; exact H).
    assert (B : r <= (C / 1.414 + 1.414) / 2). { assert (0 <= (r - 1.414) * (r - 1.414)) by apply Rle_0_sqr. rewrite <- R. lra. }
    assert (Q : r < 1 + C * (0.169 + 0.031 * C)) by nra. nra.
  - cbv zeta. assert (E : exp (-2 * C) < 1 / 6). { apply Rlt_trans with (exp (-4)); [apply exp_increasing; lra|apply exp4]. }
    pose proof (exp_pos (-2 * C)). set (e := exp (-2 * C)) in *. assert (0 < e * (2 - 12 * e)) by nra. nra.
Qed.
Lemma ln_pos x : 1 < x -> 0 < ln x.
Proof. intros. rewrite <- ln_1. apply ln_increasing; lra. Qed.
Lemma step_pos C : 0 < C -> 0 < wn_step C.
Proof.
  intros H. pose proof (guess_above C H) as G. unfold wn_step. cbv zeta. set (X := wn_guess C) in *.
  destruct (Rle_dec C 4.8); [|lra].
  assert (L : 0 < ln ((X + C) / (X - C))). { apply ln_pos. apply Rmult_lt_reg_r with (X - C); [lra|]. unfold Rdiv. rewrite Rmult_assoc, Rinv_l by lra. lra. }
  set (l := ln _) in *. set (D := X * X - C * C). assert (HD : 0 < D) by (unfold D; nra).
  replace (C * C - X * X) with (- D) by (unfold D; ring). replace (C - - D) with (C + D) by ring.
  set (A := 1 / (C + D)). assert (HA : 0 < A) by (unfold A, Rdiv; rewrite Rmult_1_l; apply Rinv_0_lt_compat; lra).
  assert (AD : A * (C + D) = 1) by (unfold A; field; lra).
  set (B := A * (0.5 * l - X)). replace (X - B * - D * (1 + A * B * C * X)) with (X + B * D * (1 + A * B * C * X)) by ring.
  destruct (Rle_dec 0 B) as [b|b].
  - assert (0 <= A * B) by nra. assert (0 <= A * B * C) by nra. assert (0 <= A * B * C * X) by nra. assert (0 <= B * D) by nra. nra.
  - assert (B1 : - (A * X) < B) by (unfold B; nra).
    assert (W : A * B * C * X <= 0). { assert (A * B <= 0) by nra. assert (A * B * C <= 0) by nra. nra. }
    set (w := A * B * C * X) in *. assert (BD : B * D < 0) by nra.
    assert (Z : B * D <= B * D * (1 + w)) by nra.
    assert (X - A * X * D < X + B * D) by nra. assert (X - A * X * D = A * X * C) by (rewrite <- (Rmult_1_l X) at 1; rewrite <- AD; ring).
    assert (0 < A * X) by nra. nra.
Qed.
Lemma wavenumber_pos w g h : 0 < w -> 0 < g -> 0 < h -> 0 < WaveNumber w g h.
Proof.
  intros. unfold WaveNumber. destruct (Req_EM_T w 0); [lra|]. destruct (Rlt_dec w 0); [lra|].
  assert (0 < w * w * h / g). { apply Rdiv_lt_0_compat; [|lra]. apply Rmult_lt_0_compat; nra. }
  apply Rdiv_lt_0_compat; [apply step_pos|]; assumption.
Qed.
Lemma wavenumber_0 g h : WaveNumber 0 g h = 0.
Proof. unfold WaveNumber. destruct (Req_EM_T 0 0); [reflexivity|lra]. Qed.

(* accuracy in deep water *)
Lemma dbl_exp a x b : 0 <= a -> a <= exp x -> b <= a * a -> b <= exp (2 * x).
Proof. intros. replace (2 * x) with (x + x) by ring. rewrite exp_plus. nra. Qed.
Lemma exp96 : 14290 <= exp 9.6.
Proof.
  assert (H : 1.00234375 <= exp 0.00234375). { pose proof (exp_ineq1 0.00234375 ltac:(lra)). lra. }
  assert (S : forall x y, x = y -> forall a, a <= exp x -> a <= exp y) by (intros; subst; assumption).
  apply (S (2 * (2 * (2 * (2 * (2 * (2 * (2 * (2 * (2 * (2 * (2 * (2 * 0.00234375)))))))))))) 9.6); [lra|].
  apply dbl_exp with 119.6; [lra| |lra]. apply dbl_exp with 10.941; [lra| |lra]. apply dbl_exp with 3.3078; [lra| |lra].
  apply dbl_exp with 1.8188; [lra| |lra]. apply dbl_exp with 1.34863; [lra| |lra]. apply dbl_exp with 1.161310; [lra| |lra].
  apply dbl_exp with 1.0776410; [lra| |lra]. apply dbl_exp with 1.0380950; [lra| |lra]. apply dbl_exp with 1.01887; [lra| |lra].
  apply dbl_exp with 1.009393; [lra| |lra]. apply dbl_exp with 1.004692; [lra| |lra]. apply dbl_exp with 1.00234375; lra.
Qed.
Lemma exp_m96 : exp (- (9.6)) <= 7 / 100000.
Proof.
  rewrite exp_Ropp. pose proof exp96. apply Rmult_le_reg_l with (exp 9.6); [apply exp_pos|]. rewrite Rinv_r by (pose proof (exp_pos 9.6); lra). lra.
Qed.
Lemma deep_small C : 4.8 <= C -> exp (-2 * C) <= 7 / 100000 /\ C * exp (-2 * C) <= 4.8 * (7 / 100000).
Proof.
  intros H. assert (E : exp (-2 * C) = exp (- (9.6)) * exp (-2 * (C - 4.8))) by (rewrite <- exp_plus; f_equal; lra).
  pose proof (exp_pos (-2 * (C - 4.8))). pose proof (exp_pos (- (9.6))). pose proof exp_m96.
  assert (P : (1 + (C - 4.8)) * exp (- (C - 4.8)) <= 1).
  { pose proof (exp_pos (- (C - 4.8))). assert (exp (C - 4.8) * exp (- (C - 4.8)) = 1) by (rewrite <- exp_plus; replace (C - 4.8 + - (C - 4.8)) with 0 by ring; apply exp_0).
    assert (1 + (C - 4.8) <= exp (C - 4.8)) by (destruct (Req_dec (C - 4.8) 0) as [->|n]; [rewrite exp_0; lra|pose proof (exp_ineq1 (C - 4.8) n); lra]). nra. }
  set (e := exp (- (C - 4.8))) in *. assert (F : exp (-2 * (C - 4.8)) = e * e) by (unfold e; rewrite <- exp_plus; f_equal; ring).
  assert (0 < e) by apply exp_pos. assert (e <= 1). { unfold e. rewrite <- exp_0. destruct (Req_dec C 4.8) as [->|n]; [right; f_equal; lra|left; apply exp_increasing; lra]. }
  rewrite E, F. split; [nra|]. assert (C * e <= 4.8) by nra. assert (C * (e * e) <= 4.8) by nra.
  replace (C * (exp (- (9.6)) * (e * e))) with (exp (- (9.6)) * (C * (e * e))) by ring.
  apply Rle_trans with (exp (- (9.6)) * 4.8); [apply Rmult_le_compat_l; lra|]. lra.
Qed.
Lemma tanh_exp X : tanh X = (1 - exp (-2 * X)) / (1 + exp (-2 * X)).
Proof.
  unfold tanh, sinh, cosh. pose proof (exp_pos X). pose proof (exp_pos (- X)).
  assert (E : exp (-2 * X) = exp (- X) * exp (- X)) by (rewrite <- exp_plus; f_equal; ring).
  assert (M : exp X * exp (- X) = 1) by (rewrite <- exp_plus; replace (X + - X) with 0 by ring; apply exp_0).
  rewrite E. set (a := exp X) in *. set (b := exp (- X)) in *. assert (a = / b) by (apply Rmult_eq_reg_r with b; [rewrite Rinv_l; lra|lra]).
  rewrite H1. field. repeat split; nra.
Qed.
Lemma deep_dispersion C : 4.8 < C -> Rabs (wn_step C * tanh (wn_step C) - C) <= 2 / 10000000 * C.
Proof.
  intros H. destruct (deep_small C) as [H1 H2]; [lra|]. unfold wn_step, wn_guess. cbv zeta. destruct (Rle_dec C 4.8); [lra|]. destruct (Rle_dec C 2); [lra|].
  pose proof (exp_pos (-2 * C)) as E0. set (E := exp (-2 * C)) in *. set (d := E * (2 - 12 * E)). set (X := C * (1 + d)).
  rewrite tanh_exp. assert (HF : exp (-2 * X) = E * exp (- (2 * C * d))) by (unfold E, X; rewrite <- exp_plus; f_equal; ring).
  assert (D0 : 0 < d) by (unfold d; nra). assert (D1 : d <= 2 * E) by (unfold d; nra).
  assert (CD : 0 < 2 * C * d) by nra.
  assert (G1 : 1 - 2 * C * d <= exp (- (2 * C * d))). { pose proof (exp_ineq1 (- (2 * C * d)) ltac:(lra)). lra. }
  assert (G2 : exp (- (2 * C * d)) <= 1). { rewrite <- exp_0. left. apply exp_increasing. lra. }
  rewrite HF. set (q := exp (- (2 * C * d))) in *. set (F := E * q). assert (q0 : 0 < q) by apply exp_pos.
  assert (F0 : 0 < F) by (unfold F; nra).
  replace (X * ((1 - F) / (1 + F)) - C) with (C * ((d - 2 * F - d * F) / (1 + F))) by (unfold X; field; lra).
  rewrite Rabs_mult, (Rabs_right C) by lra. rewrite (Rmult_comm _ C). apply Rmult_le_compat_l; [lra|].
  unfold Rdiv at 1. rewrite Rabs_mult, (Rabs_right (/ (1 + F))) by (left; apply Rinv_0_lt_compat; lra).
  apply Rmult_le_reg_r with (1 + F); [lra|]. rewrite Rmult_assoc, Rinv_l, Rmult_1_r by lra.
  apply Rle_trans with (2 / 10000000); [|nra].
  assert (F1 : F <= E) by (unfold F; nra). assert (F2 : E - 2 * C * d * E <= F) by (unfold F; nra).
  assert (P1 : C * d * E <= 2 * (C * E) * E) by nra.
  assert (P2 : C * E * E <= 4.8 * (7 / 100000) * (7 / 100000)) by nra.
  assert (P3 : E * E <= 7 / 100000 * (7 / 100000)) by nra. assert (P4 : d * F <= 2 * (E * E)) by nra.
  assert (P5 : 0 < d * F) by nra. assert (dE : d = 2 * E - 12 * (E * E)) by (unfold d; ring).
  apply Rabs_le. split; nra.
Qed.
Lemma wavenumber_dispersion w g h : 0 < w -> 0 < g -> 0 < h -> 4.8 * g < w * w * h ->
  Rabs (g * (WaveNumber w g h * tanh (WaveNumber w g h * h)) - w * w) <= 2 / 10000000 * (w * w).
Proof.
  intros Hw Hg Hh H. unfold WaveNumber. destruct (Req_EM_T w 0); [lra|]. destruct (Rlt_dec w 0); [lra|]. set (C := w * w * h / g).
  assert (HC : 4.8 < C). { unfold C. apply Rmult_lt_reg_r with g; [lra|]. unfold Rdiv. rewrite Rmult_assoc, Rinv_l by lra. lra. }
  pose proof (deep_dispersion C HC) as D. set (X := wn_step C) in *. replace (X / h * h) with X by (field; lra).
  replace (w * w) with (g / h * C) by (unfold C; field; lra).
  replace (g * (X / h * tanh X) - g / h * C) with (g / h * (X * tanh X - C)) by (field; lra).
  assert (0 < g / h) by (apply Rdiv_lt_0_compat; lra).
  rewrite Rabs_mult, (Rabs_right (g / h)) by lra. replace (2 / 10000000 * (g / h * C)) with (g / h * (2 / 10000000 * C)) by (field; lra).
  apply Rmult_le_compat_l; lra.
Qed.

(* ------------------------------ the field of one component ------------------------------ *)
Lemma deriv_eq f t d d' : derivable_pt_lim f t d -> d = d' -> derivable_pt_lim f t d'.
Proof. intros H <-. exact H. Qed.
Lemma d_lin a b t : derivable_pt_lim (fun u => a * u + b) t a.
Proof.
  apply deriv_eq with (a * 1 + 0); [|ring]. apply (deriv_add (fun u => a * id u) (fun _ => b)); [|apply derivable_pt_lim_const].
  apply (derivable_pt_lim_scal id a t 1). apply derivable_pt_lim_id.
Qed.
Lemma d_scal f K t d : derivable_pt_lim f t d -> derivable_pt_lim (fun u => K * f u) t (K * d).
Proof. intros. apply (derivable_pt_lim_scal f K t d H). Qed.
Lemma d_comp f a b t d : derivable_pt_lim f (a * t + b) d -> derivable_pt_lim (fun u => f (a * u + b)) t (a * d).
Proof. intros. rewrite Rmult_comm. apply (derivable_pt_lim_comp (fun u => a * u + b) f t a d); [apply d_lin|exact H]. Qed.
Lemma d_sin K a b t : derivable_pt_lim (fun u => K * sin (a * u + b)) t (K * (a * cos (a * t + b))).
Proof. apply d_scal, d_comp, derivable_pt_lim_sin. Qed.
Lemma d_cos K a b t : derivable_pt_lim (fun u => K * cos (a * u + b)) t (K * (a * - sin (a * t + b))).
Proof. apply d_scal, d_comp, derivable_pt_lim_cos. Qed.
Lemma d_sinof K th a b t : (forall u, th u = a * u + b) -> derivable_pt_lim (fun u => K * sin (th u)) t (K * (a * cos (th t))).
Proof. intros H. apply (deriv_ext (fun u => K * sin (a * u + b))); [intros; rewrite H; reflexivity|]. rewrite H. apply d_sin. Qed.
Lemma d_cosof K th a b t : (forall u, th u = a * u + b) -> derivable_pt_lim (fun u => K * cos (th u)) t (K * (a * - sin (th t))).
Proof. intros H. apply (deriv_ext (fun u => K * cos (a * u + b))); [intros; rewrite H; reflexivity|]. rewrite H. apply d_cos. Qed.
Lemma d_zero f t : (forall u, f u = 0) -> derivable_pt_lim f t 0.
Proof. intros H. apply (deriv_ext (fun _ => 0)); [intros; symmetry; apply H|apply derivable_pt_lim_const]. Qed.

(** the depth factors solve S' = k C, C' = k S, S 0 = 1 *)
Definition factors_ok (k h : R) (S C : R -> R) : Prop :=
  (forall z, depth_factors k h z = (S z, C z)) /\ (forall z, derivable_pt_lim S z (k * C z)) /\
  (forall z, derivable_pt_lim C z (k * S z)) /\ S 0 = 1 /\ 0 <= S (- h) <= exp (- 89.4).
Lemma sinh_pos x : 0 < x -> 0 < sinh x.
Proof. intros. unfold sinh. assert (exp (- x) < exp x) by (apply exp_increasing; lra). lra. Qed.
Lemma factors_exist k h : 0 < k -> 0 < h -> exists S C, factors_ok k h S C.
Proof.
  intros Hk Hh. destruct (Rlt_dec 89.4 (k * h)) as [D|D].
  - exists (fun z => exp (k * z)), (fun z => exp (k * z)). unfold factors_ok.
    assert (E : forall z, derivable_pt_lim (fun z => exp (k * z)) z (k * exp (k * z))).
    { intros z. apply (deriv_ext (fun u => exp (k * u + 0))); [intros; f_equal; ring|]. replace (exp (k * z)) with (exp (k * z + 0)) by (f_equal; ring). apply d_comp, derivable_pt_lim_exp. }
    repeat split; try exact E.
    + intros. unfold depth_factors. destruct (Req_EM_T k 0); [lra|]. destruct (Rlt_dec 89.4 (k * h)); [reflexivity|lra].
    + rewrite Rmult_0_r. apply exp_0.
    + left. apply exp_pos.
    + left. apply exp_increasing. lra.
  - assert (P : 0 < sinh (k * h)) by (apply sinh_pos; nra).
    exists (fun z => sinh (k * (z + h)) / sinh (k * h)), (fun z => cosh (k * (z + h)) / sinh (k * h)). unfold factors_ok.
    repeat split.
    + intros. unfold depth_factors. destruct (Req_EM_T k 0); [lra|]. destruct (Rlt_dec 89.4 (k * h)); [lra|].
      destruct (Rlt_dec 89.4 (- k * h)); [nra|reflexivity].
    + intros. apply (deriv_ext (fun u => / sinh (k * h) * sinh (k * u + k * h))).
      { intros. unfold Rdiv. rewrite Rmult_comm. f_equal. f_equal. ring. }
      eapply deriv_eq; [apply d_scal, d_comp, derivable_pt_lim_sinh|]. replace (k * z + k * h) with (k * (z + h)) by ring. field. lra.
    + intros. apply (deriv_ext (fun u => / sinh (k * h) * cosh (k * u + k * h))).
      { intros. unfold Rdiv. rewrite Rmult_comm. f_equal. f_equal. ring. }
      eapply deriv_eq; [apply d_scal, d_comp, derivable_pt_lim_cosh|]. replace (k * z + k * h) with (k * (z + h)) by ring. field. lra.
    + replace (0 + h) with h by ring. field. lra.
    + replace (- h + h) with 0 by ring. rewrite Rmult_0_r, sinh_0. unfold Rdiv. lra.
    + replace (- h + h) with 0 by ring. rewrite Rmult_0_r, sinh_0. unfold Rdiv. rewrite Rmult_0_l. left. apply exp_pos.
Qed.

(** a component as [setup] makes it *)
Definition comp_ok (c : comp) (h : R) : Prop := 0 <= c_omega c /\ 0 <= c_amp c /\ ((c_omega c = 0 /\ c_k c = 0) \/ 0 < c_k c).
Lemma setup_ok g h f : 0 < g -> 0 < h -> 0 <= f_omega f -> comp_ok (setup_comp g h f) h.
Proof.
  intros Hg Hh [W|W]; unfold comp_ok; cbn; (split; [lra|]); (split; [apply sqrt_pos|]).
  - right. apply wavenumber_pos; assumption.
  - left. rewrite <- W. split; [reflexivity|apply wavenumber_0].
Qed.

Section Comp.
Variables (c : comp) (h : R).
Hypothesis ok : comp_ok c h.
Hypothesis hp : 0 < h.
Let U : field v3 := comp_vel c h.
Let A : field v3 := comp_acc c h.
Lemma still : c_omega c = 0 -> forall x y s t, U x y s t = vzero /\ A x y s t = vzero.
Proof. intros W x y s t. unfold U, A, comp_vel, comp_acc, vzero. cbv zeta. rewrite W. split; f_equal; ring. Qed.
Lemma theta_x x y t : theta c x y t = (- (c_k c * cos (c_beta c))) * x + (c_omega c * t - c_k c * (sin (c_beta c) * y) + c_phase c).
Proof. unfold theta. ring. Qed.
Lemma theta_y x y t : theta c x y t = (- (c_k c * sin (c_beta c))) * y + (c_omega c * t - c_k c * (cos (c_beta c) * x) + c_phase c).
Proof. unfold theta. ring. Qed.
Lemma theta_t x y t : theta c x y t = c_omega c * t + (c_phase c - c_k c * (cos (c_beta c) * x + sin (c_beta c) * y)).
Proof. unfold theta. ring. Qed.
Lemma wave_x x y t K : derivable_pt_lim (fun u => K * sin (theta c u y t)) x (- (K * (c_k c * cos (c_beta c) * cos (theta c x y t)))) /\
  derivable_pt_lim (fun u => K * cos (theta c u y t)) x (K * (c_k c * cos (c_beta c) * sin (theta c x y t))).
Proof.
  split.
  - eapply deriv_eq; [eapply (d_sinof K (fun u => theta c u y t)); intros u; apply theta_x|cbv beta; ring].
  - eapply deriv_eq; [eapply (d_cosof K (fun u => theta c u y t)); intros u; apply theta_x|cbv beta; ring].
Qed.
Lemma wave_y x y t K : derivable_pt_lim (fun u => K * sin (theta c x u t)) y (- (K * (c_k c * sin (c_beta c) * cos (theta c x y t)))) /\
  derivable_pt_lim (fun u => K * cos (theta c x u t)) y (K * (c_k c * sin (c_beta c) * sin (theta c x y t))).
Proof.
  split.
  - eapply deriv_eq; [eapply (d_sinof K (fun u => theta c x u t)); intros u; apply theta_y|cbv beta; ring].
  - eapply deriv_eq; [eapply (d_cosof K (fun u => theta c x u t)); intros u; apply theta_y|cbv beta; ring].
Qed.
Lemma wave_t x y t K : derivable_pt_lim (fun u => K * sin (theta c x y u)) t (K * (c_omega c * cos (theta c x y t))) /\
  derivable_pt_lim (fun u => K * cos (theta c x y u)) t (- (K * (c_omega c * sin (theta c x y t)))).
Proof.
  split.
  - eapply deriv_eq; [eapply (d_sinof K (fun u => theta c x y u)); intros u; apply theta_t|cbv beta; ring].
  - eapply deriv_eq; [eapply (d_cosof K (fun u => theta c x y u)); intros u; apply theta_t|cbv beta; ring].
Qed.
End Comp.

(** all the partial derivatives in space, as explicit numbers *)
Definition grad (U : field v3) (x y s t : R) (d : nat -> nat -> R) : Prop :=
  (ddx (cx U) x y s t (d 0%nat 0%nat) /\ ddy (cx U) x y s t (d 0%nat 1%nat) /\ ddz (cx U) x y s t (d 0%nat 2%nat)) /\
  (ddx (cy U) x y s t (d 1%nat 0%nat) /\ ddy (cy U) x y s t (d 1%nat 1%nat) /\ ddz (cy U) x y s t (d 1%nat 2%nat)) /\
  (ddx (cz U) x y s t (d 2%nat 0%nat) /\ ddy (cz U) x y s t (d 2%nat 1%nat) /\ ddz (cz U) x y s t (d 2%nat 2%nat)) /\
  d 0%nat 0%nat + d 1%nat 1%nat + d 2%nat 2%nat = 0 /\ (d 0%nat 1%nat = d 1%nat 0%nat /\ d 0%nat 2%nat = d 2%nat 0%nat /\ d 1%nat 2%nat = d 2%nat 1%nat).
Section CompF.
Variables (c : comp) (h : R).
Hypothesis ok : comp_ok c h.
Hypothesis hp : 0 < h.
Let U : field v3 := comp_vel c h.
Let A : field v3 := comp_acc c h.
Lemma comp_shape : (forall x y s t, U x y s t = vzero /\ A x y s t = vzero) \/
  0 < c_k c /\ exists S C, factors_ok (c_k c) h S C /\ forall x y s t,
  U x y s t = V3 (c_omega c * (c_amp c * sin (theta c x y t)) * C s * cos (c_beta c)) (c_omega c * (c_amp c * sin (theta c x y t)) * C s * sin (c_beta c))
                 (c_omega c * (c_amp c * cos (theta c x y t)) * S s) /\
  A x y s t = V3 (c_omega c * c_omega c * (c_amp c * cos (theta c x y t)) * C s * cos (c_beta c)) (c_omega c * c_omega c * (c_amp c * cos (theta c x y t)) * C s * sin (c_beta c))
                 (- c_omega c * c_omega c * (c_amp c * sin (theta c x y t)) * S s).
Proof.
  destruct ok as (_ & _ & [[W _]|K]).
  - left. apply still. exact W.
  - right. split; [exact K|]. destruct (factors_exist (c_k c) h K hp) as (S & C & F). exists S, C. split; [exact F|].
    intros. destruct F as (E & _). unfold U, A, comp_vel, comp_acc. cbv zeta. rewrite E. cbn [fst snd]. split; reflexivity.
Qed.
Lemma comp_rate : rate_of_change U A.
Proof.
  intros x y s t. unfold ddt, cx, cy, cz. destruct comp_shape as [Z|(K & S & C & F & E)].
  - destruct (Z x y s t) as [_ ->]. unfold vzero. cbn [vx vy vz]. repeat split; apply d_zero; intros u; destruct (Z x y s u) as [-> _]; reflexivity.
  - destruct (E x y s t) as [_ ->]. cbn [vx vy vz]. repeat split.
    + apply (deriv_ext (fun u => c_omega c * c_amp c * C s * cos (c_beta c) * sin (theta c x y u))); [intros u; destruct (E x y s u) as [-> _]; cbn; ring|].
      eapply deriv_eq; [apply wave_t|]. ring.
    + apply (deriv_ext (fun u => c_omega c * c_amp c * C s * sin (c_beta c) * sin (theta c x y u))); [intros u; destruct (E x y s u) as [-> _]; cbn; ring|].
      eapply deriv_eq; [apply wave_t|]. ring.
    + apply (deriv_ext (fun u => c_omega c * c_amp c * S s * cos (theta c x y u))); [intros u; destruct (E x y s u) as [-> _]; cbn; ring|].
      eapply deriv_eq; [apply wave_t|]. ring.
Qed.
Lemma comp_grad x y s t : exists d, grad U x y s t d.
Proof.
  destruct comp_shape as [Z|(K & S & C & (FE & FS & FC & _) & E)].
  - exists (fun _ _ => 0). unfold grad, ddx, ddy, ddz, cx, cy, cz.
    repeat split; try ring; apply d_zero; intros u;
      first [destruct (Z u y s t) as [-> _]; reflexivity | destruct (Z x u s t) as [-> _]; reflexivity | destruct (Z x y u t) as [-> _]; reflexivity].
  - set (w := c_omega c * c_amp c). set (k := c_k c) in *. set (b1 := cos (c_beta c)) in *. set (b2 := sin (c_beta c)) in *.
    set (sn := sin (theta c x y t)). set (cs := cos (theta c x y t)).
    assert (B : b1 * b1 + b2 * b2 = 1). { pose proof (sin2_cos2 (c_beta c)) as H. unfold Rsqr in H. unfold b1, b2. lra. }
    assert (EX : forall x y s t, vx (U x y s t) = w * sin (theta c x y t) * C s * b1) by (intros; rewrite (proj1 (E _ _ _ _)); cbn; unfold w; ring).
    assert (EY : forall x y s t, vy (U x y s t) = w * sin (theta c x y t) * C s * b2) by (intros; rewrite (proj1 (E _ _ _ _)); cbn; unfold w; ring).
    assert (EZ : forall x y s t, vz (U x y s t) = w * cos (theta c x y t) * S s) by (intros; rewrite (proj1 (E _ _ _ _)); cbn; unfold w; ring).
    exists (fun i j => match i, j with
      | 0%nat, 0%nat => - (w * C s * b1 * (k * b1 * cs)) | 0%nat, 1%nat => - (w * C s * b1 * (k * b2 * cs)) | 0%nat, _ => w * sn * b1 * (k * S s)
      | 1%nat, 0%nat => - (w * C s * b2 * (k * b1 * cs)) | 1%nat, 1%nat => - (w * C s * b2 * (k * b2 * cs)) | 1%nat, _ => w * sn * b2 * (k * S s)
      | _, 0%nat => w * S s * (k * b1 * sn) | _, 1%nat => w * S s * (k * b2 * sn) | _, _ => w * cs * (k * C s) end).
    unfold grad, ddx, ddy, ddz, cx, cy, cz. repeat split.
    + apply (deriv_ext (fun u => w * C s * b1 * sin (theta c u y t))); [intros; rewrite EX; ring|apply wave_x].
    + apply (deriv_ext (fun u => w * C s * b1 * sin (theta c x u t))); [intros; rewrite EX; ring|apply wave_y].
    + apply (deriv_ext (fun u => w * sn * b1 * C u)); [intros; rewrite EX; unfold sn; ring|apply d_scal, FC].
    + apply (deriv_ext (fun u => w * C s * b2 * sin (theta c u y t))); [intros; rewrite EY; ring|apply wave_x].
    + apply (deriv_ext (fun u => w * C s * b2 * sin (theta c x u t))); [intros; rewrite EY; ring|apply wave_y].
    + apply (deriv_ext (fun u => w * sn * b2 * C u)); [intros; rewrite EY; unfold sn; ring|apply d_scal, FC].
    + apply (deriv_ext (fun u => w * S s * cos (theta c u y t))); [intros; rewrite EZ; ring|apply wave_x].
    + apply (deriv_ext (fun u => w * S s * cos (theta c x u t))); [intros; rewrite EZ; ring|apply wave_y].
    + apply (deriv_ext (fun u => w * cs * S u)); [intros; rewrite EZ; unfold cs; ring|apply d_scal, FS].
    + replace (- (w * C s * b1 * (k * b1 * cs)) + - (w * C s * b2 * (k * b2 * cs)) + w * cs * (k * C s)) with (w * C s * k * cs * (1 - (b1 * b1 + b2 * b2))) by ring.
      rewrite B. ring.
    + ring. + ring. + ring.
Qed.
Lemma comp_surface x y t : derivable_pt_lim (fun u => sin_wave c x y u) t (vz (U x y 0 t)).
Proof.
  unfold sin_wave. eapply deriv_eq; [apply wave_t|]. destruct ok as (_ & _ & [[W _]|K]).
  - unfold U. rewrite (proj1 (still c h W x y 0 t)), W. cbn. ring.
  - destruct (factors_exist (c_k c) h K hp) as (S & C & F & _ & _ & S0 & _). unfold U, comp_vel. cbv zeta. rewrite F. cbn. rewrite S0. unfold cos_wave. ring.
Qed.
Lemma comp_bottom x y t : Rabs (vz (U x y (- h) t)) <= c_omega c * c_amp c * exp (- 89.4).
Proof.
  destruct ok as (O & Am & [[W _]|K]).
  - unfold U. rewrite (proj1 (still c h W x y (- h) t)), W. cbn. rewrite Rabs_R0. lra.
  - destruct (factors_exist (c_k c) h K hp) as (S & C & F & _ & _ & _ & SB). unfold U, comp_vel. cbv zeta. rewrite F. cbn. unfold cos_wave.
    replace (c_omega c * (c_amp c * cos (theta c x y t)) * S (- h)) with ((c_omega c * c_amp c) * (cos (theta c x y t) * S (- h))) by ring.
    assert (0 <= c_omega c * c_amp c) by nra. rewrite Rabs_mult, (Rabs_right (c_omega c * c_amp c)) by lra. apply Rmult_le_compat_l; [lra|].
    rewrite Rabs_mult, (Rabs_right (S (- h))) by lra. assert (Rabs (cos (theta c x y t)) <= 1) by (apply Rabs_le; apply COS_bound).
    pose proof (Rabs_pos (cos (theta c x y t))). nra.
Qed.
End CompF.

(* ------------------------------ sums ------------------------------ *)
Lemma vsum_acc l a : fold_left vadd l a = vadd a (vsum l).
Proof.
  unfold vsum. revert a. induction l as [|b l IH]; intros a; cbn.
  - destruct a. unfold vadd, vzero. cbn. f_equal; ring.
  - rewrite (IH (vadd a b)), (IH (vadd vzero b)). unfold vadd, vzero. cbn. f_equal; ring.
Qed.
Lemma vsum_cons a l : vsum (a :: l) = vadd a (vsum l).
Proof. unfold vsum at 1. cbn. rewrite vsum_acc. unfold vadd, vzero. cbn. f_equal; ring. Qed.
Definition total (cs : list comp) (h : R) : field v3 := fun x y s t => vsum (map (fun c => comp_vel c h x y s t) cs).
Definition totacc (cs : list comp) (h : R) : field v3 := fun x y s t => vsum (map (fun c => comp_acc c h x y s t) cs).
Definition elev (cs : list comp) (x y t : R) : R := asum (map (fun c => sin_wave c x y t) cs).
Section Sum.
Variable h : R.
Hypothesis hp : 0 < h.
Lemma sum_rate cs : Forall (fun c => comp_ok c h) cs -> rate_of_change (total cs h) (totacc cs h).
Proof.
  induction 1 as [|c cs Hc _ IH]; intros x y s t; unfold ddt, cx, cy, cz, total, totacc.
  - cbn. repeat split; apply derivable_pt_lim_const.
  - cbn [map]. rewrite vsum_cons. destruct (comp_rate c h Hc hp x y s t) as (a1 & a2 & a3). destruct (IH x y s t) as (b1 & b2 & b3).
    cbn [vx vy vz vadd]. repeat split; (eapply deriv_ext; [intros u; symmetry; rewrite vsum_cons; reflexivity|]).
    + exact (deriv_add _ _ _ _ _ a1 b1).
    + exact (deriv_add _ _ _ _ _ a2 b2).
    + exact (deriv_add _ _ _ _ _ a3 b3).
Qed.
Lemma sum_grad cs x y s t : Forall (fun c => comp_ok c h) cs -> exists d, grad (total cs h) x y s t d.
Proof.
  induction 1 as [|c cs Hc _ (e & E1 & E2 & E3 & E4 & E5)].
  - exists (fun _ _ => 0). unfold grad, ddx, ddy, ddz, cx, cy, cz, total. cbn. repeat split; try ring; apply derivable_pt_lim_const.
  - destruct (comp_grad c h Hc hp x y s t) as (d & D1 & D2 & D3 & D4 & D5).
    exists (fun i j => d i j + e i j). unfold grad, ddx, ddy, ddz, cx, cy, cz, total in *. cbn [map].
    destruct D1 as (d1 & d2 & d3), D2 as (d4 & d5 & d6), D3 as (d7 & d8 & d9), D5 as (s1 & s2 & s3).
    destruct E1 as (e1 & e2 & e3), E2 as (e4 & e5 & e6), E3 as (e7 & e8 & e9), E5 as (r1 & r2 & r3).
    repeat split; try lra; (eapply deriv_ext; [intros u; symmetry; rewrite vsum_cons; cbn [vadd vx vy vz]; reflexivity|]).
    + exact (deriv_add _ _ _ _ _ d1 e1). + exact (deriv_add _ _ _ _ _ d2 e2). + exact (deriv_add _ _ _ _ _ d3 e3).
    + exact (deriv_add _ _ _ _ _ d4 e4). + exact (deriv_add _ _ _ _ _ d5 e5). + exact (deriv_add _ _ _ _ _ d6 e6).
    + exact (deriv_add _ _ _ _ _ d7 e7). + exact (deriv_add _ _ _ _ _ d8 e8). + exact (deriv_add _ _ _ _ _ d9 e9).
Qed.
Lemma sum_surface cs : Forall (fun c => comp_ok c h) cs -> surface_moves (elev cs) (total cs h).
Proof.
  intros H x y t. induction H as [|c cs Hc _ IH]; unfold elev, total; cbn [map].
  - cbn. apply derivable_pt_lim_const.
  - rewrite vsum_cons. exact (deriv_add _ _ _ _ _ (comp_surface c h Hc hp x y t) IH).
Qed.
Lemma sum_bottom cs x y t : Forall (fun c => comp_ok c h) cs -> Rabs (vz (total cs h x y (- h) t)) <= exp (- 89.4) * lsum (fun c => c_omega c * c_amp c) cs.
Proof.
  induction 1 as [|c cs Hc _ IH]; unfold total; cbn [map lsum].
  - cbn. rewrite Rabs_R0. lra.
  - rewrite vsum_cons. cbn [vadd vz]. eapply Rle_trans; [apply Rabs_triang|]. pose proof (comp_bottom c h Hc hp x y t). unfold total in IH. lra.
Qed.
End Sum.
Lemma sin_wave_setup g h f x y t : sin_wave (setup_comp g h f) x y t =
  let psi := f_omega f * t - WaveNumber (f_omega f) g h * (cos (f_beta f) * x + sin (f_beta f) * y) in f_re f * sin psi + f_im f * cos psi.
Proof.
  cbv zeta. unfold sin_wave, theta. cbn [setup_comp c_omega c_amp c_beta c_phase c_k]. set (psi := _ - _). rewrite sin_plus.
  pose proof (atan2_cos (f_im f) (f_re f)) as C. pose proof (atan2_sin (f_im f) (f_re f)) as S. unfold hypot in C, S. set (a := sqrt _) in *. nra.
Qed.
Lemma elev_setup g h fs x y t : elev (setup g h fs) x y t =
  lsum (fun f => let psi := f_omega f * t - WaveNumber (f_omega f) g h * (cos (f_beta f) * x + sin (f_beta f) * y) in f_re f * sin psi + f_im f * cos psi) fs.
Proof. unfold elev, setup. induction fs as [|f fs IH]; [reflexivity|]. cbn [map asum fold_right lsum]. rewrite sin_wave_setup. unfold asum in IH. rewrite IH. reflexivity. Qed.
Lemma setup_all g h fs : 0 < g -> 0 < h -> Forall (fun f => 0 <= f_omega f) fs -> Forall (fun c => comp_ok c h) (setup g h fs).
Proof. intros Hg Hh H. unfold setup. apply Forall_map. eapply Forall_impl; [|exact H]. intros f Hf. apply setup_ok; assumption. Qed.
Lemma amp_setup g h fs : lsum (fun c => c_omega c * c_amp c) (setup g h fs) = lsum (fun f => f_omega f * sqrt (f_re f * f_re f + f_im f * f_im f)) fs.
Proof. unfold setup. induction fs as [|f fs IH]; cbn; [reflexivity|]. rewrite IH. reflexivity. Qed.

Lemma kin_run cs pos t sf bottom h : getAverageDepth sf = - h -> 0 < h -> getDepth sf (vx pos) (vy pos) = Ok bottom -> bottom < elev cs (vx pos) (vy pos) t ->
  exists out s, spectrum_kin cs pos t sf = Ok out /\ o_zeta out = elev cs (vx pos) (vy pos) t /\ column (- h) bottom (o_zeta out) (vz pos) s /\
    o_vel out = total cs h (vx pos) (vy pos) s t /\ o_acc out = totacc cs h (vx pos) (vy pos) s t.
Proof.
  intros Ha Hh Hd He. unfold spectrum_kin. rewrite Hd. cbn [obind]. fold (elev cs (vx pos) (vy pos) t). rewrite Ha.
  destruct (stretched_column (- h) bottom (elev cs (vx pos) (vy pos) t) (vz pos)) as (s & Es & Cs); [lra|exact He|]. rewrite Es. cbn [obind].
  eexists _, s. split; [reflexivity|]. cbn [o_zeta o_vel o_acc]. unfold total, totacc. rewrite Ropp_involutive. repeat split; try reflexivity; apply Cs.
Qed.

(* ------------------------------ acceleration at a fixed point ------------------------------ *)
Definition one_wave : list fcomp := [FComp 10 1 0 0].
Definition deep100 : provider := Prov (-100) None.
Definition k1 : R := WaveNumber 10 10 100.
Lemma k1_deep : 10 < k1.
Proof.
  unfold k1, WaveNumber. destruct (Req_EM_T 10 0); [lra|]. destruct (Rlt_dec 10 0); [lra|].
  replace (10 * 10 * 100 / 10) with 1000 by lra. assert (1000 < wn_step 1000). { unfold wn_step. cbv zeta. destruct (Rle_dec 1000 4.8); [lra|]. apply guess_above. lra. }
  lra.
Qed.
Lemma atan2_01 : atan2 0 1 = 0.
Proof. unfold atan2. destruct (Rlt_dec 0 1); [|lra]. replace (0 / 1) with 0 by lra. apply atan_0. Qed.
Definition s1 (t : R) : R := 9900 / (sin (10 * t) + 100) - 100.
Lemma one_elev x y t : elev (setup 10 100 one_wave) x y t = sin (10 * t - k1 * x).
Proof. rewrite elev_setup. unfold one_wave. cbn [lsum]. cbv zeta. cbn [f_omega f_re f_im f_beta]. rewrite cos_0, sin_0. fold k1. replace (10 * t - k1 * (1 * x + 0 * y)) with (10 * t - k1 * x) by ring. ring. Qed.
Lemma one_vel t : exists out, spectrum_kin (setup 10 100 one_wave) (V3 0 0 (-1)) t deep100 = Ok out /\
  vz (o_vel out) = 10 * cos (10 * t) * exp (k1 * s1 t) /\ vx (o_acc out) = 100 * cos (10 * t) * exp (k1 * s1 t) /\ vz (o_acc out) = - 100 * sin (10 * t) * exp (k1 * s1 t) /\ o_pdyn out = 0.
Proof.
  pose proof k1_deep as K. pose proof (SIN_bound (10 * t)) as [S1 S2]. unfold spectrum_kin. cbn [getDepth deep100 pr_floor pr_depth obind vx vy vz getAverageDepth].
  fold (elev (setup 10 100 one_wave) 0 0 t). rewrite one_elev. replace (10 * t - k1 * 0) with (10 * t) by ring.
  unfold stretched. destruct (Req_EM_T (sin (10 * t) - -100) 0); [lra|]. cbv zeta.
  assert (E : - -100 * (-1 - -100) / (sin (10 * t) - -100) + -100 = s1 t) by (unfold s1; field; lra). rewrite E.
  destruct (Rlt_dec 0 (s1 t)) as [P|P].
  - exfalso. unfold s1 in P. assert (9900 / (sin (10 * t) + 100) <= 100); [|lra].
    apply Rmult_le_reg_r with (sin (10 * t) + 100); [lra|]. unfold Rdiv. rewrite Rmult_assoc, Rinv_l by lra. lra.
  - cbn [obind]. eexists. split; [reflexivity|]. cbn [o_vel o_acc o_pdyn setup one_wave map]. unfold vsum. cbn [fold_left].
    unfold comp_vel, comp_acc, depth_factors, sin_wave, cos_wave, theta. cbn [setup_comp c_omega c_amp c_beta c_phase c_k f_omega f_re f_im f_beta].
    fold k1. destruct (Req_EM_T k1 0); [lra|]. destruct (Rlt_dec 89.4 (k1 * - -100)); [|lra]. cbn [fst snd].
    rewrite atan2_01, cos_0, sin_0. replace (1 * 1 + 0 * 0) with 1 by ring. rewrite sqrt_1. replace (10 * t - k1 * (1 * 0 + 0 * 0) + 0) with (10 * t) by ring.
    cbn [vadd vzero vx vy vz]. repeat split; ring.
Qed.
Lemma one_vel_deriv : derivable_pt_lim (fun t => 10 * cos (10 * t) * exp (k1 * s1 t)) 0 (- 99 * k1 * exp (- k1)).
Proof.
  assert (S : derivable_pt_lim s1 0 (-9.9)).
  { unfold s1. apply deriv_eq with ((0 * (sin (10 * 0) + 100) - (10 * cos (10 * 0) + 0) * 9900) / ((sin (10 * 0) + 100) * (sin (10 * 0) + 100)) - 0).
    - apply deriv_sub; [|apply derivable_pt_lim_const]. apply (deriv_div (fun _ => 9900) (fun t => sin (10 * t) + 100)).
      + apply derivable_pt_lim_const.
      + apply deriv_add; [|apply derivable_pt_lim_const]. apply (deriv_ext (fun t => 1 * sin (10 * t + 0))); [intros; rewrite Rmult_1_l; f_equal; ring|].
        eapply deriv_eq; [apply d_sin|]. replace (10 * 0 + 0) with (10 * 0) by ring. ring.
      + rewrite Rmult_0_r, sin_0. lra.
    - rewrite Rmult_0_r, sin_0, cos_0. lra. }
  assert (E : derivable_pt_lim (fun t => exp (k1 * s1 t)) 0 (exp (k1 * s1 0) * (k1 * -9.9))).
  { apply (derivable_pt_lim_comp (fun t => k1 * s1 t) exp); [apply d_scal, S|apply derivable_pt_lim_exp]. }
  assert (S0 : s1 0 = -1) by (unfold s1; rewrite Rmult_0_r, sin_0; lra).
  eapply deriv_eq; [apply deriv_mul; [|exact E]|].
  - apply (deriv_ext (fun t => 10 * cos (10 * t + 0))); [intros; do 2 f_equal; ring|]. apply d_cos.
  - cbv beta. rewrite S0. replace (10 * 0 + 0) with 0 by ring. rewrite Rmult_0_r, sin_0, cos_0. replace (k1 * -1) with (- k1) by ring. lra.
Qed.
