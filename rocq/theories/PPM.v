(** Spectra given by formulas: proofs. *)
From Coq Require Import List Reals Lra Lia.
From Verif Require Import MPM SPM.
Import ListNotations.
Open Scope R_scope.

Lemma value H fp f : 0 < f -> getSpectrum H fp f = Some (5 / 16 * H ^ 2 * exp (- (5 / 4)) / f).
Proof.
  intro Hf. unfold getSpectrum. destruct (Req_EM_T f 0) as [E|E]; [lra|]. f_equal. replace (f / f) with 1 by (field; lra). replace (-1.25 * 1 ^ 4) with (- (5 / 4)) by lra.
  replace 0.3125 with (5 / 16) by lra. field. lra.
Qed.
Lemma at_peak H fp : 0 < fp -> getSpectrum H fp fp = Some (pierson_moskowitz H fp fp).
Proof.
  intro Hf. rewrite (value H fp fp Hf). f_equal. unfold pierson_moskowitz. replace (fp / fp) with 1 by (field; lra). rewrite pow1, Rmult_1_r. field. lra.
Qed.
Lemma falls H fp f g : H <> 0 -> 0 < f < g -> exists a b, getSpectrum H fp f = Some a /\ getSpectrum H fp g = Some b /\ b < a.
Proof.
  intros HH Hf. rewrite (value H fp f), (value H fp g) by lra. do 2 eexists. split; [reflexivity|]. split; [reflexivity|].
  assert (P : 0 < 5 / 16 * H ^ 2 * exp (- (5 / 4))) by (apply Rmult_lt_0_compat; [|apply exp_pos]; assert (0 < H ^ 2) by (rewrite <- Rsqr_pow2; apply Rsqr_pos_lt; exact HH); lra).
  unfold Rdiv at 1 3. apply Rmult_lt_compat_l; [exact P|]. apply Rinv_lt_contravar; [apply Rmult_lt_0_compat; lra|lra].
Qed.

Lemma ln_below v : 0 < v -> ln v <= v - 1.
Proof. intro Hv. destruct (Req_dec v 1) as [->|N]; [rewrite ln_1; lra|]. rewrite <- (ln_exp (v - 1)). apply Rlt_le, ln_increasing; [exact Hv|]. pose proof (exp_ineq1 (v - 1) ltac:(lra)). lra. Qed.
Lemma pow_ln u n : 0 < u -> u ^ n = exp (INR n * ln u).
Proof. intro Hu. rewrite <- (exp_ln u Hu) at 1. induction n as [|n IH]; [cbn; rewrite Rmult_0_l, exp_0; reflexivity|]. rewrite <- tech_pow_Rmult, IH, <- exp_plus, S_INR. f_equal. ring. Qed.
Lemma pm_peak H fp : 0 < fp -> peak_at (pierson_moskowitz H fp) fp.
Proof.
  intro Hp. split; [exact Hp|]. intros f Hf. set (u := fp / f). assert (Hu : 0 < u) by (apply Rdiv_lt_0_compat; lra).
  assert (L : u ^ 5 * exp (- (5 / 4) * u ^ 4) <= exp (- (5 / 4))).
  { rewrite (pow_ln u 5 Hu), <- exp_plus. pose proof (ln_below (u ^ 4) (pow_lt u 4 Hu)) as B. rewrite (pow_ln u 4 Hu) in B at 1. rewrite ln_exp in B. replace (INR 4) with 4 in B by (cbn; lra). replace (INR 5) with 5 by (cbn; lra).
    assert (E : 5 * ln u + - (5 / 4) * u ^ 4 <= - (5 / 4)) by lra. destruct E as [E|E]; [left; apply exp_increasing; exact E|right; f_equal; exact E]. }
  unfold pierson_moskowitz. fold u. replace (fp / fp) with 1 by (field; lra). rewrite pow1, Rmult_1_r.
  replace (5 / 16 * H ^ 2 * (fp ^ 4 / f ^ 5) * exp (- (5 / 4) * u ^ 4)) with (5 / 16 * H ^ 2 / fp * (u ^ 5 * exp (- (5 / 4) * u ^ 4))) by (unfold u; field; lra).
  replace (5 / 16 * H ^ 2 * (fp ^ 4 / fp ^ 5) * exp (- (5 / 4))) with (5 / 16 * H ^ 2 / fp * exp (- (5 / 4))) by (field; lra).
  apply Rmult_le_compat_l; [|exact L]. unfold Rdiv at 1. apply Rmult_le_pos; [|left; apply Rinv_0_lt_compat; exact Hp]. pose proof (pow2_ge_0 H). lra.
Qed.
Lemma ext_lim f g x l m : (forall y, f y = g y) -> l = m -> derivable_pt_lim f x l -> derivable_pt_lim g x m.
Proof. intros E -> D e He. destruct (D e He) as [d Hd]. exists d. intros h H1 H2. rewrite <- !E. exact (Hd h H1 H2). Qed.
Lemma pm_area H fp a b : 0 < fp -> 0 < a < b -> area (pierson_moskowitz H fp) a b (H ^ 2 / 16 * (exp (- (5 / 4) * (fp / b) ^ 4) - exp (- (5 / 4) * (fp / a) ^ 4))).
Proof.
  intros Hp Hab. exists (fun x => H ^ 2 / 16 * exp (- (5 / 4) * (fp / x) ^ 4)). split; [|ring]. intros x Hx.
  assert (D1 : derivable_pt_lim (fun x => fp / x) x (- fp / x ^ 2)).
  { apply (ext_lim (fct_cte fp / id)%F _ x ((0 * id x - 1 * fct_cte fp x) / Rsqr (id x))); [reflexivity|unfold id, fct_cte, Rsqr; field; lra|].
    apply derivable_pt_lim_div; [apply derivable_pt_lim_const|apply derivable_pt_lim_id|unfold id; lra]. }
  assert (D2 : derivable_pt_lim (fun x => - (5 / 4) * (fp / x) ^ 4) x (- (5 / 4) * (4 * (fp / x) ^ 3 * (- fp / x ^ 2)))).
  { apply (ext_lim (mult_real_fct (- (5 / 4)) (comp (fun y => y ^ 4) (fun x => fp / x))) _ x (- (5 / 4) * (INR 4 * (fp / x) ^ pred 4 * (- fp / x ^ 2)))); [reflexivity|cbn [pred]; replace (INR 4) with 4 by (cbn; lra); reflexivity|].
    apply derivable_pt_lim_scal. apply derivable_pt_lim_comp; [exact D1|apply derivable_pt_lim_pow]. }
  apply (ext_lim (mult_real_fct (H ^ 2 / 16) (comp exp (fun x => - (5 / 4) * (fp / x) ^ 4))) _ x (H ^ 2 / 16 * (exp (- (5 / 4) * (fp / x) ^ 4) * (- (5 / 4) * (4 * (fp / x) ^ 3 * (- fp / x ^ 2)))))); [reflexivity| |].
  - unfold pierson_moskowitz. generalize (exp (- (5 / 4) * (fp / x) ^ 4)). intro e. field. lra.
  - apply derivable_pt_lim_scal. apply derivable_pt_lim_comp; [exact D2|apply derivable_pt_lim_exp].
Qed.
Lemma pm_energy H fp a b : 0 < fp -> 0 < a < b -> exists v, area (pierson_moskowitz H fp) a b v /\ v <= H ^ 2 / 16.
Proof.
  intros Hp Hab. eexists. split; [apply pm_area; assumption|]. pose proof (pow2_ge_0 H). rewrite <- (Rmult_1_r (H ^ 2 / 16)) at 2. apply Rmult_le_compat_l; [lra|].
  pose proof (exp_pos (- (5 / 4) * (fp / a) ^ 4)). assert (exp (- (5 / 4) * (fp / b) ^ 4) <= exp 0); [|rewrite exp_0 in *; lra].
  left. apply exp_increasing. assert (0 < (fp / b) ^ 4) by (apply pow_lt, Rdiv_lt_0_compat; lra). lra.
Qed.
Lemma energy_unbounded H fp M : H <> 0 -> exists a b s v, 0 < a < b /\ (forall f, a <= f <= b -> getSpectrum H fp f = Some (s f)) /\ area s a b v /\ M < v.
Proof.
  intro HH. set (k := 5 / 16 * H ^ 2 * exp (- (5 / 4))).
  assert (P : 0 < k) by (apply Rmult_lt_0_compat; [|apply exp_pos]; assert (0 < H ^ 2) by (rewrite <- Rsqr_pow2; apply Rsqr_pos_lt; exact HH); lra).
  set (t := Rabs M / k + 1). assert (T : 0 < t) by (unfold t; assert (0 <= Rabs M / k) by (apply Rmult_le_pos; [apply Rabs_pos|left; apply Rinv_0_lt_compat; exact P]); lra).
  exists 1, (exp t), (fun f => k / f), (k * t). split; [split; [lra|rewrite <- exp_0; apply exp_increasing; exact T]|]. split; [intros f Hf; apply value; lra|]. split.
  - exists (fun x => k * ln x). split; [|rewrite ln_exp, ln_1; ring]. intros x Hx. apply (ext_lim (mult_real_fct k ln) _ x (k * / x)); [reflexivity|reflexivity|]. apply derivable_pt_lim_scal, derivable_pt_lim_ln. lra.
  - unfold t. replace (k * (Rabs M / k + 1)) with (Rabs M + k) by (field; lra). pose proof (Rle_abs M). lra.
Qed.

Lemma amplitude_variance s lo hi n : lo < hi -> (2 <= n)%nat -> (forall f, 0 <= s f) ->
  variance (map snd (getAmplitudes s lo hi n)) = 2 * PI * total (map (fun wa => s (fst wa / (2 * PI)) * ((hi - lo) / (2 * PI) / (INR n - 1))) (getAmplitudes s lo hi n)).
Proof.
  intros Hl Hn Hs. unfold getAmplitudes. cbv zeta. rewrite !map_map. cbn [fst snd]. assert (N : 1 <= INR n - 1) by (apply le_INR in Hn; cbn in Hn; lra). assert (W : 0 <= (hi - lo) / (INR n - 1)) by (apply Rmult_le_pos; [lra|left; apply Rinv_0_lt_compat; lra]).
  pose proof PI_RGT_0 as HP. induction (linspaced n lo hi) as [|w l IH]; [cbn; ring|]. cbn [map variance total fold_right]. unfold variance, total in IH. rewrite IH.
  replace (sqrt (2 * s (w / (2 * PI)) * ((hi - lo) / (INR n - 1))) ^ 2) with (2 * s (w / (2 * PI)) * ((hi - lo) / (INR n - 1))) by (rewrite pow2_sqrt; [reflexivity|]; apply Rmult_le_pos; [specialize (Hs (w / (2 * PI))); lra|exact W]).
  generalize (s (w / (2 * PI))). intro y. rewrite (Rmult_plus_distr_l (2 * PI)). f_equal. field. lra.
Qed.
Lemma amplitude_frequencies s lo hi n i : (2 <= n)%nat -> (i < n)%nat -> option_map fst (nth_error (getAmplitudes s lo hi n) i) = Some (lo + INR i * (hi - lo) / (INR n - 1)).
Proof.
  intros Hn Hi. unfold getAmplitudes, linspaced. cbv zeta. rewrite map_map. cbn. rewrite nth_error_map. rewrite (nth_error_nth' (seq 0 n) 0%nat) by (rewrite seq_length; exact Hi). rewrite seq_nth by exact Hi. cbn. f_equal. unfold Rdiv. ring.
Qed.
