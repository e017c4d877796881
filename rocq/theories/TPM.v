(** C121: spectra given by formulas. *)
From Coq Require Import List Reals Lra Lia.
From Verif Require Import MPM SPM PPM.
Import ListNotations.
Open Scope R_scope.

(** At its peak frequency the spectrum has the value of Pierson and Moskowitz. Missing: all other frequencies, where it has not. *)
Theorem C121_peak_value_partial : forall H fp, 0 < fp -> getSpectrum H fp fp = Some (pierson_moskowitz H fp fp).
Proof. exact at_peak. Qed.
Print Assumptions C121_peak_value_partial.

(** REFUTED: the spectrum of Pierson and Moskowitz has its peak at the peak frequency; the one computed is the same for all peak
    frequencies and falls everywhere. *)
Theorem C121_peak_refuted : forall H fp, H <> 0 -> 0 < fp -> peak_at (pierson_moskowitz H fp) fp /\
  (forall fp' f, 0 < f -> getSpectrum H fp' f = getSpectrum H fp f) /\
  (forall f g, 0 < f < g -> exists a b, getSpectrum H fp f = Some a /\ getSpectrum H fp g = Some b /\ b < a).
Proof.
  intros H fp HH Hp. split; [exact (pm_peak H fp Hp)|]. split; [|intros f g Hf; exact (falls H fp f g HH Hf)].
  intros fp' f Hf. rewrite (value H fp' f Hf), (value H fp f Hf). reflexivity.
Qed.
Print Assumptions C121_peak_refuted.

(** REFUTED: the energy between any two frequencies is at most the square of a quarter of the significant height; that of the spectrum
    computed exceeds any number. *)
Theorem C121_height_refuted : forall H fp, H <> 0 -> 0 < fp ->
  (forall a b, 0 < a < b -> exists v, area (pierson_moskowitz H fp) a b v /\ v <= (H / 4) ^ 2) /\
  forall M, exists a b s v, 0 < a < b /\ (forall f, a <= f <= b -> getSpectrum H fp f = Some (s f)) /\ area s a b v /\ M < v.
Proof.
  intros H fp HH Hp. split; [|intro M; exact (energy_unbounded H fp M HH)].
  intros a b Hab. replace ((H / 4) ^ 2) with (H ^ 2 / 16) by field. exact (pm_energy H fp a b Hp Hab).
Qed.
Print Assumptions C121_height_refuted.
Example C121_case : 2 <> 0 /\ 0 < 0.1.
Proof. split; lra. Qed.

(** The components are evenly spaced between the two angular frequencies. *)
Theorem C121_frequencies : forall s lo hi n i, (2 <= n)%nat -> (i < n)%nat ->
  option_map fst (nth_error (getAmplitudes s lo hi n) i) = Some (lo + INR i * (hi - lo) / (INR n - 1)).
Proof. exact amplitude_frequencies. Qed.
Print Assumptions C121_frequencies.
(** REFUTED: the variance of the components is 2 pi times the energy of the spectrum, for every spectrum: the values are per hertz, the
    width is in radians per second. *)
Theorem C121_amplitudes_refuted : forall s lo hi n, lo < hi -> (2 <= n)%nat -> (forall f, 0 <= s f) ->
  variance (map snd (getAmplitudes s lo hi n)) = 2 * PI * total (map (fun wa => s (fst wa / (2 * PI)) * ((hi - lo) / (2 * PI) / (INR n - 1))) (getAmplitudes s lo hi n)).
Proof. exact amplitude_variance. Qed.
Print Assumptions C121_amplitudes_refuted.
Example C121_case_amplitudes : variance (map snd (getAmplitudes (fun _ => 1) 0 1 2)) = 2.
Proof.
  unfold getAmplitudes, linspaced. cbn [seq map snd variance fold_right]. replace (2 * 1 * ((1 - 0) / (INR 2 - 1))) with 2 by (cbn; field). rewrite pow2_sqrt by lra. lra.
Qed.
