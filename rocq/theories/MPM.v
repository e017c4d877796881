(** Spectra given by formulas: PMSpectrum::getSpectrum, source/Waves/WaveSpectrum.cpp l.153-160, and
    ParametricSpectrum::getAmplitudes, l.129-146. Numbers are exact reals; the number of components is a natural number. *)
From Coq Require Import List Reals.
Import ListNotations.
Open Scope R_scope.

(** PMSpectrum::getSpectrum of a spectrum with significant height [Hs] and peak [f_p], which the code does not use; pow(f, 4) and
    pow(f, -5.0) are powers. At 0 the product is not a number ([None]). *)
Definition getSpectrum (Hs f_p f : R) : option R :=
  if Req_EM_T f 0 then None
  else let front := 0.3125 * Hs * Hs * f ^ 4 * / f ^ 5 in let back := exp (-1.25 * (f / f) ^ 4) in Some (front * back).

(** Eigen's LinSpaced *)
Definition linspaced (n : nat) (lo hi : R) : list R := map (fun i => lo + INR i * ((hi - lo) / (INR n - 1))) (seq 0 n).
(** ParametricSpectrum::getAmplitudes: angular frequencies and amplitudes, for any spectrum *)
Definition getAmplitudes (spectrum : R -> R) (minOmega maxOmega : R) (numComps : nat) : list (R * R) :=
  let dw := (maxOmega - minOmega) / (INR numComps - 1) in
  map (fun w => (w, sqrt (2 * spectrum (w / (2 * PI)) * dw))) (linspaced numComps minOmega maxOmega).
