(** Waves as a sum of components: source/Waves/SpectrumKin.cpp l.12-144, SpectrumKinWrapper of
    source/Waves.hpp l.183-220, WaveNumber of source/Waves.cpp l.919-976, and the even resampling of a
    spectrum, source/Waves/WaveSpectrum.cpp l.32-73.
    Simplifications: doubles are exact reals.  A division by zero in the stretching of the water column
    is [UB] (see MWaves).  A logarithm of a number that is not positive is 0 here; PSpec proves that
    its argument is positive. *)
From Coq Require Import Reals ZArith List Arith.
From Verif Require Import MErr MVec MMat MStateOps MInterp MSeafloor MWaves.
Import ListNotations.
Open Scope R_scope.

(** FrequencyComponent, Waves/WaveSpectrum.hpp l.13-38: frequency, complex amplitude, direction *)
Record fcomp := FComp { f_omega : R; f_re : R; f_im : R; f_beta : R }.

(** WaveNumber, Waves.cpp l.919-976; first the initial guess X0, l.948-954, then the step, l.958-967 *)
Definition wn_guess (C : R) : R :=
  if Rle_dec C 2 then sqrt C * (1 + C * (0.169 + 0.031 * C))
  else let E2 := exp (-2 * C) in C * (1 + E2 * (2 - 12 * E2)).
Definition wn_step (C : R) : R :=
  let X0 := wn_guess C in
  if Rle_dec C 4.8 then
    let C2 := C * C - X0 * X0 in
    let A := 1 / (C - C2) in
    let B := A * (0.5 * ln ((X0 + C) / (X0 - C)) - X0) in
    X0 - B * C2 * (1 + A * B * C * X0)
  else X0.
Definition WaveNumber (Omega g h : R) : R :=
  if Req_EM_T Omega 0 then 0 else
  let k := wn_step (Omega * Omega * h / g) / h in
  if Rlt_dec Omega 0 then - k else k.

(** one entry of the arrays of SpectrumKin, SpectrumKin.hpp l.59-70 *)
Record comp := Comp { c_omega : R; c_amp : R; c_beta : R; c_phase : R; c_k : R }.
(** SpectrumKin::setup, SpectrumKin.cpp l.12-37; [h] is -getAverageDepth() or WtrDpth.
    Waves::setup, Waves.cpp l.375, passes no sea floor, so h = WtrDpth. *)
Definition setup_comp (g h : R) (f : fcomp) : comp :=
  Comp (f_omega f) (sqrt (f_re f * f_re f + f_im f * f_im f)) (f_beta f) (atan2 (f_im f) (f_re f)) (WaveNumber (f_omega f) g h).
Definition setup (g h : R) (fs : list fcomp) : list comp := map (setup_comp g h) fs.

(** sum() of an Eigen array *)
Definition asum (l : list R) : R := fold_right Rplus 0 l.
(** omegas * t - kValues * distances + phases, l.52-57 *)
Definition theta (c : comp) (x y t : R) : R :=
  c_omega c * t - c_k c * (cos (c_beta c) * x + sin (c_beta c) * y) + c_phase c.
(** sin_waves and cos_waves, l.54-57 *)
Definition sin_wave (c : comp) (x y t : R) : R := c_amp c * sin (theta c x y t).
Definition cos_wave (c : comp) (x y t : R) : R := c_amp c * cos (theta c x y t).
(** SINHNumOvrSIHNDen and COSHNumOvrSIHNDen, l.84-119; h stands for -avgDepth *)
Definition depth_factors (k h z : R) : R * R :=
  if Req_EM_T k 0 then (1, 99999)
  else if Rlt_dec 89.4 (k * h) then (exp (k * z), exp (k * z))
  else if Rlt_dec 89.4 (- k * h) then (- exp (- k * z), - exp (- k * z))
  else (sinh (k * (z + h)) / sinh (k * h), cosh (k * (z + h)) / sinh (k * h)).
(** velocity and acceleration of one component, l.120-130 *)
Definition comp_vel (c : comp) (h x y z t : R) : v3 :=
  let f := depth_factors (c_k c) h z in
  let u := c_omega c * sin_wave c x y t * snd f in
  V3 (u * cos (c_beta c)) (u * sin (c_beta c)) (c_omega c * cos_wave c x y t * fst f).
Definition comp_acc (c : comp) (h x y z t : R) : v3 :=
  let f := depth_factors (c_k c) h z in
  let a := c_omega c * c_omega c * cos_wave c x y t * snd f in
  V3 (a * cos (c_beta c)) (a * sin (c_beta c)) (- c_omega c * c_omega c * sin_wave c x y t * fst f).
Definition vsum (l : list v3) : v3 := fold_left vadd l vzero.
(** SpectrumKin::getWaveKin, l.39-142, called through SpectrumKinWrapper::getWaveKin, Waves.hpp
    l.203-219, with all the output pointers given; the dynamic pressure is set to 0 *)
Definition spectrum_kin (cs : list comp) (pos : v3) (t : R) (sf : provider) : outcome wout :=
  let avg := getAverageDepth sf in
  bottom <- getDepth sf (vx pos) (vy pos) ;;
  let zeta := asum (map (fun c => sin_wave c (vx pos) (vy pos) t) cs) in
  s <- stretched avg bottom zeta (vz pos) ;;
  Ok (WOut zeta (vsum (map (fun c => comp_vel c (- avg) (vx pos) (vy pos) s t) cs))
               (vsum (map (fun c => comp_acc c (- avg) (vx pos) (vy pos) s t) cs)) 0).

(** DiscreteWaveSpectrum::interpEvenlySpaced, WaveSpectrum.cpp l.32-73.  The infinite initial value of
    dw, l.35, is [None]; with fewer than two components nw is floor(omega / inf) + 1 = 1 (or garbage
    for an empty spectrum, [UB]) and the second lookup of amplitudes[j - 1] with j = 0 is out of range. *)
Fixpoint min_gap (l : list R) (dw : option R) : option R :=
  match l with
  | a :: (b :: _) as r =>
      min_gap r (match dw with None => Some (b - a) | Some d => if Rlt_dec (b - a) d then Some (b - a) else Some d end)
  | _ => dw
  end.
(** lerp(v[j - 1], v[j], f), l.67-68 *)
Definition lerp_at (v : list R) (j : nat) (f : R) : outcome R :=
  match j with
  | O => UB
  | S j' => a <- vget v j' ;; b <- vget v j ;; Ok (lerp a b f)
  end.
Fixpoint even_loop (om re im be : list R) (dw : R) (i n j : nat) : outcome (list fcomp) :=
  match n with
  | O => Ok []
  | S n' =>
      jf <- interp_factor om j (INR i * dw) ;;
      r <- lerp_at re (fst jf) (snd jf) ;;
      m <- lerp_at im (fst jf) (snd jf) ;;
      b <- lerp_at be (fst jf) (snd jf) ;;
      rest <- even_loop om re im be dw (S i) n' (fst jf) ;;
      Ok (FComp (INR i * dw) r m b :: rest)
  end.
Definition interpEvenlySpaced (fs : list fcomp) : outcome (list fcomp) :=
  let om := map f_omega fs in
  match min_gap om None with
  | None => UB
  | Some dw =>
      if Rle_dec dw 0 then Throw ExInvalidValue else
      let q := Int_part (last om 0 / dw) in
      if orb (Z.ltb q 0) (Z.leb (2 ^ 32 - 1) q) then UB else
      even_loop om (map f_re fs) (map f_im fs) (map f_beta fs) dw 0 (S (Z.to_nat q)) 1
  end.
