(** Model of the construction of the wave grids: doIFFT and fillWaveGrid, source/Waves/WaveGrid.cpp l.20-275,
    constructWaveGridSpectrumData l.351-404 and constructWaveGridElevationData l.405-540, from the numbers
    read from the files on.
    Simplifications: doubles are exact reals; the contents of freshly allocated or reused buffers of the
    transform are an arbitrary function [junk]; sizes are unbounded. *)
From Coq Require Import Reals ZArith List Arith Bool.
From Verif Require Import MErr MVec MStateOps MInterp MWaves MSpec MFFT.
Import ListNotations.
Open Scope R_scope.

(** doIFFT, l.29-58, with a state for the inverse transform (else kiss_fftri exits: [None]) *)
Definition doIFFT (junk : buf) (cfg : rcfg) (nFFT : nat) (inputs : nat -> cpx) : option (list R) :=
  match kiss_fftri cfg (fun i => if Nat.ltb i (nFFT / 2 + 1) then inputs i else junk i) junk junk with
  | None => None
  | Some x => Some (map (fun r => x r / INR nFFT) (seq 0 nFFT))
  end.
Definition cscale (a : R) (c : cpx) : cpx := Cx (a * re c) (a * im c).
(** the imaginary unit i1 *)
Definition i1 : cpx := Cx 0 1.

Section Fill.
Variables (junk : buf) (cfg : rcfg).
(** water density, gravity, depth; spacing of the frequencies; amplitudes and directions *)
Variables (rho g h dw : R) (zetaC0 : nat -> cpx) (betas : nat -> R).
(** w[i] and k[i], l.107-119 *)
Definition w_ (i : nat) : R := INR i * dw.
Definition k_ (i : nat) : R := WaveNumber (w_ i) g h.
(** COSHNumOvrCOSHDen, l.180-213; the other two factors are those of SpectrumKin, [depth_factors] *)
Definition cosh_cosh (k z : R) : R :=
  if Req_EM_T k 0 then 1
  else if Rlt_dec 89.4 (k * h) then exp (k * z) + exp (- k * (z + 2 * h))
  else if Rlt_dec 89.4 (- k * h) then - exp (- k * z) + exp (- k * (z + 2 * h))
  else cosh (k * (z + h)) / cosh (k * h).
(** zetaC, l.152-158: exp(-i1 * (k * l)) *)
Definition zetaC (x y : R) (i : nat) : cpx :=
  let l := cos (betas i) * x + sin (betas i) * y in cmul (zetaC0 i) (cexp (- (k_ i * l))).
(** l.215-233 *)
Definition PDynC (x y z : R) (i : nat) : cpx := cscale (rho * g) (cscale (cosh_cosh (k_ i) z) (zetaC x y i)).
Definition UCx (x y z : R) (i : nat) : cpx := cscale (cos (betas i)) (cscale (snd (depth_factors (k_ i) h z)) (cscale (w_ i) (zetaC x y i))).
Definition UCy (x y z : R) (i : nat) : cpx := cscale (sin (betas i)) (cscale (snd (depth_factors (k_ i) h z)) (cscale (w_ i) (zetaC x y i))).
Definition UCz (x y z : R) (i : nat) : cpx := cscale (fst (depth_factors (k_ i) h z)) (cmul (cscale (w_ i) i1) (zetaC x y i)).
Definition UdC (U : R -> R -> R -> nat -> cpx) (x y z : R) (i : nat) : cpx := cmul (cscale (w_ i) i1) (U x y z i).
(** the loops over the nodes, l.147-266.  [None]: kiss_fftri exits *)
Fixpoint each {A B} (f : A -> option B) (l : list A) : option (list B) :=
  match l with
  | [] => Some []
  | a :: r => match f a, each f r with Some b, Some bs => Some (b :: bs) | _, _ => None end
  end.
Fixpoint zip3 (a b c : list R) : list v3 :=
  match a, b, c with x :: a', y :: b', z :: c' => V3 x y z :: zip3 a' b' c' | _, _, _ => [] end.
Definition ifft3 (n : nat) (a b c : nat -> cpx) : option (list v3) :=
  match doIFFT junk cfg n a, doIFFT junk cfg n b, doIFFT junk cfg n c with
  | Some x, Some y, Some z => Some (zip3 x y z)
  | _, _, _ => None
  end.
Definition fill_tables (px py pz : list R) (n : nat) : option wgrid :=
  match each (fun x => each (fun y => doIFFT junk cfg n (zetaC x y)) py) px,
        each (fun x => each (fun y => each (fun z => doIFFT junk cfg n (PDynC x y z)) pz) py) px,
        each (fun x => each (fun y => each (fun z => ifft3 n (UCx x y z) (UCy x y z) (UCz x y z)) pz) py) px,
        each (fun x => each (fun y => each (fun z => ifft3 n (UdC UCx x y z) (UdC UCy x y z) (UdC UCz x y z)) pz) py) px with
  | Some zt, Some pd, Some vl, Some ac => Some (WGrid (Axes px py pz n ((2 * PI / dw) / INR n)) zt pd vl ac)
  | _, _, _, _ => None
  end.
End Fill.
(** fillWaveGrid, l.70-275: a transform of odd size is a null pointer which doIFFT follows, one of
    size 0 has no factors; nw amplitudes are read, those up to nt / 2 in doIFFT *)
Definition fillWaveGrid (junk : buf) (px py pz : list R) (nt : nat) (zetaC0 : nat -> cpx) (nw : nat) (betas : nat -> R) (rho g h dw : R) : outcome wgrid :=
  if orb (Nat.eqb nt 0) (Nat.ltb nw (nt / 2 + 1)) then UB else
  match kiss_fftr_alloc nt true junk junk with
  | None => UB
  | Some cfg => match fill_tables junk cfg rho g h dw zetaC0 betas px py pz nt with Some w => Ok w | None => UB end
  end.

(** constructWaveGridSpectrumData, l.351-404, from the components of wave_frequencies.txt and the axes of
    water_grid.txt on *)
Definition spectrum_grid (junk : buf) (fs : list fcomp) (px py pz : list R) (rho g h : R) : outcome wgrid :=
  match fs with
  | [] => UB
  | f0 :: _ =>
      if Req_EM_T (f_omega f0) 0 then
        ev <- interpEvenlySpaced fs ;;
        let n := length ev in
        let at_ i := nth i ev (FComp 0 0 0 0) in
        if Nat.ltb n 2 then Throw ExStd else
        fillWaveGrid junk px py pz (2 * (n - 1)) (fun i => Cx (f_re (at_ i) * INR (n - 1)) (f_im (at_ i) * INR (n - 1))) n
          (fun i => f_beta (at_ i)) rho g h (f_omega (at_ 1%nat) - f_omega (at_ 0%nat))
      else Throw ExInvalidValue
  end.

(** constructWaveGridElevationData, l.405-540, from the columns of wave_elevation.txt on *)
Definition elevation_grid (junk : buf) (wavetimes waveelevs : list R) (dt : R) (px py pz : list R) (rho g h : R) : outcome wgrid :=
  match wavetimes with
  | [] => UB (* back() *)
  | _ =>
      if Req_EM_T dt 0 then UB else
      let q := Int_part (last wavetimes 0 / dt) in
      if orb (Z.ltb q 0) (Z.leb (2 ^ 32 - 1) q) then UB else
      let nt := S (Z.to_nat q) in
      elev <- interp_batch wavetimes waveelevs (map (fun i => INR i * dt) (seq 0 nt)) (repeat 0 nt) ;;
      let nt := if Nat.odd nt then (nt - 1)%nat else nt in
      let dw := PI / (dt * INR (nt / 2)) in
      if Nat.eqb nt 0 then UB else
      match kiss_fftr_alloc nt false junk junk with
      | None => UB
      | Some cfg =>
          match kiss_fftr cfg (fun r => if Nat.ltb r nt then nth r elev 0 else re (junk r)) junk junk with
          | None => UB
          | Some fd =>
              fillWaveGrid junk px py pz nt (fun i => if Rlt_dec (0.5 * 2 * PI) (INR i * dw) then Cx 0 0 else fd i) (nt / 2 + 1)
                (fun _ => 0) rho g h dw
          end
      end
  end.
