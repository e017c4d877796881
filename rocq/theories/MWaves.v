(** Wave and current grids: source/Waves.cpp l.50-103, 126-237 and the containers of
    source/Waves.hpp l.54-113, 212-350.
    Simplifications: doubles are exact reals.  A conversion of a floating point number to an unsigned
    integer out of its range is [UB]; a division by zero in the stretching of the water column (a sea
    bed touching the surface) has no value and is [UB] too. *)
From Coq Require Import Reals ZArith List Arith.
From Verif Require Import MErr MVec MStateOps MInterp MSeafloor.
Import ListNotations.
Open Scope R_scope.

(* ------------------------------ axes ------------------------------ *)
(** Waves::coordtypes, Waves.hpp l.640-648, and any other number found in the file *)
Inductive coordtype := GRID_SINGLE | GRID_LIST | GRID_LATTICE | GRID_OTHER.
Section Axis.
Context {tok : Type}.
(** C's atof, and std::stoul narrowed to unsigned int *)
Variable atof : tok -> R.
Variable stoul : tok -> outcome Z.
(** first + i * dx for i = 1 .. m *)
Fixpoint lattice (first dx : R) (m : nat) : list R :=
  match m with O => [] | S m' => lattice first dx m' ++ [first + INR m * dx] end.
(** gridAxisCoords, Waves.cpp l.69-103; n is an unsigned int: n - 1 wraps for n = 0.  The
    division by n - 1 = 0 is not read afterwards. *)
Definition gridAxisCoords (c : coordtype) (entries : list tok) : outcome (list R) :=
  match c with
  | GRID_SINGLE => Ok [0]
  | GRID_LIST => Ok (map atof entries)
  | GRID_LATTICE =>
      e2 <- vget entries 2 ;;
      n <- stoul e2 ;;
      e0 <- vget entries 0 ;;
      e1 <- vget entries 1 ;;
      let first := atof e0 in let last := atof e1 in
      let n1 := Z.modulo (Z.modulo n (2 ^ 32) - 1) (2 ^ 32) in
      let dx := (last - first) / IZR n1 in
      Ok (first :: lattice first dx (Z.to_nat (n1 - 1)) ++ [last])
  | GRID_OTHER => Ok []
  end.
End Axis.

(* ------------------------------ interpolation of vectors ------------------------------ *)
(** c * (1. - f) + c' * f for Vector3d *)
Definition vmix (f : R) (a b : v3) : v3 := vadd (vscale (1 - f) a) (vscale f b).
Definition gomix {A} (mx : R -> A -> A -> A) (f : R) (a b : outcome A) : outcome A :=
  obind a (fun x => obind b (fun y => Ok (mx f x y))).
(** interp4 and interp4Vec, Util/Interp.hpp l.224-303, for any type of samples *)
Definition ginterp4 {A} (mx : R -> A -> A -> A) (v : list (list (list (list A)))) (i j k w : nat) (fx fy fz fw : R) : outcome A :=
  let i0 := low i in let j0 := low j in let k0 := low k in let w0 := low w in
  let c a b c := gomix mx fw (vget4 v a b c w0) (vget4 v a b c w) in
  gomix mx fz
    (gomix mx fy (gomix mx fx (c i0 j0 k0) (c i j0 k0)) (gomix mx fx (c i0 j k0) (c i j k0)))
    (gomix mx fy (gomix mx fx (c i0 j0 k) (c i j0 k)) (gomix mx fx (c i0 j k) (c i j k))).
Definition interp4Vec := ginterp4 vmix.

(* ------------------------------ grids ------------------------------ *)
(** SeafloorProvider, Waves.hpp l.113-119 *)
Record provider := Prov { pr_depth : R; pr_floor : option seafloor }.
(** SeafloorProvider::getAverageDepth and getDepth, Waves.cpp l.50-66 *)
Definition getAverageDepth (p : provider) : R := match pr_floor p with Some s => sf_avg s | None => pr_depth p end.
Definition getDepth (p : provider) (x y : R) : outcome R :=
  match pr_floor p with Some s => get_depth_at s x y | None => Ok (pr_depth p) end.

(** GridXYZT, Waves.hpp l.222-262 *)
Record axes := Axes { px : list R; py : list R; pz : list R; nt : nat; dtWave : R }.
(** WaveGrid and CurrentGrid, Waves.hpp l.264-366 *)
Record wgrid := WGrid { wg_axes : axes; wg_zeta : list (list (list R)); wg_pdyn : list (list (list (list R)));
  wg_vel : list (list (list (list v3))); wg_acc : list (list (list (list v3))) }.
Record cgrid := CGrid { cg_axes : axes; cg_vel : list (list (list (list v3))); cg_acc : list (list (list (list v3))) }.

(** `while (it > nt - 1) it -= nt;`, Waves.cpp l.145-146 and 216-217 *)
Fixpoint wrap_loop (fuel it n : nat) : outcome nat :=
  if Nat.ltb (n - 1) it then match fuel with O => Diverges | S f => wrap_loop f (it - n) n end
  else Ok it.
(** index and factor in time, l.137-147 and 208-218 *)
Definition time_index (a : axes) (time : R) : outcome (nat * R) :=
  if Nat.ltb 1 (nt a) then
    if Req_EM_T (dtWave a) 0 then UB else
    let quot := time / dtWave a in
    let it := Int_part quot in
    if orb (Z.ltb it 0) (Z.leb (2 ^ 32) it) then UB else
    let ft := quot - IZR it in
    let it := Z.to_nat (Z.modulo (it + 1) (2 ^ 32)) in
    i <- wrap_loop it it (nt a) ;; Ok (i, ft)
  else Ok (0%nat, 0).

(** depth where the grid is read, l.156-171 *)
Definition stretched (avg bottom zeta z : R) : outcome R :=
  if Req_EM_T (zeta - bottom) 0 then UB else
  let s := - avg * (z - bottom) / (zeta - bottom) + avg in
  Ok (if Rlt_dec 0 s then 0 else s).

(** what getWaveKin writes: elevation, velocity, acceleration and pressure *)
Record wout := WOut { o_zeta : R; o_vel : v3; o_acc : v3; o_pdyn : R }.
(** WaveGrid::getWaveKin, l.124-184, with all the output pointers given *)
Definition wave_kin (g : wgrid) (pos : v3) (time : R) (sf : provider) : outcome wout :=
  let a := wg_axes g in
  x <- interp_factor (px a) 1 (vx pos) ;;
  y <- interp_factor (py a) 1 (vy pos) ;;
  t <- time_index a time ;;
  zeta <- interp3 (wg_zeta g) (fst x) (fst y) (fst t) (snd x) (snd y) (snd t) ;;
  bottom <- getDepth sf (vx pos) (vy pos) ;;
  sz <- stretched (getAverageDepth sf) bottom zeta (vz pos) ;;
  z <- interp_factor (pz a) 1 sz ;;
  vel <- interp4Vec (wg_vel g) (fst x) (fst y) (fst z) (fst t) (snd x) (snd y) (snd z) (snd t) ;;
  acc <- interp4Vec (wg_acc g) (fst x) (fst y) (fst z) (fst t) (snd x) (snd y) (snd z) (snd t) ;;
  p <- interp4 (wg_pdyn g) (fst x) (fst y) (fst z) (fst t) (snd x) (snd y) (snd z) (snd t) ;;
  Ok (WOut zeta vel acc p).
(** CurrentGrid::getCurrentKin, l.203-237: no stretching *)
Definition current_kin (g : cgrid) (pos : v3) (time : R) : outcome (v3 * v3) :=
  let a := cg_axes g in
  x <- interp_factor (px a) 1 (vx pos) ;;
  y <- interp_factor (py a) 1 (vy pos) ;;
  t <- time_index a time ;;
  z <- interp_factor (pz a) 1 (vz pos) ;;
  vel <- interp4Vec (cg_vel g) (fst x) (fst y) (fst z) (fst t) (snd x) (snd y) (snd z) (snd t) ;;
  acc <- interp4Vec (cg_acc g) (fst x) (fst y) (fst z) (fst t) (snd x) (snd y) (snd z) (snd t) ;;
  Ok (vel, acc).
