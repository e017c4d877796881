(** Courant factors: source/Util/CFL.hpp and their use in source/MoorDyn2.cpp
    l.502-527, source/MoorDyn2.hpp l.328-361. Exact reals; the largest double is
    kept as a number. *)
From Coq Require Import Reals List.
Import ListNotations.
Open Scope R_scope.

(** std::numeric_limits<real>::max() *)
Definition dbl_max : R := 2 ^ 1024 - 2 ^ 971.

(** The class hierarchy: CFL (l.52-105), NatFreqCFL (l.110-184), SuperCFL
    (l.192-259) with its _children. [l] is the characteristic length. *)
Inductive cfl_obj :=
| Plain (l : R)
| NatFreq (l k m : R)
| Super (l : R) (children : list cfl_obj).

(** NatFreqCFL::frequency, period, l.171-176 *)
Definition frequency (k m : R) : R := sqrt (k / m).
Definition period (k m : R) : R := 2 * PI / frequency k m.

Section Folds.
Variable f : cfl_obj -> R.
Definition min_over (z : R) (l : list cfl_obj) : R := fold_left (fun a o => Rmin a (f o)) l z.
Definition max_over (z : R) (l : list cfl_obj) : R := fold_left (fun a o => Rmax a (f o)) l z.
End Folds.

(** cfl2dt(cfl), l.70, l.127, l.207-212 *)
Fixpoint cfl2dt (c : R) (o : cfl_obj) : R :=
  match o with
  | Plain _ => dbl_max
  | NatFreq _ k m => c * period k m
  | Super _ ch => fold_left (fun a o' => Rmin a (cfl2dt c o')) ch dbl_max
  end.
(** dt2cfl(dt), l.76, l.133, l.218-223 *)
Fixpoint dt2cfl (dt : R) (o : cfl_obj) : R :=
  match o with
  | Plain _ => 0
  | NatFreq _ k m => dt / period k m
  | Super _ ch => fold_left (fun a o' => Rmax a (dt2cfl dt o')) ch 0
  end.
Definition length_of (o : cfl_obj) : R := match o with Plain l | NatFreq l _ _ | Super l _ => l end.
(** cfl2dt(cfl, v), l.83, l.141, l.230-235 *)
Fixpoint cfl2dt_v (c v : R) (o : cfl_obj) : R :=
  match o with
  | Super l ch => fold_left (fun a o' => Rmin a (cfl2dt_v c v o')) ch (c * l / v)
  | _ => c * length_of o / v
  end.
(** dt2cfl(dt, v), l.90, l.148, l.242-247 *)
Fixpoint dt2cfl_v (dt v : R) (o : cfl_obj) : R :=
  match o with
  | Super l ch => fold_left (fun a o' => Rmax a (dt2cfl_v dt v o')) ch (dt * v / l)
  | _ => dt * v / length_of o
  end.

(** Line::setup, Line.cpp l.163-167: N segments, unstretched length L, mass per
    length w, stiffness EA *)
Definition line_cfl (EA w L : R) (N : nat) : cfl_obj :=
  NatFreq (L / INR N) (EA * INR N / L) (w * L / INR N).

(** MoorDyn::Init, MoorDyn2.cpp l.502-523: the time step and factor used, from
    the values of the input file (the defaults, l.89-90, are dbl_max and 0.5).
    [objs] are LineList, PointList, RodList, BodyList in this order. *)
Definition init_dt (dtM0 cfl : R) (objs : list cfl_obj) : R * R :=
  let cfl := if Rlt_dec dtM0 (9 / 10 * dbl_max) then dbl_max else cfl in
  let dt := min_over (cfl2dt cfl) dtM0 objs in
  (dt, max_over (dt2cfl dt) 0 objs).
(** MoorDyn::SetDt, MoorDyn2.hpp l.328-339 *)
Definition set_dt (dt : R) (objs : list cfl_obj) : R * R := (dt, max_over (dt2cfl dt) 0 objs).
(** MoorDyn::SetCFL, MoorDyn2.hpp l.350-361 *)
Definition set_cfl (cfl : R) (objs : list cfl_obj) : R * R := (min_over (cfl2dt cfl) dbl_max objs, cfl).
