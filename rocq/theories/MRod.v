(** The forces and the mass matrix of a rod: source/Rod.cpp l.65-182, 544-602, 604-740, 742-775,
    866-1358 and Rod.hpp l.620-630.
    Simplifications: doubles are exact reals; [pi] (Misc.hpp l.988-995) is PI; arrays of N or N+1
    entries are functions of the index; all segments have the length of Rod::setup; the functions of
    the attached lines are given by what Line::getEndStuff returned for them. *)
From Coq Require Import Reals List Arith ZArith.
From Verif Require Import MErr MVec MStateOps MMat MInterp MLine.
Import ListNotations.
Open Scope R_scope.

(** the members of Rod read by doRHS (Rod.hpp l.110-330): segments, diameter, density, length,
    coefficients, and the state: unit direction [rq], end A, its velocity, angular velocity *)
Record rod := Rod {
  rn : nat; rdia : R; rrho : R; rlen : R;
  rCan : R; rCat : R; rCdn : R; rCdEnd : R; rCaEnd : R;
  rq : v3; rA : v3; rvA : v3; rw : v3 }.
(** what Line::getEndStuff gives for an attached line: force, moment and mass *)
Record endstuff := EndStuff { esF : v3; esM : v3; esMass : m3 }.

(** segment length and volume, Rod::setup l.104-133 (a rod without segments has l[0] = V[0] = 0) *)
Definition rl (D : rod) : R := if Nat.eqb (rn D) 0 then 0 else rlen D / INR (rn D).
Definition rV (D : rod) : R := rl D * 0.25 * PI * rdia D * rdia D.
(** Area, l.935 *)
Definition rArea (D : rod) : R := 0.25 * PI * rdia D * rdia D.

(** end B, setDependentStates l.555-562, and the interior nodes, doRHS l.889-894 *)
Definition rB (D : rod) : v3 := if Nat.eqb (rn D) 0 then rA D else vadd (rA D) (vscale (rlen D) (rq D)).
Definition rvB (D : rod) : v3 := if Nat.eqb (rn D) 0 then rvA D else vadd (rvA D) (cross (rw D) (vscale (rlen D) (rq D))).
Definition rnode (D : rod) (i : nat) : v3 :=
  if Nat.eqb i 0 then rA D else if Nat.eqb i (rn D) then rB D
  else vadd (rA D) (vscale (INR i / INR (rn D)) (vsub (rB D) (rA D))).
Definition rvel (D : rod) (i : nat) : v3 :=
  if Nat.eqb i 0 then rvA D else if Nat.eqb i (rn D) then rvB D
  else vadd (rvA D) (vscale (INR i / INR (rn D)) (vsub (rvB D) (rvA D))).

(** inclination and heading, l.873 *)
Definition rangles (D : rod) : outcome (R * R) := if Nat.eqb (rn D) 0 then Ok (0, 0) else orientationAngles (rq D).

(** length, mass and volume of a node, l.937-949 *)
Definition rdL (D : rod) (i : nat) : R :=
  if Nat.eqb i 0 then 0.5 * rl D else if Nat.eqb i (rn D) then 0.5 * rl D else 0.5 * (rl D + rl D).
Definition rmi (D : rod) (i : nat) : R := rArea D * rdL D i * rrho D.
Definition rvi (D : rod) (i : nat) : R :=
  if Nat.eqb i 0 then 0.5 * rV D else if Nat.eqb i (rn D) then 0.5 * rV D else 0.5 * (rV D + rV D).
(** Lsum when node [i] is reached, l.927, 984 *)
Fixpoint rLsum (D : rod) (i : nat) : R := match i with O => 0 | S j => rLsum D j + rdL D j end.

(** h0, l.916-925; [zeta] is the elevation at the last node *)
Definition rh0 (D : rod) (zeta : R) : R :=
  let z0 := vz (rA D) in let zN := vz (rB D) in
  if Rlt_dec z0 zeta then
    if Rlt_dec zN zeta then rlen D
    else if Rlt_dec zeta zN then (zeta - z0) / vz (rq D) else 0
  else if Rlt_dec zN zeta then (if Rlt_dec zeta z0 then - (zeta - z0) / vz (rq D) else 0) else 0.
(** VOF0, l.953-968 *)
Definition vof0 (h0 Lsum dL : R) : R :=
  if Rlt_dec h0 0 then
    if Rle_dec h0 (Lsum + dL) then 1 else if Rlt_dec h0 Lsum then (h0 - Lsum) / dL else 0
  else
    if Rle_dec (Lsum + dL) h0 then 1 else if Rlt_dec Lsum h0 then (h0 - Lsum) / dL else 0.
(** lowest and highest elevation of the cross section at a node, l.986-992 *)
Definition rz1hi (D : rod) (ph : R) (i : nat) : R := vz (rnode D i) + 0.5 * rdia D * Rabs (sin ph).
Definition rz1lo (D : rod) (ph : R) (i : nat) : R := vz (rnode D i) - 0.5 * rdia D * Rabs (sin ph).
(** submerged area of the cross section and elevation of its centroid, l.994-1029.  When the cross
    section touches the surface from above (al = 0) the centroid is 0/0; it is never read then *)
Definition rsection (D : rod) (zeta ph : R) (i : nat) : R * R :=
  if Rlt_dec zeta (rz1lo D ph i) then (0, 0)
  else if Rlt_dec (rz1hi D ph i) zeta then (PI * 0.25 * rdia D * rdia D, vz (rnode D i))
  else if Rlt_dec (Rabs (sin ph)) 0.001 then (0.5, 0)
  else
    let G := (vz (rnode D i) - zeta) / Rabs (sin ph) in
    let al := acos (2 * G / rdia D) in
    (rdia D * rdia D / 8 * (2 * al - sin (2 * al)),
     vz (rnode D i) - 0.6666666666 * rdia D * (sin al * sin al * sin al) / (2 * al - sin (2 * al))).
(** VOF, l.1030-1031 *)
Definition rVOF (D : rod) (zeta ph : R) (i : nat) : R :=
  vof0 (rh0 D zeta) (rLsum D i) (rdL D i) * cos ph * cos ph
  + fst (rsection D zeta ph i) / (0.25 * PI * rdia D * rdia D) * sin ph * sin ph.

(** whether the end effects of an end node apply, l.1130, 1161 *)
Definition rwetEnd (D : rod) (zeta ph : R) (i : nat) : bool := if Rlt_dec (rz1lo D ph i) zeta then true else false.
(** how many times they apply: both ends of a rod without segments are its only node *)
Definition rends (D : rod) (i : nat) : nat := (if Nat.eqb i 0 then 1 else 0) + (if Nat.eqb i (rn D) then 1 else 0).
(** V_temp, l.1146 *)
Definition rVend (D : rod) : R := 2 / 3 * PI * rdia D * rdia D * rdia D / 8.

(** node mass matrix, l.1033-1036, 1153-1154, 1184-1185 *)
Definition rM (D : rod) (e : envc) (zeta ph : R) (i : nat) : m3 :=
  let Q := outer (rq D) in let F := rVOF D zeta ph i in
  madd (madd (mscale (rmi D i) mid) (mscale (F * rho_w e * rvi D i) (madd (mscale (rCan D) (msub mid Q)) (mscale (rCat D) Q))))
       (if rwetEnd D zeta ph i then mscale (INR (rends D i) * (F * rho_w e * rCaEnd D * rVend D)) Q else mzero).

(** forces on the nodes: weight l.1069-1070, 1117 *)
Definition rW (D : rod) (e : envc) (i : nat) : v3 := if Nat.eqb (rn D) 0 then vzero else V3 0 0 (- rmi D i * gr e).
(** radial buoyancy, l.1079-1083 *)
Definition rBoSide (D : rod) (e : envc) (zeta ph be : R) (i : nat) : v3 :=
  if Nat.eqb (rn D) 0 then vzero else
  let F := - rVOF D zeta ph i * rvi D i * rho_w e * gr e * sin ph in
  V3 (F * cos be * cos ph) (F * sin be * cos ph) (- F * sin ph).
(** buoyancy on an end, l.1132-1136 ([s] = -1) and l.1163-1167 ([s] = 1) *)
Definition rBoEnd (D : rod) (e : envc) (zeta ph be s : R) (i : nat) : v3 :=
  if rwetEnd D zeta ph i then
    let F := s * rVOF D zeta ph i * rArea D * rho_w e * gr e * snd (rsection D zeta ph i) in
    V3 (F * cos be * sin ph) (F * sin be * sin ph) (F * cos ph)
  else vzero.
(** all the buoyancy of a node *)
Definition rBo (D : rod) (e : envc) (zeta ph be : R) (i : nat) : v3 :=
  vadd (vadd (rBoSide D e zeta ph be i) (if Nat.eqb i 0 then rBoEnd D e zeta ph be (-1) i else vzero))
       (if Nat.eqb i (rn D) then rBoEnd D e zeta ph be 1 i else vzero).
(** moment of the buoyancy on an end, l.1138-1141 and l.1169-1172 *)
Definition rMEnd (D : rod) (e : envc) (zeta ph be s : R) (i : nat) : v3 :=
  if rwetEnd D zeta ph i then
    let M := s * rVOF D zeta ph i * 1 / 64 * PI * rdia D * rdia D * rdia D * rdia D * rho_w e * gr e * sin ph in
    V3 (M * sin be) (- M * cos be) 0
  else vzero.
(** transverse drag, l.1041-1050, 1086 *)
Definition rDp (D : rod) (e : envc) (k : wkin) (ph : R) (i : nat) : v3 :=
  let vi := vsub (wU k i) (rvel D i) in let vp := across (rq D) vi in
  if Nat.eqb (rn D) 0 then vzero
  else vscale (rVOF D (wzeta k (rn D)) ph i * 0.5 * rho_w e * rCdn D * rdia D * rdL D i * norm vp) vp.
(** axial drag on the ends, l.1144, 1175 *)
Definition rDq (D : rod) (e : envc) (k : wkin) (ph : R) (i : nat) : v3 :=
  let zeta := wzeta k (rn D) in
  let vi := vsub (wU k i) (rvel D i) in let vq := along (rq D) vi in
  if rwetEnd D zeta ph i
  then vscale (INR (rends D i) * (0.5 * rVOF D zeta ph i * rArea D * rho_w e * rCdEnd D * norm vq)) vq else vzero.
(** fluid inertia, l.1052-1055, 1092, 1147-1148, 1178-1179 *)
Definition rAp (D : rod) (e : envc) (k : wkin) (ph : R) (i : nat) : v3 :=
  if Nat.eqb (rn D) 0 then vzero
  else vscale (rVOF D (wzeta k (rn D)) ph i * rho_w e * (1 + rCan D) * rvi D i) (across (rq D) (wUd k i)).
Definition rAq (D : rod) (e : envc) (k : wkin) (ph : R) (i : nat) : v3 :=
  let zeta := wzeta k (rn D) in
  if rwetEnd D zeta ph i
  then vscale (INR (rends D i) * (rVOF D zeta ph i * rho_w e * rCaEnd D * rVend D)) (along (rq D) (wUd k i)) else vzero.
(** dynamic pressure on the ends, l.1150-1151, 1181-1182 *)
Definition rPd (D : rod) (e : envc) (k : wkin) (ph : R) (i : nat) : v3 :=
  let zeta := wzeta k (rn D) in
  let p := vscale (rVOF D zeta ph i * rArea D * wpdyn k i) (rq D) in
  if rwetEnd D zeta ph i
  then vadd (if Nat.eqb i 0 then p else vzero) (if Nat.eqb i (rn D) then vscale (-1) p else vzero) else vzero.
(** sea bed, l.1102-1115 *)
Definition rBot (D : rod) (e : envc) (k : wkin) (i : nat) : v3 :=
  let r := rnode D i in let wd := wdepth k (vx r) (vy r) in
  if Nat.eqb (rn D) 0 then vzero
  else if Rlt_dec (vz r) wd then V3 0 0 (((wd - vz r) * kb e - vz (rvel D i) * cb e) * rdia D * rdL D i) else vzero.

(** total force on a node, l.1189 *)
Definition rF (D : rod) (e : envc) (k : wkin) (ph be : R) (i : nat) : v3 :=
  vadd (vadd (vadd (vadd (vadd (vadd (vadd (rW D e i) (rBo D e (wzeta k (rn D)) ph be i)) (rDp D e k ph i)) (rDq D e k ph i))
    (rAp D e k ph i)) (rAq D e k ph i)) (rPd D e k ph i)) (rBot D e k i).
(** attached lines, l.1206-1262: their forces and masses go to the node of their end *)
Definition es_force (l : list endstuff) : v3 := fold_left (fun a s => vadd a (esF s)) l vzero.
Definition es_moment (l : list endstuff) : v3 := fold_left (fun a s => vadd a (esM s)) l vzero.
Definition es_mass (l : list endstuff) : m3 := fold_left (fun a s => madd a (esMass s)) l mzero.
Definition rFnet (D : rod) (e : envc) (k : wkin) (ph be : R) (att btt : list endstuff) (i : nat) : v3 :=
  vadd (vadd (rF D e k ph be i) (if Nat.eqb i 0 then es_force att else vzero)) (if Nat.eqb i (rn D) then es_force btt else vzero).
Definition rMnet (D : rod) (e : envc) (k : wkin) (ph : R) (att btt : list endstuff) (i : nat) : m3 :=
  madd (madd (rM D e (wzeta k (rn D)) ph i) (if Nat.eqb i 0 then es_mass att else mzero)) (if Nat.eqb i (rn D) then es_mass btt else mzero).
(** Mext, l.927, 1141, 1172, 1192-1199, 1224, 1252: end buoyancy, waterplane and line moments *)
Definition rMext (D : rod) (e : envc) (k : wkin) (ph be : R) (att btt : list endstuff) : v3 :=
  let zeta := wzeta k (rn D) in
  let ends := vadd (rMEnd D e zeta ph be (-1) 0) (rMEnd D e zeta ph be 1 (rn D)) in
  let plane :=
    if Rlt_dec (vz (rA D)) zeta then
      if Rlt_dec zeta (vz (rB D)) then
        vscale (1 / 16 * PI * rdia D * rdia D * rdia D * rdia D * rho_w e * gr e * sin ph * cos ph) (V3 (sin be) (- cos be) 0)
      else vzero
    else vzero in
  vadd (vadd (vadd ends plane) (es_moment att)) (es_moment btt).

(** sums over the nodes about end A, l.1268-1292 *)
Fixpoint rF6 (D : rod) (F : nat -> v3) (n : nat) : v6 :=
  match n with
  | O => v6zero
  | S i => v6add (rF6 D F i) (V6 (F i) (cross (vsub (rnode D i) (rA D)) (F i)))
  end.
Fixpoint rM6 (D : rod) (M : nat -> m3) (n : nat) : m6 :=
  match n with
  | O => M6 mzero mzero mzero mzero
  | S i => m6add (rM6 D M i) (translateMass (vsub (rnode D i) (rA D)) (M i))
  end.
(** total mass, l.1300 *)
Definition rmass (D : rod) : R := rlen D * 0.25 * PI * rdia D * rdia D * rrho D.
(** 6 * N * N in unsigned int arithmetic, l.1332 (N is unsigned int, Rod.hpp) *)
Definition six_n_n (n : nat) : Z := Z.modulo (6 * Z.of_nat n * Z.of_nat n) (2 ^ 32).
(** I_r_correction, l.1331-1332; a division by zero gives an infinite value: [None] *)
Definition rIr (D : rod) : option R :=
  let r := rdia D / 2 in
  obnd (fdiv (rlen D * rlen D) (IZR (six_n_n (rn D)))) (fun c => Some (rmass D * (r * r / 4 - c))).
(** Imat, l.1319-1343 *)
Definition rImat (D : rod) (ph be : R) : option m3 :=
  obnd (if Nat.eqb (rn D) 0 then Some mzero
        else obnd (rIr D) (fun Ir =>
          let r := rdia D / 2 in
          Some (M3 (V3 Ir 0 0) (V3 0 Ir 0) (V3 0 0 (rmass D / 2 * r * r))))) (fun Il =>
  Some (rotateMass (mmul (RotZ be) (RotY ph)) Il)).
(** M6net and F6net, l.1264-1357 *)
Definition rM6net (D : rod) (e : envc) (k : wkin) (ph be : R) (att btt : list endstuff) : option m6 :=
  obnd (rImat D ph be) (fun I =>
  let M := rM6 D (rMnet D e k ph att btt) (rn D + 1) in
  Some (M6 (m6tl M) (m6tr M) (m6bl M) (madd (m6br M) I))).
Definition rF6net (D : rod) (e : envc) (k : wkin) (ph be : R) (att btt : list endstuff) : v6 :=
  let F := rF6 D (rFnet D e k ph be att btt) (rn D + 1) in
  V6 (v6hd F) (vadd (v6tl F) (rMext D e k ph be att btt)).

(** channel "Sub" of a rod, GetRodOutput l.398-402: mean of VOF over the nodes *)
Fixpoint rVOFsum (D : rod) (zeta ph : R) (n : nat) : R := match n with O => 0 | S i => rVOFsum D zeta ph i + rVOF D zeta ph i end.
Definition rod_sub (D : rod) (zeta ph : R) : R := rVOFsum D zeta ph (rn D + 1) / INR (rn D + 1).
