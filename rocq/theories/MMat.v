(** Mass matrices, rotations and rigid kinematics: source/Misc.cpp l.200-359 and
    source/Misc.hpp l.161-270, 399-476, 780-950.
    Simplification: doubles are exact reals; in-place output arguments are returned. *)
From Coq Require Import Reals List.
From Verif Require Import MErr MVec MStateOps.
Import ListNotations.
Open Scope R_scope.

(** getH, Misc.hpp l.817-838 *)
Definition getH (r : v3) : m3 :=
  M3 (V3 0 (vz r) (- vy r)) (V3 (- vz r) 0 (vx r)) (V3 (vy r) (- vx r) 0).

(** translateMass, Misc.cpp l.211-230 *)
Definition translateMass (r : v3) (M : m3) : m6 :=
  let H := getH r in
  let tempM1 := mmul M H in
  M6 M tempM1 (mtr tempM1) (mmul (mmul H M) (mtr H)).

(** translateMass6, Misc.cpp l.232-257: reads the top left, top right and bottom right
    quadrants, never the bottom left one *)
Definition translateMass6 (r : v3) (M : m6) : m6 :=
  let H := getH r in
  let m := m6tl M in let J := m6tr M in let I := m6br M in
  let tempM1 := madd (mmul m H) J in
  let tempM2 := mmul (mmul H m) (mtr H) in
  let tempM3 := mmul (mtr J) H in
  let tempM4 := mmul (mtr H) J in
  M6 m tempM1 (mtr tempM1) (madd (madd (madd tempM2 tempM3) tempM4) I).

(** rotateMass, Misc.hpp l.857-868 *)
Definition rotateMass (R M : m3) : m3 := mmul (mmul R M) (mtr R).

(** rotateMass6, Misc.cpp l.259-286: reads the bottom left quadrant, never the top right one *)
Definition rotateMass6 (R : m3) (M : m6) : m6 :=
  let Jrot := rotateMass R (m6bl M) in
  M6 (rotateMass R (m6tl M)) (mtr Jrot) Jrot (rotateMass R (m6br M)).

(** transformKinematics, Misc.cpp l.288-312: position and velocity of a point of a body *)
Definition transformKinematics (rRelBody : v3) (M : m3) (r : v3) (rd : v6) : v3 * v3 :=
  let rRel := mmulv M rRelBody in
  (vadd rRel r, vadd (v6hd rd) (cross (v6tl rd) rRel)).

(** RotX, RotY, RotZ, Misc.hpp l.895-936 *)
Definition RotX (a : R) : m3 := M3 (V3 1 0 0) (V3 0 (cos a) (- sin a)) (V3 0 (sin a) (cos a)).
Definition RotY (a : R) : m3 := M3 (V3 (cos a) 0 (sin a)) (V3 0 1 0) (V3 (- sin a) 0 (cos a)).
Definition RotZ (a : R) : m3 := M3 (V3 (cos a) (- sin a) 0) (V3 (sin a) (cos a) 0) (V3 0 0 1).
(** RotXYZ, the instance MAKE_EULER_ROT(X, Y, Z), Misc.hpp l.938-957 *)
Definition RotXYZ (a : v3) : m3 := mmul (mmul (RotX (vx a)) (RotY (vy a))) (RotZ (vz a)).

(** Eigen's entry access for a 3x3 matrix and a 3 vector *)
Definition v3get (v : v3) (i : nat) : R := match i with 0%nat => vx v | 1%nat => vy v | _ => vz v end.
Definition mget (m : m3) (i j : nat) : R :=
  v3get (match i with 0%nat => mr0 m | 1%nat => mr1 m | _ => mr2 m end) j.
(** ... and for a 6x6 one *)
Definition m6get (m : m6) (i j : nat) : R :=
  match Nat.ltb i 3, Nat.ltb j 3 with
  | true, true => mget (m6tl m) i j
  | true, false => mget (m6tr m) i (j - 3)
  | false, true => mget (m6bl m) (i - 3) j
  | false, false => mget (m6br m) (i - 3) (j - 3)
  end.

(** mat62array, Misc.hpp l.417-443: assigns rows 0, 1 and 2 of the caller's array [a] *)
Definition mat62array (v : m6) (a : nat -> nat -> R) : nat -> nat -> R :=
  fun i j => if Nat.ltb i 3 then m6get v i j else a i j.
(** array2mat6, Misc.hpp l.445-471: assigns rows 0, 1 and 2 of the matrix [v] *)
Definition array2mat6 (a : nat -> nat -> R) (v : m6) : m6 :=
  M6 (M3 (V3 (a 0 0) (a 0 1) (a 0 2)) (V3 (a 1 0) (a 1 1) (a 1 2)) (V3 (a 2 0) (a 2 1) (a 2 2)))%nat
     (M3 (V3 (a 0 3) (a 0 4) (a 0 5)) (V3 (a 1 3) (a 1 4) (a 1 5)) (V3 (a 2 3) (a 2 4) (a 2 5)))%nat
     (m6bl v) (m6br v).
(** MoorDyn_GetBodyM and MoorDyn_GetRodM, Body.cpp l.873-880 and Rod.cpp l.1614-1621, for a
    non-null handle: the array the caller passed, after the call *)
Definition getM_api (mass : m6) (m : nat -> nat -> R) : nat -> nat -> R := mat62array mass m.

(** C's atan2 on the reals.  Simplification: no signed zeros, so a zero [y] counts as +0. *)
Definition atan2 (y x : R) : R :=
  if Rlt_dec 0 x then atan (y / x)
  else if Rlt_dec x 0 then (if Rle_dec 0 y then atan (y / x) + PI else atan (y / x) - PI)
  else if Rlt_dec 0 y then PI / 2
  else if Rlt_dec y 0 then - (PI / 2) else 0.
(** Eigen::numext::hypot *)
Definition hypot (x y : R) : R := sqrt (x * x + y * y).

(** Eigen Quaternion::normalized: unchanged when the squared norm is not positive *)
Definition qnormalized (q : quat) : quat :=
  let n := qw q * qw q + qx q * qx q + qy q * qy q + qz q * qz q in
  if Rlt_dec 0 n then qscale (/ sqrt n) q else q.
(** Eigen Quaternion::toRotationMatrix *)
Definition qrot (q : quat) : m3 :=
  let w := qw q in let x := qx q in let y := qy q in let z := qz q in
  M3 (V3 (1 - (2 * y * y + 2 * z * z)) (2 * x * y - 2 * w * z) (2 * x * z + 2 * w * y))
     (V3 (2 * x * y + 2 * w * z) (1 - (2 * x * x + 2 * z * z)) (2 * y * z - 2 * w * x))
     (V3 (2 * x * z - 2 * w * y) (2 * y * z + 2 * w * x) (1 - (2 * x * x + 2 * y * y))).

(** canonicalEulerAngles, Misc.hpp l.171-253, for any axis numbers *)
Definition canonicalEulerAngles (quat : quat) (a0 a1 a2 : nat) : v3 :=
  let coeff := mget (qrot (qnormalized quat)) in
  let odd := negb (Nat.eqb (Nat.modulo (a0 + 1) 3) a1) in
  let i := a0 in
  let j := Nat.modulo (a0 + 1 + (if odd then 1 else 0)) 3 in
  let k := Nat.modulo (a0 + 2 - (if odd then 1 else 0)) 3 in
  let res :=
    if Nat.eqb a0 a2 then
      let s2 := hypot (coeff j i) (coeff k i) in
      let res0 := if odd then atan2 (coeff j i) (coeff k i) else atan2 (- coeff j i) (- coeff k i) in
      let res1 := if odd then atan2 s2 (coeff i i) else - atan2 s2 (coeff i i) in
      let s1 := sin res0 in let c1 := cos res0 in
      V3 res0 res1 (atan2 (c1 * coeff j k - s1 * coeff k k) (c1 * coeff j j - s1 * coeff k j))
    else
      let res0 := atan2 (coeff j k) (coeff k k) in
      let c2 := hypot (coeff i i) (coeff i j) in
      let res1 := atan2 (- coeff i k) c2 in
      let s1 := sin res0 in let c1 := cos res0 in
      V3 res0 res1 (atan2 (s1 * coeff k i - c1 * coeff j i) (c1 * coeff j j - s1 * coeff k j)) in
  if negb odd then vscale (-1) res else res.
(** Quat2Euler, Misc.hpp l.255-260 *)
Definition quat2euler (q : quat) : v3 := canonicalEulerAngles q 0 1 2.
(** XYZQuat::toVec6, Misc.hpp l.298-304 *)
Definition toVec6 (p : xyzquat) : v6 := V6 (xq_pos p) (quat2euler (xq_quat p)).

(** rate of change of the orientation of a free or pinned body with angular velocity [w],
    Body::getStateDeriv, Body.cpp l.489-510 (the same expression in Rod::getStateDeriv,
    Rod.cpp l.604-687) *)
Definition quatRate (w : v3) (q : quat) : quat := qscale 0.5 (qmul (Q4 0 (vx w) (vy w) (vz w)) q).

(** the same for a free rod with [n] segments, Rod.cpp l.636-662: "special zero-length Rod case,
    where orientation rate of change is null", written quaternion::Identity() *)
Definition freeRodRate (n : nat) (w : v3) (q : quat) : quat :=
  if Nat.eqb n 0 then qident else quatRate w q.

(** orientationAngles, Misc.cpp l.314-329: inclination and heading *)
Definition orientationAngles (v : v3) : outcome (R * R) :=
  if Rlt_dec (dot v v) 1e-12 then Throw ExNan
  else
    let l := hypot (vx v) (vy v) in
    let phi := atan2 l (vz v) in
    let beta := if Rlt_dec (Rabs l) 1e-6 then 0 else atan2 (vy v) (vx v) in
    Ok (phi, beta).

(** machine epsilon, std::numeric_limits<double>::epsilon() *)
Definition eps64 : R := / 2 ^ 52.
(** GetCurvature, Misc.cpp l.331-359 *)
Definition getCurvature (length : R) (q1 q2 : v3) : R :=
  if Rlt_dec 1 (dot q1 q2 + eps64) then 0
  else 4 / length * sqrt (0.5 * (1 - dot q1 q2)).

(** EqualRealNos, Misc.hpp l.161-169 *)
Definition equalRealNos (a1 a2 : R) : bool :=
  if Rle_dec (Rabs (a1 - a2)) (Rmax (Rabs (a1 + a2)) 1 * (100 * eps64 / 2)) then true else false.
(** unitvector, Misc.hpp l.786-794: direction and distance *)
Definition unitvector (r1 r2 : v3) : v3 * R :=
  let u := vsub r2 r1 in let l := norm u in
  (if equalRealNos l 0 then u else vscale (/ l) u, l).
(** scalevector, Misc.hpp l.804-815 *)
Definition scalevector (u : v3) (newlength : R) : v3 :=
  let l2 := dot u u in
  if equalRealNos l2 0 then u else vscale (newlength / sqrt l2) u.
