(** Small vectors and matrices over the reals: the Eigen types used by MoorDyn
    (source/Misc.hpp l.106-130: vec, vec6, mat, mat6, quaternion).
    Simplification: doubles are exact reals in this file and its users. *)
From Coq Require Import Reals List.
Import ListNotations.
Open Scope R_scope.

(** [vec] = Eigen::Vector3d, Misc.hpp l.108-116 *)
Record v3 := V3 { vx : R; vy : R; vz : R }.
(** Eigen's componentwise operators and products on Vector3d *)
Definition vzero := V3 0 0 0.
Definition vadd a b := V3 (vx a + vx b) (vy a + vy b) (vz a + vz b).
Definition vsub a b := V3 (vx a - vx b) (vy a - vy b) (vz a - vz b).
Definition vscale k a := V3 (k * vx a) (k * vy a) (k * vz a).
Definition dot a b := vx a * vx b + vy a * vy b + vz a * vz b.
Definition cross a b := V3 (vy a * vz b - vz a * vy b) (vz a * vx b - vx a * vz b) (vx a * vy b - vy a * vx b).
Definition norm a := sqrt (dot a a).

(** [vec6] = Eigen::Vector6d, Misc.hpp l.113-114: the first and last three entries *)
Record v6 := V6 { v6hd : v3; v6tl : v3 }.
Definition v6zero := V6 vzero vzero.
Definition v6add a b := V6 (vadd (v6hd a) (v6hd b)) (vadd (v6tl a) (v6tl b)).
Definition v6sub a b := V6 (vsub (v6hd a) (v6hd b)) (vsub (v6tl a) (v6tl b)).
Definition v6scale k a := V6 (vscale k (v6hd a)) (vscale k (v6tl a)).

(** [quaternion] = Eigen::Quaternion, Misc.hpp l.127-128 *)
Record quat := Q4 { qw : R; qx : R; qy : R; qz : R }.
Definition qident := Q4 1 0 0 0.
(** operations on [quat.coeffs()], used by Misc.cpp l.173-198 *)
Definition qadd a b := Q4 (qw a + qw b) (qx a + qx b) (qy a + qy b) (qz a + qz b).
Definition qsub a b := Q4 (qw a - qw b) (qx a - qx b) (qy a - qy b) (qz a - qz b).
Definition qscale k a := Q4 (k * qw a) (k * qx a) (k * qy a) (k * qz a).

(** [XYZQuat], Misc.hpp l.277-316 *)
Record xyzquat := XQ { xq_pos : v3; xq_quat : quat }.
(** XYZQuat::Zero, Misc.hpp l.290-293: the identity rotation, not a zero vector *)
Definition xqZero := XQ vzero qident.
(** XYZQuat operators, Misc.cpp l.173-198 *)
Definition xqadd a b := XQ (vadd (xq_pos a) (xq_pos b)) (qadd (xq_quat a) (xq_quat b)).
Definition xqsub a b := XQ (vsub (xq_pos a) (xq_pos b)) (qsub (xq_quat a) (xq_quat b)).
Definition xqscale k a := XQ (vscale k (xq_pos a)) (qscale k (xq_quat a)).

(** [mat] = Eigen::Matrix3d, Misc.hpp l.119-126, by rows *)
Record m3 := M3 { mr0 : v3; mr1 : v3; mr2 : v3 }.
Definition mmulv m v := V3 (dot (mr0 m) v) (dot (mr1 m) v) (dot (mr2 m) v).
Definition mtr m := M3 (V3 (vx (mr0 m)) (vx (mr1 m)) (vx (mr2 m)))
                       (V3 (vy (mr0 m)) (vy (mr1 m)) (vy (mr2 m)))
                       (V3 (vz (mr0 m)) (vz (mr1 m)) (vz (mr2 m))).
Definition mmul a b := M3 (mmulv (mtr b) (mr0 a)) (mmulv (mtr b) (mr1 a)) (mmulv (mtr b) (mr2 a)).
Definition madd a b := M3 (vadd (mr0 a) (mr0 b)) (vadd (mr1 a) (mr1 b)) (vadd (mr2 a) (mr2 b)).
Definition mscale k a := M3 (vscale k (mr0 a)) (vscale k (mr1 a)) (vscale k (mr2 a)).
Definition mid := M3 (V3 1 0 0) (V3 0 1 0) (V3 0 0 1).
Definition mzero := M3 vzero vzero vzero.

(** [mat6] = Eigen::Matrix6d, Misc.hpp l.123-124, as four 3x3 blocks *)
Record m6 := M6 { m6tl : m3; m6tr : m3; m6bl : m3; m6br : m3 }.
Definition m6mulv m v := V6 (vadd (mmulv (m6tl m) (v6hd v)) (mmulv (m6tr m) (v6tl v)))
                            (vadd (mmulv (m6bl m) (v6hd v)) (mmulv (m6br m) (v6tl v))).
Definition v6dot a b := dot (v6hd a) (v6hd b) + dot (v6tl a) (v6tl b).
Definition m6add a b := M6 (madd (m6tl a) (m6tl b)) (madd (m6tr a) (m6tr b)) (madd (m6bl a) (m6bl b)) (madd (m6br a) (m6br b)).
Definition m6tran m := M6 (mtr (m6tl m)) (mtr (m6bl m)) (mtr (m6tr m)) (mtr (m6br m)).
