(** Rods with their kinematic state: source/Rod.cpp l.65-182, 300-340, 432-607, 609-775, Body.cpp l.149-166, 247-310,
    395-475 and Eigen's Quaternion::FromTwoVectors.
    Simplifications: doubles are exact reals; the interior nodes (which doRHS places, see MRod) are left out, so a rod
    has the nodes r[0] and r[N]; the solution of a linear system is described by the equations it solves. *)
From Coq Require Import Reals List Arith ZArith.
From Verif Require Import MErr MVec MStateOps MMat MInterp MLine MRod MBody MEnd.
Import ListNotations.
Open Scope R_scope.

(** Rod::types, Rod.hpp l.140-158 *)
Inductive rodtype := RodFree | RodPinned | RodFixed | RodCoupled | RodCpldPin.
(** the members of Rod used below: type, segments, UnstrLen, q0, q, r7, v6, acc6, (r_ves, rd_ves, rdd_ves), the end nodes
    r[0], rd[0], r[N], rd[N] and the attached lines *)
Record rodk := Rodk {
  k_type : rodtype; k_n : nat; k_len : R; k_q0 : v3; k_q : v3; k_r7 : xyzquat; k_v6 : v6; k_acc : v6;
  k_ves : v6 * v6 * v6; k_rA : v3; k_rdA : v3; k_rB : v3; k_rdB : v3; k_attA : attachments; k_attB : attachments }.
(** assignments to members *)
Definition with_motion (k : rodk) (r7 : xyzquat) (v a : v6) : rodk :=
  Rodk (k_type k) (k_n k) (k_len k) (k_q0 k) (k_q k) r7 v a (k_ves k) (k_rA k) (k_rdA k) (k_rB k) (k_rdB k) (k_attA k) (k_attB k).
Definition with_q (k : rodk) (q : v3) : rodk :=
  Rodk (k_type k) (k_n k) (k_len k) (k_q0 k) q (k_r7 k) (k_v6 k) (k_acc k) (k_ves k) (k_rA k) (k_rdA k) (k_rB k) (k_rdB k) (k_attA k) (k_attB k).
Definition with_ves (k : rodk) (s : v6 * v6 * v6) : rodk :=
  Rodk (k_type k) (k_n k) (k_len k) (k_q0 k) (k_q k) (k_r7 k) (k_v6 k) (k_acc k) s (k_rA k) (k_rdA k) (k_rB k) (k_rdB k) (k_attA k) (k_attB k).
Definition with_ends (k : rodk) (q rA rdA rB rdB : v3) : rodk :=
  Rodk (k_type k) (k_n k) (k_len k) (k_q0 k) q (k_r7 k) (k_v6 k) (k_acc k) (k_ves k) rA rdA rB rdB (k_attA k) (k_attB k).
(** r7.quat.normalized().toRotationMatrix() * q0, l.454-455, 541-542, 556 *)
Definition rod_dir (k : rodk) : v3 := mmulv (qrot (qnormalized (xq_quat (k_r7 k)))) (k_q0 k).

Section RodState.
(** what FromTwoVectors does with unit vectors that are opposite up to 1e-12: an axis from a singular value decomposition *)
Variable opposed : v3 -> v3 -> quat.
(** Eigen::Quaternion::FromTwoVectors, Eigen/src/Geometry/Quaternion.h (setFromTwoVectors) *)
Definition fromTwoVectors (a b : v3) : quat :=
  let v0 := vnormalized a in let v1 := vnormalized b in let c := dot v1 v0 in
  if Rlt_dec c (-1 + 1e-12) then opposed v0 v1
  else let axis := cross v0 v1 in let s := sqrt ((1 + c) * 2) in
       Q4 (s * 0.5) (/ s * vx axis) (/ s * vy axis) (/ s * vz axis).

(** the curvatures that the ends of the lines keep (see MEnd) *)
Variable K : nat -> Z -> R.
(** Rod::setDependentStates, l.545-607 *)
Definition rod_dependent (k : rodk) (ls : lines) : outcome (rodk * lines) :=
  let rA := xq_pos (k_r7 k) in let rdA := v6hd (k_v6 k) in
  let q := if Nat.eqb (k_n k) 0 then k_q k else rod_dir k in
  let rRel := vscale (k_len k) q in
  let rB := if Nat.eqb (k_n k) 0 then rA else vadd rA rRel in
  let rdB := if Nat.eqb (k_n k) 0 then rdA else vadd rdA (cross (v6tl (k_v6 k)) rRel) in
  res <- setDependentStates K (Rodend (k_n k) rA rdA rB rdB q (k_attA k) (k_attB k)) ls ;;
  Ok (with_ends k (fst res) rA rdA rB rdB, snd res).

(** Rod::setup, l.122-173; [j7], [j6] are what the members r7 and v6 hold before they are assigned. The nodes between
    A and B of a rod without segments are 0/0 in the code; it has its one node at A here *)
Definition rod_setup (t : rodtype) (n : nat) (A B : v3) (attA attB : attachments) (j7 : xyzquat) (j6 : v6) : rodk :=
  let ul := if Nat.eqb n 0 then (vzero, 0) else unitvector A B in
  let q0 := fst ul in
  let r7 := match t with
            | RodFree => XQ A (fromTwoVectors q0 B)
            | RodPinned | RodCpldPin => XQ vzero (fromTwoVectors q0 B)
            | _ => j7 end in
  let v := match t with RodFree => v6zero | RodPinned | RodCpldPin => V6 (v6hd j6) vzero | _ => j6 end in
  Rodk t n (snd ul) q0 q0 r7 v v6zero (j6, j6, j6) A vzero (if Nat.eqb n 0 then A else B) vzero attA attB.
(** Rod::initialize, l.300-340: the state it returns, the rod and the lines *)
Definition rod_initialize (k : rodk) (ls : lines) : outcome (xyzquat * v6 * rodk * lines) :=
  res <- (match k_type k with RodCoupled => Ok (k, ls) | _ => rod_dependent k ls end) ;;
  let p := match k_type k with RodFree => k_rA (fst res) | _ => vzero end in
  Ok (XQ p qident, v6zero, fst res, snd res).
(** Rod::setState, l.432-457 *)
Definition rod_setState (k : rodk) (p : xyzquat) (v : v6) (ls : lines) : outcome (rodk * lines) :=
  k1 <- (match k_type k with
         | RodFree => Ok (with_motion k p v (k_acc k))
         | RodCpldPin | RodPinned => Ok (with_motion k (XQ (xq_pos (k_r7 k)) (xq_quat p)) (V6 (v6hd (k_v6 k)) (v6tl v)) (k_acc k))
         | _ => Throw ExInvalidValue end) ;;
  res <- rod_dependent k1 ls ;;
  let k2 := fst res in
  let k3 := if Nat.eqb (k_n k2) 0 then with_motion k2 (XQ (xq_pos (k_r7 k2)) qident) (V6 (v6hd (k_v6 k2)) vzero) (k_acc k2) else k2 in
  Ok (with_q k3 (rod_dir k3), snd res).
(** Rod::initiateStep, l.459-481 *)
Definition rod_initiateStep (k : rodk) (r rd rdd : v6) (ls : lines) : outcome (rodk * lines) :=
  match k_type k with
  | RodCoupled => rod_dependent (with_ves k (r, rd, rdd)) ls
  | RodCpldPin =>
      let '(r0, rd0, rdd0) := k_ves k in
      Ok (with_ves k (V6 (v6hd r) (v6tl r0), V6 (v6hd rd) (v6tl rd0), V6 (v6hd rdd) (v6tl rdd0)), ls)
  | _ => Throw ExInvalidValue
  end.
(** Rod::updateFairlead, l.485-509 *)
Definition rod_updateFairlead (k : rodk) (time : R) (ls : lines) : outcome (rodk * lines) :=
  let '(r, rd, rdd) := k_ves k in
  match k_type k with
  | RodCoupled => rod_dependent (with_motion k (fromVec6 (v6add r (v6scale time rd))) rd rdd) ls
  | RodCpldPin =>
      Ok (with_motion k (XQ (vadd (v6hd r) (vscale time (v6hd rd))) (xq_quat (k_r7 k)))
            (V6 (v6hd rd) (v6tl (k_v6 k))) (V6 (v6hd rdd) (v6tl (k_acc k))), ls)
  | _ => Throw ExInvalidValue
  end.
(** Rod::setKinematics, l.511-543 *)
Definition rod_setKinematics (k : rodk) (r rd : v6) (ls : lines) : outcome (rodk * lines) :=
  res <- (match k_type k with
          | RodFixed => rod_dependent (with_motion k (XQ (v6hd r) (fromTwoVectors (k_q0 k) (v6tl r))) rd (k_acc k)) ls
          | RodPinned | RodCpldPin => Ok (with_motion k (XQ (v6hd r) (xq_quat (k_r7 k))) (V6 (v6hd rd) (v6tl (k_v6 k))) (k_acc k), ls)
          | _ => Throw ExInvalidValue end) ;;
  Ok (with_q (fst res) (rod_dir (fst res)), snd res).
End RodState.

(** the attachment of a rod to a body, Body::addRod, Body.cpp l.149-166: end A and direction in the frame of the body *)
Definition body_addRod (A B : v3) : v6 := V6 A (fst (unitvector A B)).
(** what a body at [pos] with orientation [Or] and twist [v] gives to an attached rod, Body::setDependentStates l.276-303 *)
Definition body_rod (Or : m3) (pos : v3) (v : v6) (rel : v6) : v6 * v6 :=
  let pv := transformKinematics (v6hd rel) Or pos v in
  (V6 (fst pv) (mmulv Or (v6tl rel)), V6 (snd pv) (v6tl v)).
(** ... and to an attached point, l.249-272 *)
Definition body_point (Or : m3) (pos : v3) (v : v6) (rel : v3) : v3 * v3 := transformKinematics rel Or pos v.
(** the motion of a coupled body [t] after the start of the step, Body::updateFairlead l.423-439: position, orientation matrix, twist *)
Definition body_fairlead (r rd : v6) (t : R) : v3 * m3 * v6 :=
  let r7 := fromVec6 (v6add r (v6scale t rd)) in
  (xq_pos r7, qrot (qnormalized (xq_quat r7)), rd).
(** ... and the place and velocity of a point [rel] attached to it *)
Definition point_on (r rd : v6) (rel : v3) (t : R) : v3 * v3 :=
  let '(pos, Or, v) := body_fairlead r rd t in body_point Or pos v rel.

(** the rod as doRHS sees it: coefficients of [p], state of [k] *)
Definition rod_now (p : rod) (k : rodk) : rod :=
  Rod (k_n k) (rdia p) (rrho p) (k_len k) (rCan p) (rCat p) (rCdn p) (rCdEnd p) (rCaEnd p) (k_q k) (k_rA k) (k_rdA k) (v6tl (k_v6 k)).
(** Rod::getStateDeriv, l.632-687: the accelerations [a] it returns solve these equations; [F] and [M] are what
    getNetForceAndMass gave about end A *)
Definition rod_solves (k : rodk) (F : v6) (M : m6) (a : v6) : Prop :=
  match k_type k with
  | RodFree =>
      if Nat.eqb (k_n k) 0 then mmulv (m6tl M) (v6hd a) = v6hd F /\ v6tl a = vzero
      else m6mulv M a = F
  | _ => v6hd a = vzero /\ mmulv (m6br M) (v6tl a) = vsub (v6tl F) (mmulv (m6bl M) (v6hd (k_acc k)))
  end.
(** ... and it keeps them in acc6 *)
Definition rod_keeps (k : rodk) (a : v6) : rodk := with_motion k (k_r7 k) (k_v6 k) a.
(** the rates of the state, l.650-651, 658-660, 681-684 *)
Definition rod_rate (k : rodk) : xyzquat :=
  match k_type k with
  | RodFree => XQ (v6hd (k_v6 k)) (freeRodRate (k_n k) (v6tl (k_v6 k)) (xq_quat (k_r7 k)))
  | _ => XQ vzero (quatRate (v6tl (k_v6 k)) (xq_quat (k_r7 k)))
  end.
(** Rod::getFnet, l.692-715: what the rod hands to the vessel *)
Definition rod_getFnet (k : rodk) (F : v6) (M : m6) : v6 :=
  match k_type k with
  | RodCoupled => v6sub F (m6mulv M (k_acc k))
  | RodCpldPin => V6 (vsub (vsub (v6hd F) (mmulv (m6tl M) (v6hd (k_acc k)))) (mmulv (m6tr M) (v6tl (k_acc k)))) vzero
  | _ => F
  end.
(** Rod::getNetForceAndMass, l.742-775 (for every type the same): what the rod hands to its body *)
Definition rod_handed (p : rod) (k : rodk) (F : v6) (M : m6) (m : nat -> m3) (rRef w : v3) : v6 * m6 :=
  rod_share (rod_now p k) F M m rRef w.
