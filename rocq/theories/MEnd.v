(** The ends of lines at rods: source/Line.cpp l.224-226, 683-770, Line.hpp l.686-706 and Rod.cpp l.545-607.
    Simplifications: doubles are exact reals; the position, velocity and direction of the rod are given. *)
From Coq Require Import Reals List Arith ZArith.
From Verif Require Import MErr MVec MStateOps MMat MInterp MLine MRod MBody.
Import ListNotations.
Open Scope R_scope.

(** endMomentA, endMomentB: set to zero by Line::initialize, Line.cpp l.225-226. No other statement of the code
    assigns them; getStateDeriv (l.780-1264) does not. *)
Definition endMoment : v3 := vzero.
(** what a line keeps after its forces were computed *)
Definition line_kept (L : line) (e : envc) (k : wkin) (F : nat -> v3) : lineout := LineOut (lN L) F (lM L e k) endMoment endMoment.

(** the members that the ends set, everything else as it was *)
Definition set_ends (L : line) (r rd : nat -> v3) (cA cB : bool) (qA qB : v3) : line :=
  Line (lN L) (ldia L) (larea L) (lrho L) (lE L) (lEI L) (lc L) (lCan L) (lCat L) (lCdn L) (lCdt L)
    (lsx L) (lsy L) (lbx L) (lby L) (ldx L) (ldy L) (lisPb L) (lpin L) r rd (ll L) (lV L) cA cB qA qB.
(** a[i] = v *)
Definition put (a : nat -> v3) (i : nat) (v : v3) : nat -> v3 := fun j => if Nat.eqb j i then v else a j.
(** Line::setEndKinematics, l.683-701 *)
Definition setEndKinematics (L : line) (pos vel : v3) (end_point : Z) : outcome line :=
  if Z.eqb end_point ENDPOINT_B then Ok (set_ends L (put (lr L) (lN L) pos) (put (lrd L) (lN L) vel) (lcantA L) false (lqA L) (lqB L))
  else if Z.eqb end_point ENDPOINT_A then Ok (set_ends L (put (lr L) 0 pos) (put (lrd L) 0 vel) false (lcantB L) (lqA L) (lqB L))
  else Throw ExInvalidValue.
(** Line::setEndOrientation, l.703-727 *)
Definition setEndOrientation (L : line) (qin : v3) (end_point rod_end_point : Z) : outcome line :=
  if andb (negb (Z.eqb rod_end_point ENDPOINT_A)) (negb (Z.eqb rod_end_point ENDPOINT_B)) then Throw ExInvalidValue
  else if Z.eqb end_point ENDPOINT_B then
    Ok (set_ends L (lr L) (lrd L) (lcantA L) true (lqA L) (if Z.eqb rod_end_point ENDPOINT_B then vscale (-1) qin else qin))
  else if Z.eqb end_point ENDPOINT_A then
    Ok (set_ends L (lr L) (lrd L) true (lcantB L) (if Z.eqb rod_end_point ENDPOINT_A then vscale (-1) qin else qin) (lqB L))
  else Throw ExInvalidValue.
(** Line::getEndSegmentMoment, l.729-770. A stiffness without a value and the division by a length of zero give NaN:
    [UB] here. [K] is Kurv[N] or Kurv[0], a member that the last getStateDeriv left (zero before the first one, l.202) *)
Definition getEndSegmentMoment (L : line) (K : R) (end_point rod_end_point : Z) : outcome v3 :=
  if andb (negb (Z.eqb rod_end_point ENDPOINT_A)) (negb (Z.eqb rod_end_point ENDPOINT_B)) then Throw ExInvalidValue
  else if orb (Z.eqb end_point ENDPOINT_B) (Z.eqb end_point ENDPOINT_A) then
    let top := Z.eqb end_point ENDPOINT_B in
    let i := if top then (lN L - 1)%nat else 0%nat in
    let ud := unitvector (lr L i) (lr L (S i)) in
    match lEIat L K with
    | None => UB
    | Some EI =>
        let EIEnd := if Bool.eqb top (Z.eqb rod_end_point ENDPOINT_A) then EI else - EI in
        match fdiv 1 (snd ud) with Some d => Ok (vscale (EIEnd * d) (fst ud)) | None => UB end
    end
  else Throw ExInvalidValue.

(** the lines of the system by their number, and the attachments of a rod: line and end of the line *)
Definition lines := nat -> line.
Definition attachments := list (nat * Z).
Definition write (ls : lines) (i : nat) (L : line) : lines := fun j => if Nat.eqb j i then L else ls j.
(** the loops of Rod::setDependentStates, Rod.cpp l.564-567 and l.601-605 *)
Fixpoint pass_kinematics (a : attachments) (pos vel : v3) (ls : lines) : outcome lines :=
  match a with
  | [] => Ok ls
  | (i, ep) :: t => L <- setEndKinematics (ls i) pos vel ep ;; pass_kinematics t pos vel (write ls i L)
  end.
Fixpoint pass_orientation (a : attachments) (q : v3) (rod_end : Z) (ls : lines) : outcome lines :=
  match a with
  | [] => Ok ls
  | (i, ep) :: t => L <- setEndOrientation (ls i) q ep rod_end ;; pass_orientation t q rod_end (write ls i L)
  end.
(** l.582-587; [K] are the stored curvatures of the ends of the lines *)
Fixpoint moment_sum (K : nat -> Z -> R) (a : attachments) (rod_end : Z) (ls : lines) (acc : v3) : outcome v3 :=
  match a with
  | [] => Ok acc
  | (i, ep) :: t => m <- getEndSegmentMoment (ls i) (K i ep) ep rod_end ;; moment_sum K t rod_end ls (vadd acc m)
  end.
(** a rod as its lines see it: number of segments, ends, direction, lines at its ends. r[N] is r[0] if N is 0 *)
Record rodend := Rodend { re_N : nat; re_posA : v3; re_velA : v3; re_posB : v3; re_velB : v3; re_q : v3; re_A : attachments; re_B : attachments }.
(** Rod::setDependentStates, l.561-607: the direction of the rod afterwards and the lines *)
Definition setDependentStates (K : nat -> Z -> R) (d : rodend) (ls : lines) : outcome (v3 * lines) :=
  let last := if Nat.eqb (re_N d) 0 then (re_posA d, re_velA d) else (re_posB d, re_velB d) in
  ls1 <- pass_kinematics (re_A d) (re_posA d) (re_velA d) ls ;;
  ls2 <- pass_kinematics (re_B d) (fst last) (snd last) ls1 ;;
  q <- (if Nat.eqb (re_N d) 0 then
          m <- moment_sum K (re_A d) ENDPOINT_A ls2 vzero ;; m' <- moment_sum K (re_B d) ENDPOINT_B ls2 m ;; Ok (vnormalized m')
        else Ok (re_q d)) ;;
  ls3 <- pass_orientation (re_A d) q ENDPOINT_A ls2 ;;
  ls4 <- pass_orientation (re_B d) q ENDPOINT_B ls3 ;;
  Ok (q, ls4).
