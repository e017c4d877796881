(** Whole systems of bodies, rods, points and lines, with everything that moves: source/Time.cpp l.39-89
    (TimeSchemeBase::Update) and l.147-148, Body.cpp l.247-310, 395-475, Point.cpp l.206-280, Line.cpp l.658-681, the
    functions of MRodS and MEnd, and the loops of MoorDyn::Step over the coupled objects (MoorDyn2.cpp l.633-716).
    Simplifications: doubles are exact reals; forces and the derivatives of the state are given ([cal] below), and so are
    the unstretched lengths (see MStep.upd_sys). Objects are reached by number, as by their addresses in the code *)
From Coq Require Import Reals List Arith ZArith.
From Verif Require Import MErr MVec MStateOps MMat MInterp MLine MRod MBody MEnd MRodS MScheme.
From Verif Require MSys MStep.
Import ListNotations.
Open Scope R_scope.

(** Body::types, Body.hpp *)
Inductive bodytype := BodyFree | BodyFixed | BodyCoupled | BodyCpldPin.
(** type, whether it is the ground (bodyId 0), r7, v6, a6, OrMat, (r_ves, rd_ves, rdd_ves), (attachedP, rPointRel), (attachedR, r6RodRel) *)
Record bodyk := Bodyk { b_type : bodytype; b_ground : bool; b_r7 : xyzquat; b_v6 : v6; b_a6 : v6; b_or : m3; b_ves : v6 * v6 * v6;
  b_pts : list (nat * v3); b_rods : list (nat * v6) }.
(** type, r, rd, (r_ves, rd_ves), attached *)
Record pointk := Pointk { q_type : ptype; q_r : v3; q_rd : v3; q_ves : v3 * v3; q_att : attachments }.
(** ground, bodies, rods, points, lines of the time scheme *)
Record full := Full { f_nb : nat; f_nr : nat; f_np : nat; f_nl : nat;
  f_ground : bodyk; f_body : nat -> bodyk; f_rod : nat -> rodk; f_pt : nat -> pointk; f_line : lines }.
(** assignments *)
Definition fput {A} (f : nat -> A) (i : nat) (x : A) : nat -> A := fun j => if Nat.eqb j i then x else f j.
Definition put_ground (F : full) (b : bodyk) : full := Full (f_nb F) (f_nr F) (f_np F) (f_nl F) b (f_body F) (f_rod F) (f_pt F) (f_line F).
Definition put_body (F : full) (i : nat) (b : bodyk) : full := Full (f_nb F) (f_nr F) (f_np F) (f_nl F) (f_ground F) (fput (f_body F) i b) (f_rod F) (f_pt F) (f_line F).
Definition put_rod (F : full) (i : nat) (k : rodk) (ls : lines) : full := Full (f_nb F) (f_nr F) (f_np F) (f_nl F) (f_ground F) (f_body F) (fput (f_rod F) i k) (f_pt F) ls.
Definition put_pt (F : full) (i : nat) (p : pointk) (ls : lines) : full := Full (f_nb F) (f_nr F) (f_np F) (f_nl F) (f_ground F) (f_body F) (f_rod F) (fput (f_pt F) i p) ls.
Definition put_line (F : full) (i : nat) (L : line) : full := Full (f_nb F) (f_nr F) (f_np F) (f_nl F) (f_ground F) (f_body F) (f_rod F) (f_pt F) (fput (f_line F) i L).
Definition move_pt (p : pointk) (r rd : v3) : pointk := Pointk (q_type p) r rd (q_ves p) (q_att p).
Definition move_body (b : bodyk) (r7 : xyzquat) (v a : v6) (Or : m3) : bodyk :=
  Bodyk (b_type b) (b_ground b) r7 v a Or (b_ves b) (b_pts b) (b_rods b).
Definition body_ves (b : bodyk) (s : v6 * v6 * v6) : bodyk :=
  Bodyk (b_type b) (b_ground b) (b_r7 b) (b_v6 b) (b_a6 b) (b_or b) s (b_pts b) (b_rods b).

(** r, rd and setEndKinematics of the attached lines, Point.cpp l.233-239, l.250-257, l.270-277 *)
Definition point_to (i : nat) (r rd : v3) (F : full) : outcome full :=
  let p := f_pt F i in ls <- pass_kinematics (q_att p) r rd (f_line F) ;; Ok (put_pt F i (move_pt p r rd) ls).
(** Point::setKinematics, l.242-258; updateFairlead, l.224-240; setState, l.260-278 *)
Definition point_setKinematics (i : nat) (r rd : v3) (F : full) : outcome full :=
  match q_type (f_pt F i) with PFixed => point_to i r rd F | _ => Throw ExInvalidValue end.
Definition point_updateFairlead (time : R) (i : nat) (F : full) : outcome full :=
  let '(r, rd) := q_ves (f_pt F i) in
  match q_type (f_pt F i) with PCoupled => point_to i (vadd r (vscale time rd)) rd F | _ => Throw ExInvalidValue end.
Definition point_setState (i : nat) (s : pst) (F : full) : outcome full :=
  match q_type (f_pt F i) with PFree => point_to i (pos s) (vel s) F | _ => Throw ExInvalidValue end.

Section Full.
Variable opposed : v3 -> v3 -> quat.
Variable K : nat -> Z -> R.
(** a function of Rod applied to rod i of the system *)
Definition on_rod (i : nat) (F : full) (r : outcome (rodk * lines)) : outcome full := kl <- r ;; Ok (put_rod F i (fst kl) (snd kl)).
(** Body::setDependentStates, Body.cpp l.247-310: first the points, then the rods *)
Fixpoint dep_points (a : list (nat * v3)) (Or : m3) (p : v3) (v : v6) (F : full) : outcome full :=
  match a with
  | [] => Ok F
  | (i, rel) :: a' => F <- (let rv := body_point Or p v rel in point_setKinematics i (fst rv) (snd rv) F) ;; dep_points a' Or p v F
  end.
Fixpoint dep_rods (a : list (nat * v6)) (Or : m3) (p : v3) (v : v6) (F : full) : outcome full :=
  match a with
  | [] => Ok F
  | (i, rel) :: a' =>
      F <- (let rv := body_rod Or p v rel in on_rod i F (rod_setKinematics opposed K (f_rod F i) (fst rv) (snd rv) (f_line F))) ;; dep_rods a' Or p v F
  end.
Definition body_dependents (b : bodyk) (F : full) : outcome full :=
  F <- dep_points (b_pts b) (b_or b) (xq_pos (b_r7 b)) (b_v6 b) F ;; dep_rods (b_rods b) (b_or b) (xq_pos (b_r7 b)) (b_v6 b) F.
(** Body::updateFairlead, l.423-451: the body afterwards and whether it moves its dependents *)
Definition body_led (b : bodyk) (time : R) : outcome (bodyk * bool) :=
  let '(r, rd, rdd) := b_ves b in
  match b_type b with
  | BodyCoupled | BodyFixed =>
      let r7 := fromVec6 (v6add r (v6scale time rd)) in Ok (move_body b r7 rd rdd (qrot (qnormalized (xq_quat r7))), true)
  | BodyCpldPin =>
      Ok (move_body b (XQ (vadd (v6hd r) (vscale time (v6hd rd))) (xq_quat (b_r7 b))) (V6 (v6hd rd) (v6tl (b_v6 b))) (V6 (v6hd rdd) (v6tl (b_a6 b))) (b_or b), false)
  | BodyFree => Throw ExInvalidValue
  end.
Definition body_updateFairlead (time : R) (i : nat) (F : full) : outcome full :=
  bd <- body_led (f_body F i) time ;; let F := put_body F i (fst bd) in if snd bd then body_dependents (fst bd) F else Ok F.
Definition ground_updateFairlead (time : R) (F : full) : outcome full :=
  bd <- body_led (f_ground F) time ;; let F := put_ground F (fst bd) in if snd bd then body_dependents (fst bd) F else Ok F.
(** Body::setState, l.453-475 *)
Definition body_setState (i : nat) (s : rst) (F : full) : outcome full :=
  let b := f_body F i in
  b1 <- (match b_type b with
         | BodyFree => Ok (move_body b (pos s) (vel s) (b_a6 b) (qrot (qnormalized (xq_quat (pos s)))))
         | BodyCpldPin => Ok (move_body b (XQ (xq_pos (b_r7 b)) (xq_quat (pos s))) (V6 (v6hd (b_v6 b)) (v6tl (vel s))) (b_a6 b) (qrot (qnormalized (xq_quat (pos s)))))
         | _ => Throw ExInvalidValue end) ;;
  body_dependents b1 (put_body F i b1).
(** a loop over numbered objects *)
Fixpoint each (f : nat -> full -> outcome full) (l : list nat) (F : full) : outcome full :=
  match l with [] => Ok F | i :: l' => F <- f i F ;; each f l' F end.
Definition is_led (t : bodytype) : bool := match t with BodyCoupled | BodyCpldPin => true | _ => false end.
Definition has_state (t : bodytype) : bool := match t with BodyFree | BodyCpldPin => true | _ => false end.
Definition rod_is_led (t : rodtype) : bool := match t with RodCoupled | RodCpldPin => true | _ => false end.
Definition rod_has_state (t : rodtype) : bool := match t with RodFree | RodPinned | RodCpldPin => true | _ => false end.
(** TimeSchemeBase::Update, Time.cpp l.39-89; [t] is the time of the scheme, [tl] the time since the start of the coupling step *)
Definition upd_full (F : full) (t tl : R) (x : mst) : outcome full :=
  F <- ground_updateFairlead t F ;;
  F <- each (fun i F => if is_led (b_type (f_body F i)) then body_updateFairlead tl i F else Ok F) (seq 0 (f_nb F)) F ;;
  F <- each (fun i F => if rod_is_led (k_type (f_rod F i)) then on_rod i F (rod_updateFairlead K (f_rod F i) tl (f_line F)) else Ok F) (seq 0 (f_nr F)) F ;;
  F <- each (fun i F => match q_type (f_pt F i) with PCoupled => point_updateFairlead tl i F | _ => Ok F end) (seq 0 (f_np F)) F ;;
  F <- each (fun i F => if has_state (b_type (f_body F i)) then s <- vget (s_bodies x) i ;; body_setState i s F else Ok F) (seq 0 (f_nb F)) F ;;
  F <- each (fun i F => if rod_has_state (k_type (f_rod F i)) then s <- vget (s_rods x) i ;; on_rod i F (rod_setState K (f_rod F i) (pos s) (vel s) (f_line F)) else Ok F) (seq 0 (f_nr F)) F ;;
  F <- each (fun i F => match q_type (f_pt F i) with PFree => s <- vget (s_points x) i ;; point_setState i s F | _ => Ok F end) (seq 0 (f_np F)) F ;;
  each (fun i F => s <- vget (s_lines x) i ;; L <- MSys.line_set_state (f_line F i) s ;; Ok (put_line F i L)) (seq 0 (f_nl F)) F.

(** TimeSchemeBase::CalcStateDeriv, l.91-150: [deriv] stands for the forces and derivatives of all the objects. Of what is
    kept here it changes only the accelerations of the rods and bodies (acc6, a6); then the ground sets its dependents again *)
Variable deriv : full -> mdst -> outcome ((nat -> v6) * (nat -> v6) * mdst).
Definition with_acc (F : full) (ab ar : nat -> v6) : full :=
  Full (f_nb F) (f_nr F) (f_np F) (f_nl F) (f_ground F)
    (fun i => let b := f_body F i in move_body b (b_r7 b) (b_v6 b) (ab i) (b_or b))
    (fun i => let k := f_rod F i in rod_keeps k (ar i)) (f_pt F) (f_line F).
Definition cal_full (F : full) (d : mdst) : outcome (full * mdst) :=
  r <- deriv F d ;;
  let F1 := with_acc F (fst (fst r)) (snd (fst r)) in
  F2 <- body_dependents (f_ground F1) F1 ;; Ok (F2, snd r).

(** the boundary conditions of one coupling step, MoorDyn2.cpp l.636-689: Body::initiateStep, Body.cpp l.395-421,
    Rod::initiateStep, Point::initiateStep; [ab], [ar] are the accelerations made from the change of the velocities *)
Definition body_initiate (b : bodyk) (r rd rdd : v6) : outcome bodyk :=
  match b_type b with
  | BodyCoupled => Ok (body_ves b (r, rd, rdd))
  | BodyCpldPin => let '(r0, rd0, rdd0) := b_ves b in Ok (body_ves b (V6 (v6hd r) (v6tl r0), V6 (v6hd rd) (v6tl rd0), V6 (v6hd rdd) (v6tl rdd0)))
  | BodyFixed => Ok (body_ves b (if b_ground b then v6zero else r, v6zero, v6zero))
  | BodyFree => Throw ExInvalidValue
  end.
Definition body_initiateStep (i : nat) (r rd rdd : v6) (F : full) : outcome full := b <- body_initiate (f_body F i) r rd rdd ;; Ok (put_body F i b).
Definition point_initiateStep (i : nat) (r rd : v3) (F : full) : outcome full :=
  match q_type (f_pt F i) with
  | PCoupled => let p := f_pt F i in Ok (put_pt F i (Pointk (q_type p) (q_r p) (q_rd p) (r, rd) (q_att p)) (f_line F))
  | _ => Throw ExInvalidValue end.
(** what a caller can do between two updates: start a coupling step for one of the coupled objects *)
Inductive boundary := BcBody (i : nat) (r rd rdd : v6) | BcRod (i : nat) (r rd rdd : v6) | BcPoint (i : nat) (r rd : v3).
(** (the numbers are those of objects of the system, as the pointers of CpldBodies, CpldRods and CpldPoints are) *)
Definition impose (c : boundary) (F : full) : outcome full :=
  match c with
  | BcBody i r rd rdd => if Nat.ltb i (f_nb F) then body_initiateStep i r rd rdd F else UB
  | BcRod i r rd rdd => if Nat.ltb i (f_nr F) then on_rod i F (rod_initiateStep K (f_rod F i) r rd rdd (f_line F)) else UB
  | BcPoint i r rd => if Nat.ltb i (f_np F) then point_initiateStep i r rd F else UB
  end.
Fixpoint impose_all (cs : list boundary) (F : full) : outcome full :=
  match cs with [] => Ok F | c :: cs' => F <- impose c F ;; impose_all cs' F end.

Variable lim : full -> R -> R -> R.
Variable conv : mdst -> mdst -> bool.
Notation tsf := (tsch mst mdst full).
(** one step of a time scheme on such a system (a mask of objects, see MLocal, moves nothing) *)
Definition scheme_step (c : scheme) (s : tsf) (dt : R) : outcome tsf := step mst mdst full system_ops upd_full cal_full lim (fun F _ => Ok F) conv c s dt.
(** MoorDyn::Step, l.633-716: boundary conditions, TimeScheme::Next (t_local = 0), steps of the scheme *)
Fixpoint scheme_steps (c : scheme) (dts : list R) (s : tsf) : outcome tsf :=
  match dts with [] => Ok s | dt :: l => s <- scheme_step c s dt ;; scheme_steps c l s end.
Definition coupling_step (c : scheme) (s : tsf) (bc : list boundary) (dts : list R) : outcome tsf :=
  F <- impose_all bc (env _ _ _ s) ;; scheme_steps c dts (set_tl _ _ _ (set_env _ _ _ s F) 0).
Fixpoint coupling_steps (c : scheme) (s : tsf) (l : list (list boundary * list R)) : outcome tsf :=
  match l with [] => Ok s | (bc, dts) :: l' => s <- coupling_step c s bc dts ;; coupling_steps c s l' end.
End Full.
