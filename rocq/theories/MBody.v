(** Forces and masses of points and bodies: source/Point.cpp l.276-383, Point.hpp l.420-434,
    Line.hpp l.686-706, Rod.cpp l.742-775, Rod.hpp l.615-630, Body.cpp l.52-134, 476-632.
    Simplifications: doubles are exact reals. *)
From Coq Require Import Reals List Arith ZArith.
From Verif Require Import MErr MVec MStateOps MMat MInterp MLine MRod.
Import ListNotations.
Open Scope R_scope.

(** what a line keeps after its forces were computed (Line.hpp l.300-360): segments, net node forces,
    node masses and end moments *)
Record lineout := LineOut { loN : nat; loF : nat -> v3; loM : nat -> m3; loMomA : v3; loMomB : v3 }.
(** EndPoints, Misc.hpp l.515-526: bottom is end A, top is end B *)
Definition ENDPOINT_A : Z := 0%Z.
Definition ENDPOINT_B : Z := 1%Z.
(** Line::getEndStuff, Line.hpp l.686-706 *)
Definition getEndStuff (l : lineout) (end_point : Z) : outcome endstuff :=
  if Z.eqb end_point ENDPOINT_B then Ok (EndStuff (loF l (loN l)) (loMomB l) (loM l (loN l)))
  else if Z.eqb end_point ENDPOINT_A then Ok (EndStuff (loF l 0%nat) (loMomA l) (loM l 0%nat))
  else Throw ExInvalidValue.

(* ------------------------------ points ------------------------------ *)
(** Point::types, Point.hpp l.154-169 *)
Inductive ptype := PCoupled | PFree | PFixed.
(** the members of Point read by doRHS (Point.hpp l.85-152) *)
Record point := Point {
  p_type : ptype; p_r : v3; p_rd : v3; p_M : R; p_V : R; p_F : v3; p_CdA : R; p_Ca : R;
  p_att : list (lineout * Z) }.
(** Eigen's normalized(): the zero vector stays as it is *)
Definition vnormalized (v : v3) : v3 := if Rlt_dec 0 (dot v v) then vscale (/ norm v) v else v.
(** the loop over the attached lines, Point.cpp l.331-352 *)
Fixpoint point_lines (l : list (lineout * Z)) (F : v3) (M : m3) : outcome (v3 * m3) :=
  match l with
  | [] => Ok (F, M)
  | (ln, ep) :: t => s <- getEndStuff ln ep ;; point_lines t (vadd F (esF s)) (madd M (esMass s))
  end.
(** Point::doRHS, l.320-383: net force and mass; [U] is the water velocity at the point *)
Definition point_rhs (p : point) (e : envc) (U : v3) : outcome (v3 * m3) :=
  FM <- point_lines (p_att p)
          (vadd (p_F p) (V3 0 0 (gr e * (p_V p * rho_w e - p_M p)))) (mscale (p_M p) mid) ;;
  let vi := vsub U (p_rd p) in
  Ok (vadd (fst FM) (vscale (0.5 * rho_w e * dot vi vi * p_CdA p) (vnormalized vi)),
      madd (snd FM) (mscale (p_V p * rho_w e * p_Ca p) mid)).
(** Point::getStateDeriv, l.279-297 *)
Definition point_deriv (p : point) (e : envc) (U : v3) : outcome (v3 * v3) :=
  match p_type p with
  | PFree => FM <- point_rhs p e U ;; Ok (p_rd p, mmulv (minv (snd FM)) (fst FM))
  | _ => Throw ExInvalidValue
  end.
(** Point::getNetForceAndMass, l.299-318, with getCentripetalForce, Point.hpp l.431-434 *)
Definition point_share (p : point) (e : envc) (U : v3) (rBody w : v3) : outcome (v6 * m6) :=
  FM <- point_rhs p e U ;;
  let rRel := vsub (p_r p) rBody in
  Ok (V6 (vadd (fst FM) (vscale (-1) (mmulv (snd FM) (cross w (cross w rRel))))) (cross rRel (fst FM)),
      translateMass rRel (snd FM)).

(* ------------------------------ rods on bodies ------------------------------ *)
(** Rod::getCentripetalForce, Rod.hpp l.620-630: node masses [M] at the nodes *)
Fixpoint rod_cent (D : rod) (M : nat -> m3) (rRef w : v3) (n : nat) : v3 :=
  match n with
  | O => vzero
  | S i => vsub (rod_cent D M rRef w i) (mmulv (M i) (cross w (cross w (vsub (rnode D i) rRef))))
  end.
(** Rod::getNetForceAndMass, Rod.cpp l.742-775, from the rod's own force, mass and node masses *)
Definition rod_share (D : rod) (F6 : v6) (M6net : m6) (M : nat -> m3) (rRef w : v3) : v6 * m6 :=
  let rRel := vsub (rnode D 0) rRef in
  (V6 (vadd (v6hd F6) (if Nat.eqb (rn D) 0 then vzero else rod_cent D M rRef w (rn D + 1)))
      (vadd (v6tl F6) (cross rRel (v6hd F6))),
   translateMass6 rRel M6net).

(* ------------------------------ bodies ------------------------------ *)
(** Body::types, Body.hpp l.159-172 *)
Inductive btype := BCoupled | BFree | BFixed | BCpldPin.
(** the members of Body used below (Body.hpp l.80-157): [b_Or] is OrMat, [b_v] v6, [b_a] a6 *)
Record body := Body {
  b_type : btype; b_M : R; b_V : R; b_rCG : v3; b_I : v3; b_CdA : v6; b_Ca : v6;
  b_pos : v3; b_Or : m3; b_v : v6; b_a : v6 }.
Definition mdiag (v : v3) : m3 := M3 (V3 (vx v) 0 0) (V3 0 (vy v) 0) (V3 0 0 (vz v)).
(** Body::setup, l.70-104: which of the given properties a body keeps (the centre of gravity of a fixed
    body is left uninitialised there and only multiplies a zero mass; it is zero here) *)
Definition body_keep (t : btype) (M V : R) (rCG I : v3) (CdA Ca : v6) (pos : v3) (Or : m3) (v a : v6) : body :=
  match t with
  | BFree | BCpldPin => Body t M V rCG I CdA Ca pos Or v a
  | BFixed | BCoupled => Body t 0 0 vzero vzero v6zero v6zero pos Or v a
  end.
(** Body::setup, l.111-121: mass matrix in the body frame *)
Definition body_M0 (b : body) (e : envc) : m6 :=
  m6add (translateMass6 (b_rCG b) (M6 (mscale (b_M b) mid) mzero mzero (mdiag (b_I b))))
        (let k := b_V b * rho_w e in
         M6 (mscale k (mdiag (v6hd (b_Ca b)))) mzero mzero (mscale k (mdiag (v6tl (b_Ca b))))).
(** Body::doRHS, l.552-560: weight and buoyancy *)
Definition body_Fgrav (b : body) (e : envc) : v3 := V3 0 0 (b_V b * rho_w e * gr e - b_M b * gr e).
(** l.580-593: drag of the core body *)
Definition body_drag (b : body) (e : envc) (U : v3) : v6 :=
  let vh := vsub U (v6hd (b_v b)) in
  let vt := vscale (-1) (v6tl (b_v b)) in
  let cda d v := vscale (norm v) (mmulv (mmul (mmul (b_Or b) (mdiag d)) (mtr (b_Or b))) v) in
  v6scale (0.5 * rho_w e) (V6 (cda (v6hd (b_CdA b)) vh) (cda (v6tl (b_CdA b)) vt)).
(** Body::doRHS, l.539-632: net force and mass; [parts] are what getNetForceAndMass gave for the
    attached points and rods *)
Definition body_rhs (b : body) (e : envc) (U : v3) (parts : list (v6 * m6)) : v6 * m6 :=
  let M := rotateMass6 (b_Or b) (body_M0 b e) in
  let rc := mmulv (b_Or b) (b_rCG b) in
  let Fg := body_Fgrav b e in
  let w := v6tl (b_v b) in
  let F := V6 (vsub Fg (mmulv (m6tl M) (cross w (cross w rc)))) (cross rc Fg) in
  fold_left (fun FM p => (v6add (fst FM) (fst p), m6add (snd FM) (snd p))) parts (v6add F (body_drag b e U), M).
(** Body::getStateDeriv, l.476-511: the result [a] of the linear solve satisfies these equations
    (solveMat6, Misc.cpp l.199-209, is a QR solve of M a = F; the pinned case solves for the rotation) *)
Definition body_solves (b : body) (F : v6) (M : m6) (a : v6) : Prop :=
  match b_type b with
  | BFree => m6mulv M a = F
  | BCpldPin => v6hd a = v6hd (b_a b) /\ mmulv (m6br M) (v6tl a) = vsub (v6tl F) (mmulv (m6bl M) (v6hd a))
  | _ => False
  end.
(** Body::getFnet, l.513-535 *)
Definition body_getFnet (b : body) (F : v6) (M : m6) : v6 :=
  match b_type b with
  | BCoupled => v6sub F (m6mulv M (b_a b))
  | BCpldPin => V6 (vsub (vsub (v6hd F) (mmulv (m6tl M) (v6hd (b_a b)))) (mmulv (m6tr M) (v6tl (b_a b)))) vzero
  | _ => F
  end.
