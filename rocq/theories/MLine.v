(** The forces on a mooring line: source/Line.cpp l.62-122, 613-656, 729-1264 and the queries of
    source/Line.hpp l.417-706 and Line.cpp l.1806-1846.
    Simplifications: doubles are exact reals; vectors of N (segments) or N+1 (nodes) entries are
    functions of the index, a floating point NaN or infinity is [None]. *)
From Coq Require Import Reals List Arith.
From Verif Require Import MErr MVec MStateOps MMat MInterp.
Import ListNotations.
Open Scope R_scope.

(** the members of Line used by getStateDeriv (Line.hpp l.130-300) and of EnvCond (Misc.hpp):
    [lsx, lsy] is the strain-stress curve, [lbx, lby] the curvature-moment curve, [ldx, ldy] the
    rate-stress curve, [lqA, lqB] the end orientations given by a rod, [lcantA, lcantB] whether
    the ends are CANTILEVERED *)
Record line := Line {
  lN : nat; ldia : R; larea : R; lrho : R; lE : R; lEI : R; lc : R;
  lCan : R; lCat : R; lCdn : R; lCdt : R;
  lsx : list R; lsy : list R; lbx : list R; lby : list R; ldx : list R; ldy : list R;
  lisPb : bool; lpin : nat -> R;
  lr : nat -> v3; lrd : nat -> v3; ll : nat -> R; lV : nat -> R;
  lcantA : bool; lcantB : bool; lqA : v3; lqB : v3 }.
Record envc := Envc { rho_w : R; gr : R; kb : R; cb : R; fric : R; fricDamp : R; statDyn : R }.
(** what Waves::getWaveKinLine and Line::getWaterDepth return at the nodes *)
Record wkin := Wkin { wzeta : nat -> R; wU : nat -> v3; wUd : nat -> v3; wpdyn : nat -> R; wdepth : R -> R -> R }.

(** floating point division: by zero it gives NaN or infinity *)
Definition fdiv (a b : R) : option R := if Req_EM_T b 0 then None else Some (a / b).
(** an interpolated value; an access out of range has no value *)
Definition oval (o : outcome R) : option R := match o with Ok v => Some v | _ => None end.
Definition obnd {A B} (o : option A) (k : A -> option B) : option B := match o with Some a => k a | None => None end.

(** Line::getNonlinearE, l.62-78 *)
Definition getNonlinearE (L : line) (l_str l_un : R) : option R :=
  match lsx L with
  | [] => Some (lE L)
  | _ => let Xi := l_str / l_un - 1 in
         if Rlt_dec Xi 0 then Some 0
         else obnd (oval (interp (lsx L) (lsy L) Xi)) (fun Yi => fdiv Yi Xi)
  end.
(** Line::getNonlinearEI, l.80-92 *)
Definition getNonlinearEI (L : line) (curv : R) : option R :=
  match lbx L with
  | [] => Some (lEI L)
  | _ => obnd (oval (interp (lbx L) (lby L) curv)) (fun Yi => fdiv Yi curv)
  end.
(** Line::getNonlinearC, l.94-122 *)
Definition getNonlinearC (L : line) (ld_str l_un : R) : option R :=
  match ldx L with
  | [] => Some (lc L)
  | x0 :: _ =>
      let Xi := ld_str / l_un in
      if Rlt_dec x0 0 then obnd (oval (interp (ldx L) (ldy L) Xi)) (fun Yi => fdiv Yi Xi)
      else
        let '(Xsign, Xi) := if Rlt_dec Xi 0 then (-1, - Xi) else (1, Xi) in
        obnd (oval (interp (ldx L) (ldy L) Xi)) (fun Yi => fdiv (Yi * Xsign) Xi)
  end.

(** segment kinematics, l.797-805: stretched length, direction and stretching rate *)
Definition lqs (L : line) (i : nat) : v3 := fst (unitvector (lr L i) (lr L (S i))).
Definition llstr (L : line) (i : nat) : R := snd (unitvector (lr L i) (lr L (S i))).
Definition lldstr (L : line) (i : nat) : R := dot (lqs L i) (vsub (lrd L (S i)) (lrd L i)).

(** isEI, l.820 *)
Definition lisEI (L : line) : bool :=
  orb (if Rlt_dec 0 (lEI L) then true else false) (negb (Nat.eqb (length (lbx L)) 0)).
(** node tangents, l.807-824 *)
Definition lq (L : line) (i : nat) : v3 :=
  let N := lN L in
  if Nat.eqb i 0 then (if orb (negb (lcantA L)) (negb (lisEI L)) then fst (unitvector (lr L 0) (lr L 1)) else lqA L)
  else if Nat.eqb i N then (if orb (negb (lcantB L)) (negb (lisEI L)) then fst (unitvector (lr L (N - 1)) (lr L N)) else lqB L)
  else fst (unitvector (lr L (i - 1)) (lr L (i + 1))).

(** curvature at the nodes, l.826-845, for lines with bending stiffness or pressure bending *)
Definition lKurv (L : line) (i : nat) : R :=
  let N := lN L in
  if Nat.eqb i 0 then (if lcantA L then getCurvature (llstr L 0) (lq L 0) (lqs L 0) else 0)
  else if Nat.eqb i N then (if lcantB L then getCurvature (llstr L (i - 1)) (lqs L (i - 1)) (lq L i) else 0)
  else getCurvature (llstr L (i - 1) + llstr L i) (lqs L (i - 1)) (lqs L i).
(** node normals, l.846-861 *)
Definition lpvec (L : line) (i : nat) : v3 :=
  let N := lN L in
  if equalRealNos (lKurv L i) 0 then vzero
  else
    let p := if Nat.eqb i 0 then cross (lq L 0) (lqs L 0)
             else if Nat.eqb i N then cross (lqs L (i - 1)) (lq L N)
             else cross (lqs L (i - 1)) (lqs L i) in
    if equalRealNos (norm p) 0 then p else vscale (/ norm p) p.

(** Eigen's normalize(): unchanged when the squared norm is not positive *)
Definition vnormalized (a : v3) : v3 := if Rlt_dec 0 (dot a a) then vscale (/ norm a) a else a.
(** Line::calcSubSeg, l.613-656: submerged fraction of the segment between [a] and [b] *)
Definition calcSubSeg (d : R) (a b : v3) (surface_height : R) : R :=
  let firstNodeZ := vz a - surface_height in
  let secondNodeZ := vz b - surface_height in
  if Rle_dec firstNodeZ 0 then
    if Rlt_dec secondNodeZ 0 then 1 else
    if Req_EM_T firstNodeZ (- secondNodeZ) then 0.5 else
    let lowerEnd := if Rlt_dec firstNodeZ 0 then a else b in
    let upperEnd := if Rlt_dec firstNodeZ 0 then b else a in
    let lowerEnd := V3 (vx lowerEnd) (vy lowerEnd) (vz lowerEnd - surface_height) in
    let upperEnd := V3 (vx upperEnd) (vy upperEnd) (vz upperEnd - surface_height) in
    let segmentAxis := vsub upperEnd lowerEnd in
    let normVec := vnormalized (cross segmentAxis (cross (V3 0 0 1) segmentAxis)) in
    let normVec := scalevector normVec (d / 2) in
    let lz := vz lowerEnd - vz normVec in
    let uz := vz upperEnd + vz normVec in
    Rabs lz / (Rabs lz + uz)
  else
    if Rlt_dec 0 secondNodeZ then 0 else
    if Req_EM_T firstNodeZ (- secondNodeZ) then 0.5 else
    let lowerEnd := V3 (vx b) (vy b) (vz b - surface_height) in
    let upperEnd := V3 (vx a) (vy a) (vz a - surface_height) in
    let segmentAxis := vsub upperEnd lowerEnd in
    let normVec := vnormalized (cross segmentAxis (cross (V3 0 0 1) segmentAxis)) in
    let normVec := scalevector normVec (d / 2) in
    let lz := vz lowerEnd - vz normVec in
    let uz := vz upperEnd + vz normVec in
    Rabs lz / (Rabs lz + uz).
(** submerged fractions of the segments, l.869-878 *)
Definition lF (L : line) (k : wkin) (i : nat) : R :=
  calcSubSeg (ldia L) (lr L i) (lr L (S i)) (0.5 * (wzeta k i + wzeta k (S i))).

(** quantities shared by the two segments of a node: [half i f] is f 0, f (N-1) or f (i-1) + f i *)
Definition at_node (L : line) (f : nat -> R) (i : nat) : R :=
  if Nat.eqb i 0 then f 0%nat else if Nat.eqb i (lN L) then f (i - 1)%nat else f i + f (i - 1)%nat.

(** node masses and submerged volumes, l.880-893 *)
Definition lmi (L : line) (i : nat) : R := PI / 8 * (ldia L * ldia L * lrho L * at_node L (ll L) i).
Definition lvi (L : line) (k : wkin) (i : nat) : R := 0.5 * at_node L (fun j => lF L k j * lV L j) i.
(** q q^T, Eigen outer product *)
Definition outer (a : v3) : m3 := M3 (vscale (vx a) a) (vscale (vy a) a) (vscale (vz a) a).
Definition msub (a b : m3) : m3 := madd a (mscale (-1) b).
(** node mass matrix, l.895-898 *)
Definition lM (L : line) (e : envc) (k : wkin) (i : nat) : m3 :=
  let Q := outer (lq L i) in
  madd (mscale (lmi L i) mid)
       (mscale (rho_w e * lvi L k i) (madd (mscale (lCan L) (msub mid Q)) (mscale (lCat L) Q))).

(** tension of a segment, l.905-917 *)
Definition lT (L : line) (i : nat) : option v3 :=
  obnd (if negb (Nat.eqb (length (lsx L)) 0) then
          (* the value is only used when the segment is stretched *)
          if Rlt_dec 1 (llstr L i / ll L i) then getNonlinearE L (llstr L i) (ll L i) else Some 0
        else Some (lE L)) (fun E =>
  Some (if Rlt_dec 1 (llstr L i / ll L i)
        then vscale (E * larea L * (llstr L i - ll L i) / ll L i) (lqs L i) else vzero)).
(** internal damping force of a segment, l.919-922 *)
Definition lTd (L : line) (i : nat) : option v3 :=
  obnd (if negb (Nat.eqb (length (ldx L)) 0) then getNonlinearC L (lldstr L i) (ll L i) else Some (lc L)) (fun c =>
  Some (vscale (c * larea L * lldstr L i / ll L i) (lqs L i))).

(** a[i] += v *)
Definition bump (a : nat -> v3) (i : nat) (v : v3) : nat -> v3 := fun j => if Nat.eqb j i then vadd (a j) v else a j.
(** bending stiffness used at a node, l.943-1008 *)
Definition lEIat (L : line) (K : R) : option R :=
  if negb (Nat.eqb (length (lbx L)) 0) then getNonlinearEI L K else Some (lEI L).
(** one round of the bending loop, l.935-1017 *)
Definition bend1 (L : line) (i : nat) (Bs : nat -> v3) : option (nat -> v3) :=
  let N := lN L in let K := lKurv L i in
  if equalRealNos K 0 then Some Bs
  else if Nat.eqb i 0 then
    if lcantA L then
      obnd (lEIat L K) (fun EI =>
      let Mip1 := vscale (K * EI / llstr L i) (cross (lqs L 0) (lpvec L i)) in
      let Mi := vscale (-1) Mip1 in
      Some (bump (bump Bs i Mi) (i + 1) Mip1))
    else Some Bs
  else if Nat.eqb i N then
    if lcantB L then
      obnd (lEIat L K) (fun EI =>
      let Mim1 := vscale (K * EI / llstr L (i - 1)) (cross (lqs L (i - 1)) (lpvec L i)) in
      let Mi := vscale (-1) Mim1 in
      Some (bump (bump Bs (i - 1) Mim1) i Mi))
    else Some Bs
  else
    obnd (lEIat L K) (fun EI =>
    let Mim1 := vscale (K * EI / llstr L (i - 1)) (cross (lqs L (i - 1)) (lpvec L i)) in
    let Mip1 := vscale (K * EI / llstr L i) (cross (lqs L i) (lpvec L i)) in
    let Mi := vsub (vscale (-1) Mim1) Mip1 in
    Some (bump (bump (bump Bs (i - 1) Mim1) i Mi) (i + 1) Mip1)).
(** the loop over nodes 0 .. n-1 *)
Fixpoint bend (L : line) (n : nat) : option (nat -> v3) :=
  match n with O => Some (fun _ => vzero) | S n' => obnd (bend L n') (bend1 L n') end.
(** bending forces, l.925-934 *)
Definition lBs (L : line) : option (nat -> v3) :=
  if lisEI L then bend L (lN L + 1) else Some (fun _ => vzero).
(** pressure bending, l.1074-1093 *)
Definition lPb (L : line) (e : envc) (k : wkin) (i : nat) : v3 :=
  if negb (lisPb L) then vzero
  else if equalRealNos (lKurv L i) 0 then vzero
  else
    let h := Rmax 0 (wzeta k i - vz (lr L i)) in
    let p := lpin L i - (rho_w e * gr e * h + wpdyn k i) in
    let nvec := cross (lq L i) (lpvec L i) in
    vscale (0.5 * larea L * at_node L (ll L) i * p * lKurv L i) nvec.

(** weight and buoyancy, l.1096-1109 *)
Definition lW (L : line) (e : envc) (k : wkin) (i : nat) : v3 :=
  V3 0 0 (0.5 * larea L * at_node L (fun j => ll L j * (lrho L - lF L k j * rho_w e)) i * (- gr e)).
(** components of a vector along and across a direction, l.1111-1122 *)
Definition along (q v : v3) : v3 := vscale (dot v q) q.
Definition across (q v : v3) : v3 := vsub v (along q v).
(** transverse and tangential drag, l.1111-1144 *)
Definition lDp (L : line) (e : envc) (k : wkin) (i : nat) : v3 :=
  let vi := vsub (wU k i) (lrd L i) in let vp := across (lq L i) vi in
  vscale (0.25 * norm vp * rho_w e * lCdn L * ldia L * at_node L (fun j => lF L k j * ll L j) i) vp.
Definition lDq (L : line) (e : envc) (k : wkin) (i : nat) : v3 :=
  let vi := vsub (wU k i) (lrd L i) in let vq := along (lq L i) vi in
  vscale (0.25 * norm vq * rho_w e * lCdt L * PI * ldia L * at_node L (fun j => lF L k j * ll L j) i) vq.
(** Froude-Krylov forces, l.1146-1166 *)
Definition lAp (L : line) (e : envc) (k : wkin) (i : nat) : v3 :=
  vscale (rho_w e * (1 + lCan L) * 0.5 * at_node L (fun j => lF L k j * lV L j) i) (across (lq L i) (wUd k i)).
Definition lAq (L : line) (e : envc) (k : wkin) (i : nat) : v3 :=
  vscale (rho_w e * (1 + lCat L) * 0.5 * at_node L (fun j => lF L k j * lV L j) i) (along (lq L i) (wUd k i)).
(** bottom contact and friction of a node of contact area [area] at [r] with velocity [rd],
    l.1168-1213; [abs] is the overload for floating point numbers *)
Definition bottom (e : envc) (area wd : R) (r rd : v3) : v3 :=
  if Rlt_dec (vz r) wd then
    let Bz := ((wd - vz r) * kb e - vz rd * cb e) * 0.5 * area in
    let FrictionMax := Rabs Bz * fric e in
    let BottomVel := sqrt (vx rd * vx rd + vy rd * vy rd) in
    let FrictionForce := BottomVel * fric e * fricDamp e in
    let FrictionForce := if Rlt_dec (statDyn e * FrictionMax) FrictionForce then FrictionMax else FrictionForce in
    if Req_EM_T BottomVel 0 then V3 0 0 Bz
    else V3 (- FrictionForce * vx rd / BottomVel) (- FrictionForce * vy rd / BottomVel) Bz
  else vzero.
Definition lB (L : line) (e : envc) (k : wkin) (i : nat) : v3 :=
  bottom e (ldia L * at_node L (ll L) i) (wdepth k (vx (lr L i)) (vy (lr L i))) (lr L i) (lrd L i).

(** the net force on a node given the segment forces, l.1215-1223 *)
Definition lFnet (L : line) (e : envc) (k : wkin) (T Td Bs : nat -> v3) (i : nat) : v3 :=
  let inner :=
    if Nat.eqb i 0 then vadd (T 0%nat) (Td 0%nat)
    else if Nat.eqb i (lN L) then vsub (vscale (-1) (T (i - 1)%nat)) (Td (i - 1)%nat)
    else vsub (vadd (vsub (T i) (T (i - 1)%nat)) (Td i)) (Td (i - 1)%nat) in
  vadd inner
    (vadd (vadd (vadd (vadd (lW L e k i) (vadd (vadd (vadd (lDp L e k i) (lDq L e k i)) (lAp L e k i)) (lAq L e k i)))
                      (lB L e k i)) (Bs i)) (lPb L e k i)).

(** Eigen's 3x3 inverse: the adjugate over the determinant *)
Definition mdet (m : m3) : R := dot (mr0 m) (cross (mr1 m) (mr2 m)).
Definition madj (m : m3) : m3 := mtr (M3 (cross (mr1 m) (mr2 m)) (cross (mr2 m) (mr0 m)) (cross (mr0 m) (mr1 m))).
Definition minv (m : m3) : m3 := mscale (/ mdet m) (madj m).
(** acceleration of an internal node, l.1238-1262 *)
Definition lacc (L : line) (e : envc) (k : wkin) (T Td Bs : nat -> v3) (i : nat) : v3 :=
  mmulv (minv (lM L e k i)) (lFnet L e k T Td Bs i).

(** all entries 0 .. n-1 of a vector of possibly undefined values *)
Fixpoint all_some (f : nat -> option v3) (n : nat) : bool :=
  match n with O => true | S n' => andb (all_some f n') (match f n' with Some _ => true | None => false end) end.
Definition force_or_zero (f : nat -> option v3) (i : nat) : v3 := match f i with Some v => v | None => vzero end.
(** Line::getStateDeriv, l.772-1264, for numeric positions: the net forces of all nodes (used for
    the accelerations and kept for the queries); [None] when some segment force is not a number *)
Definition line_forces (L : line) (e : envc) (k : wkin) : option (nat -> v3) :=
  if andb (all_some (lT L) (lN L)) (all_some (lTd L) (lN L)) then
    obnd (lBs L) (fun Bs => Some (lFnet L e k (force_or_zero (lT L)) (force_or_zero (lTd L)) Bs))
  else None.

(* ------------------------------ queries ------------------------------ *)
(** Line::getNodeTen, Line.hpp l.519-532 *)
Definition getNodeTen (L : line) (T Td : nat -> v3) (i : nat) : outcome v3 :=
  if Nat.ltb (lN L) i then Throw ExInvalidValue
  else Ok (if Nat.eqb i 0 then vadd (T 0%nat) (Td 0%nat)
           else if Nat.eqb i (lN L) then vadd (T (lN L - 1)%nat) (Td (lN L - 1)%nat)
           else vscale 0.5 (vadd (vadd (vadd (T i) (T (i - 1)%nat)) (Td i)) (Td (i - 1)%nat))).
(** MoorDyn_GetLineFairTen, Line.cpp l.1826-1832 *)
Definition getFairTen (L : line) (T Td : nat -> v3) : outcome R :=
  obind (getNodeTen L T Td (lN L)) (fun t => Ok (norm t)).
(** MoorDyn_GetLineMaxTen, Line.cpp l.1834-1846 *)
Fixpoint max_loop (L : line) (T Td : nat -> v3) (i : nat) : outcome R :=
  match i with
  | O => Ok 0
  | S i' => obind (max_loop L T Td i') (fun m =>
            obind (getNodeTen L T Td i') (fun t => Ok (if Rlt_dec m (norm t) then norm t else m)))
  end.
Definition getMaxTen (L : line) (T Td : nat -> v3) : outcome R := max_loop L T Td (lN L).
(** Line::isConstantEA and getConstantEA, Line.hpp l.412-425; setConstantEA l.427-433 *)
Definition isConstantEA (L : line) : bool := negb (Nat.eqb (length (lsx L)) 0).
Definition getConstantEA (L : line) : R := lE L * larea L.
Definition setConstantEA (L : line) (EA : R) : line :=
  Line (lN L) (ldia L) (larea L) (lrho L) (EA / larea L) (lEI L) (lc L) (lCan L) (lCat L) (lCdn L) (lCdt L)
    (lsx L) (lsy L) (lbx L) (lby L) (ldx L) (ldy L) (lisPb L) (lpin L) (lr L) (lrd L) (ll L) (lV L)
    (lcantA L) (lcantB L) (lqA L) (lqB L).
(** Line::getNodeSeabedForce, Line.hpp l.610-618 *)
Definition getNodeSeabedForce (L : line) (B Bs : nat -> v3) (i : nat) : outcome v3 :=
  if Nat.ltb (lN L) i then Throw ExInvalidValue else Ok (vadd (B i) (Bs i)).
