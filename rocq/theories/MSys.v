(** Mooring systems of lines and points: the objects behind the time integrator and the coupling step.
    Models TimeSchemeBase::Update and CalcStateDeriv (source/Time.cpp l.39-150) for systems without rods and bodies
    (other than the ground), Line::setState and setEndKinematics (Line.cpp l.658-707), the end of Line::getStateDeriv
    (l.1225-1264), Point::updateFairlead, setKinematics, setState, getStateDeriv (Point.cpp l.224-297), the limits of the
    stationary scheme (Time.cpp l.205-216) and Point::getFnet (Point.hpp l.279).
    These are the oracles of MScheme and MStep. Simplifications: doubles are exact reals; the kinematics of the water are a
    function of time and position ([sea], see MNodes and MWaves for where it comes from), so externally given waves are left
    out; forces that are not numbers, and masses without inverse (the code gets infinities), raise the error at once, which
    the code raises at the next evaluation (Line.cpp l.781-792). *)
From Coq Require Import Reals List Arith ZArith Bool.
From Verif Require Import MErr MVec MInterp MStateOps MMat MLine MRod MBody MScheme MCFL.
From Verif Require MStep MNodes.
Import ListNotations.
Open Scope R_scope.

(** a point with its attachments (index of the line and end) and its last net force, Point.hpp l.80-200 *)
Record spoint := SPoint { sp_type : ptype; sp_r : v3; sp_rd : v3; sp_M : R; sp_V : R; sp_F : v3; sp_CdA : R; sp_Ca : R;
  sp_att : list (nat * Z); sp_Fnet : v3 }.
Definition sp_move (p : spoint) (r rd : v3) : spoint :=
  SPoint (sp_type p) r rd (sp_M p) (sp_V p) (sp_F p) (sp_CdA p) (sp_Ca p) (sp_att p) (sp_Fnet p).
Definition sp_force (p : spoint) (F : v3) : spoint :=
  SPoint (sp_type p) (sp_r p) (sp_rd p) (sp_M p) (sp_V p) (sp_F p) (sp_CdA p) (sp_Ca p) (sp_att p) F.
(** lines, points, the time of the integrator, and what the stationary scheme needs: the Courant factor and the objects *)
Record net := Net { n_lines : list line; n_pts : list spoint; n_time : R; n_cfl : R; n_objs : list cfl_obj }.

(** the arrays r and rd of a line *)
Definition line_nodes (L : line) (r rd : nat -> v3) : line :=
  Line (lN L) (ldia L) (larea L) (lrho L) (lE L) (lEI L) (lc L) (lCan L) (lCat L) (lCdn L) (lCdt L)
    (lsx L) (lsy L) (lbx L) (lby L) (ldx L) (ldy L) (lisPb L) (lpin L) r rd (ll L) (lV L) (lcantA L) (lcantB L) (lqA L) (lqB L).
(** the lengths and volumes of the segments, Line.hpp l.375-382 *)
Definition line_lengths (L : line) (seg : list R) : line :=
  Line (lN L) (ldia L) (larea L) (lrho L) (lE L) (lEI L) (lc L) (lCan L) (lCat L) (lCdn L) (lCdt L)
    (lsx L) (lsy L) (lbx L) (lby L) (ldx L) (ldy L) (lisPb L) (lpin L) (lr L) (lrd L)
    (fun i => nth i seg 0) (fun i => nth i seg 0 * larea L) (lcantA L) (lcantB L) (lqA L) (lqB L).
Definition put_node (f : nat -> v3) (i : nat) (v : v3) : nat -> v3 := fun j => if Nat.eqb j i then v else f j.
(** Line::setEndKinematics, Line.cpp l.683-707 *)
Definition set_end (L : line) (ep : Z) (r rd : v3) : outcome line :=
  if Z.eqb ep ENDPOINT_B then Ok (line_nodes L (put_node (lr L) (lN L) r) (put_node (lrd L) (lN L) rd))
  else if Z.eqb ep ENDPOINT_A then Ok (line_nodes L (put_node (lr L) 0 r) (put_node (lrd L) 0 rd))
  else Throw ExInvalidValue.
(** Line::setState, Line.cpp l.658-681 *)
Definition set_inner (n : nat) (f : nat -> v3) (l : list v3) : nat -> v3 :=
  fun j => if andb (Nat.ltb 0 j) (Nat.ltb j n) then nth (j - 1) l vzero else f j.
Definition line_set_state (L : line) (s : lst) : outcome line :=
  if orb (negb (Nat.eqb (length (pos s)) (lN L - 1))) (negb (Nat.eqb (length (vel s)) (lN L - 1))) then Throw ExInvalidValue
  else Ok (line_nodes L (set_inner (lN L) (lr L) (pos s)) (set_inner (lN L) (lrd L) (vel s))).
(** for (auto a : attached) a.line->setEndKinematics(r, rd, a.end_point), Point.cpp l.237-239, l.256-258, l.275-277 *)
Fixpoint pass_ends (att : list (nat * Z)) (r rd : v3) (ls : list line) : outcome (list line) :=
  match att with
  | [] => Ok ls
  | (i, ep) :: att' => L <- vget ls i ;; L' <- set_end L ep r rd ;; ls' <- vset ls i L' ;; pass_ends att' r rd ls'
  end.
(** the kinematics of the points: coupled points from the vessel (Point::updateFairlead; [cs] are the coupled points in
    order), free points from the state (Point::setState; all points have an entry), fixed points stay where the ground body
    holds them *)
Fixpoint set_points (i : nat) (ps : list spoint) (cs : list MStep.cpt) (st : list pst) : outcome (list spoint) :=
  match ps with
  | [] => Ok []
  | p :: ps' =>
      match sp_type p with
      | PCoupled => match cs with
                    | [] => UB
                    | c :: cs' => r <- set_points (S i) ps' cs' st ;; Ok (sp_move p (MStep.p_r c) (MStep.p_rd c) :: r)
                    end
      | PFree => s <- vget st i ;; r <- set_points (S i) ps' cs st ;; Ok (sp_move p (pos s) (vel s) :: r)
      | PFixed => r <- set_points (S i) ps' cs st ;; Ok (p :: r)
      end
  end.
(** all the points hand their kinematics to the lines. An end of a line belongs to one point, so that the order of the points
    does not matter *)
Fixpoint pass_points (ps : list spoint) (ls : list line) : outcome (list line) :=
  match ps with [] => Ok ls | p :: ps' => ls' <- pass_ends (sp_att p) (sp_r p) (sp_rd p) ls ;; pass_points ps' ls' end.
Fixpoint set_lines (i : nat) (ls : list line) (st : list lst) : outcome (list line) :=
  match ls with [] => Ok [] | L :: ls' => s <- vget st i ;; L' <- line_set_state L s ;; r <- set_lines (S i) ls' st ;; Ok (L' :: r) end.
(** TimeSchemeBase::Update, Time.cpp l.39-89, after the coupled objects and the lengths (MStep.upd_sys) *)
Definition upd_net (e : MStep.sys net) (t l : R) (x : mst) : outcome net :=
  let n := MStep.e_rest _ e in
  ps <- set_points 0 (n_pts n) (MStep.e_pts _ e) (s_points x) ;;
  ls <- pass_points ps (n_lines n) ;; ls <- set_lines 0 ls (s_lines x) ;;
  Ok (Net ls ps t (n_cfl n) (n_objs n)).

Section Net.
Variable sea : R -> v3 -> MNodes.wkin.
Variable depth : R -> R -> R.
Variable ec : envc.

(** Waves::getWaveKinLine and Line::getWaterDepth at the nodes of a line *)
Definition line_water (t : R) (L : line) : wkin :=
  Wkin (fun i => MNodes.w_zeta (sea t (lr L i))) (fun i => MNodes.w_u (sea t (lr L i))) (fun i => MNodes.w_ud (sea t (lr L i)))
    (fun i => MNodes.w_pdyn (sea t (lr L i))) depth.
(** the nodes 1 .. N-1 *)
Definition inner_nodes {A} (L : line) (f : nat -> A) : list A := map f (seq 1 (lN L - 1)).
Definition invertible (m : m3) : bool := if Req_EM_T (mdet m) 0 then false else true.
(** Line::getStateDeriv, Line.cpp l.772-1264: the derivatives and what the line keeps for its ends *)
Definition line_calc (t : R) (L : line) : outcome (dlst * lineout) :=
  let k := line_water t L in
  match line_forces L ec k with
  | Some F => if forallb invertible (inner_nodes L (lM L ec k)) then Ok (Dr (inner_nodes L (lrd L)) (inner_nodes L (fun i => mmulv (minv (lM L ec k i)) (F i))), LineOut (lN L) F (lM L ec k) vzero vzero) else Throw ExNan
  | None => Throw ExNan
  end.
(** the lengths of the segments, kept by MStep *)
Fixpoint with_lengths (ls : list line) (us : list MStep.pline) : outcome (list line) :=
  match ls with
  | [] => Ok []
  | L :: ls' => match us with [] => UB | u :: us' => r <- with_lengths ls' us' ;; Ok (line_lengths L (MStep.u_seg u) :: r) end
  end.
(** the attached ends of a point *)
Definition point_of (p : spoint) (outs : list lineout) : outcome point :=
  a <- omap (fun ie : nat * Z => o <- vget outs (fst ie) ;; Ok (o, snd ie)) (sp_att p) ;;
  Ok (Point (sp_type p) (sp_r p) (sp_rd p) (sp_M p) (sp_V p) (sp_F p) (sp_CdA p) (sp_Ca p) a).
(** CalcStateDeriv for one point, Time.cpp l.105-112 and l.132-136: free points give a derivative, coupled points only their
    forces, fixed points nothing *)
Definition point_calc (t : R) (outs : list lineout) (p : spoint) (d : dpst) : outcome (spoint * dpst) :=
  match sp_type p with
  | PFixed => Ok (p, d)
  | PFree => q <- point_of p outs ;; FM <- point_rhs q ec (MNodes.w_u (sea t (sp_r p))) ;;
             if invertible (snd FM) then va <- point_deriv q ec (MNodes.w_u (sea t (sp_r p))) ;; Ok (sp_force p (fst FM), Dr (fst va) (snd va)) else Throw ExNan
  | PCoupled => q <- point_of p outs ;; FM <- point_rhs q ec (MNodes.w_u (sea t (sp_r p))) ;; Ok (sp_force p (fst FM), d)
  end.
(** TimeSchemeBase::CalcStateDeriv, Time.cpp l.91-150, with all masks true *)
Definition cal_net (e : MStep.sys net) (d : mdst) : outcome (net * mdst) :=
  let n := MStep.e_rest _ e in
  ls <- with_lengths (n_lines n) (MStep.e_lin _ e) ;;
  lo <- omap (line_calc (n_time n)) ls ;;
  if orb (negb (Nat.eqb (length (d_lines d)) (length lo))) (negb (Nat.eqb (length (d_points d)) (length (n_pts n)))) then UB
  else
    pd <- zipw (point_calc (n_time n) (map snd lo)) (n_pts n) (d_points d) ;;
    Ok (Net (n_lines n) (map fst pd) (n_time n) (n_cfl n) (n_objs n), Md (map fst lo) (map snd pd) (d_rods d) (d_bodies d)).
(** the limits of the stationary scheme, Time.cpp l.204-216: division by zero gives infinity, which limits nothing *)
Definition lim_net (e : MStep.sys net) (new_dt v : R) : R :=
  let n := MStep.e_rest _ e in
  if Req_EM_T v 0 then new_dt else fold_left (fun a ob => Rmin a (cfl2dt_v (n_cfl n) v ob)) (n_objs n) new_dt.
(** the forces on the coupled points, MoorDyn2.hpp l.525-530 *)
Definition is_coupled (p : spoint) : bool := match sp_type p with PCoupled => true | _ => false end.
Definition frc_net (e : MStep.sys net) : list v6 * list v6 * list v3 := ([], [], map sp_Fnet (filter is_coupled (n_pts (MStep.e_rest _ e)))).

(** MoorDyn::Init's coupled part and MoorDyn::Step for such a system. [conv] is the test of the Anderson scheme. Masked
    calculation and line failures are left out: see MTime and MDetach *)
Variable conv : mdst -> mdst -> bool.
Definition net_step (fuel : nat) := MStep.md_step mst mdst net system_ops upd_net cal_net lim_net (fun e _ => Ok (MStep.e_rest _ e)) conv
  (fun _ _ => Throw ExNonImplemented) frc_net fuel.
(** a sequence of coupling steps: all the forces returned *)
Fixpoint net_run (fuel : nat) (m : MStep.md mst mdst net) (calls : list (list R * list R * R)) : outcome (MStep.md mst mdst net * list (list R)) :=
  match calls with
  | [] => Ok (m, [])
  | (x, xd, dt) :: cs => mf <- net_step fuel m x xd dt ;; r <- net_run fuel (fst mf) cs ;; Ok (fst r, snd mf :: snd r)
  end.
End Net.

(** the mean of the absolute components of the residue of the Anderson scheme, Time.hpp l.1286-1290 and l.1297-1301; the
    residue is the difference of the accelerations, AndersonSchemeBase::fill, Time.hpp l.1352-1387. [conv] above compares it
    with a tolerance, and with the residue of the first iteration *)
Definition comps (v : v3) : list R := [Rabs (vx v); Rabs (vy v); Rabs (vz v)].
Definition residue_mean (x fx : mdst) : R :=
  let a := flat_map (fun s => dacc s) (d_lines x) ++ map dacc (d_points x) in
  let b := flat_map (fun s => dacc s) (d_lines fx) ++ map dacc (d_points fx) in
  let g := flat_map (fun ab => comps (vsub (snd ab) (fst ab))) (combine a b) in
  fold_left Rplus g 0 / INR (length g).
