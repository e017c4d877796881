(** The coupling step: MoorDyn::Init (part), MoorDyn::Step, GetForces, NCoupledDOF,
    AllOutput (source/MoorDyn2.cpp l.432-500, l.606-747, l.2278-2317; MoorDyn2.hpp l.144-154,
    l.486-532), with the parts of Body, Rod, Point and Line that it drives.
    Numbers are exact reals, except for the substep loop, which is written for any number
    type so that MStepF can run it on doubles. *)
From Coq Require Import Reals List Arith Bool ZArith.
From Verif Require Import MErr MVec MInterp MStateOps MScheme.
Import ListNotations.

(** the substep loop, MoorDyn2.cpp l.692-713:
    while ((dt_step = t_target) > 0) { if (dtM0 < dt_step) dt_step = dtM0; ...Step(dt_step);
    t_target -= dt_step; } *)
Section Loop.
Variables (T X : Type) (lt : T -> T -> bool) (sub : T -> T -> T) (zero : T) (stp : X -> T -> outcome X).
Fixpoint sub_loop (fuel : nat) (dtM : T) (x : X) (target : T) : outcome X :=
  match fuel with
  | O => Diverges
  | S n =>
      if lt zero target then
        let d := if lt dtM target then dtM else target in
        x' <- stp x d ;; sub_loop n dtM x' (sub target d)
      else Ok x
  end.
End Loop.
Definition Rltb (a b : R) : bool := if Rlt_dec a b then true else false.
(** the list of substeps done for a step dt *)
Definition substeps (fuel : nat) (dtM dt : R) : outcome (list R) :=
  sub_loop R (list R) Rltb Rminus 0%R (fun l d => Ok (l ++ [d])) fuel dtM [] dt.

Open Scope R_scope.
(** reading of x + ix into a vec or vec6 (Misc.hpp array2vec, array2vec6): past the end is UB *)
Definition rd3 (x : list R) (ix : nat) : outcome v3 :=
  a <- vget x ix ;; b <- vget x (ix + 1) ;; c <- vget x (ix + 2) ;; Ok (V3 a b c).
Definition rd6 (x : list R) (ix : nat) : outcome v6 := a <- rd3 x ix ;; b <- rd3 x (ix + 3) ;; Ok (V6 a b).
Definition lst3 (v : v3) : list R := [vx v; vy v; vz v].
Definition lst6 (v : v6) : list R := lst3 (v6hd v) ++ lst3 (v6tl v).

(** a coupled body or rod: [full] for type COUPLED (6 DOF), false for CPLDPIN (3 DOF);
    r_ves, rd_ves, rdd_ves, and the kinematics r7, v6, a6 they impose.
    Simplification: the position is kept as the 6 numbers given to XYZQuat::fromVec6; for
    CPLDPIN objects only the first three entries belong to this record, the rest is free *)
Record cobj := Cobj { full : bool; r_ves : v6; rd_ves : v6; rdd_ves : v6; c_pos : v6; c_vel : v6; c_acc : v6 }.
Definition set_hd (a b : v6) : v6 := V6 (v6hd b) (v6tl a).
(** Body::initiateStep, Body.cpp l.395-421; Rod::initiateStep, Rod.cpp l.459-481 *)
Definition initiate (b : cobj) (r rd rdd : v6) : cobj :=
  if full b then Cobj true r rd rdd (c_pos b) (c_vel b) (c_acc b)
  else Cobj false (set_hd (r_ves b) r) (set_hd (rd_ves b) rd) (set_hd (rdd_ves b) rdd) (c_pos b) (c_vel b) (c_acc b).
(** Body::updateFairlead, Body.cpp l.424-451; Rod::updateFairlead, Rod.cpp l.485-509 *)
Definition fairlead (time : R) (b : cobj) : cobj :=
  let p := v6add (r_ves b) (v6scale time (rd_ves b)) in
  if full b then Cobj true (r_ves b) (rd_ves b) (rdd_ves b) p (rd_ves b) (rdd_ves b)
  else Cobj false (r_ves b) (rd_ves b) (rdd_ves b) (set_hd (c_pos b) p) (set_hd (c_vel b) (rd_ves b)) (set_hd (c_acc b) (rdd_ves b)).
(** a coupled point: r_ves, rd_ves, r, rd; Point::initiateStep l.206-222, updateFairlead l.224-240 *)
Record cpt := Cpt { p_rves : v3; p_rdves : v3; p_r : v3; p_rd : v3 }.
Definition initiate_p (p : cpt) (r rd : v3) : cpt := Cpt r rd (p_r p) (p_rd p).
Definition fairlead_p (time : R) (p : cpt) : cpt :=
  Cpt (p_rves p) (p_rdves p) (vadd (p_rves p) (vscale time (p_rdves p))) (p_rdves p).
(** the unstretched length of a line: UnstrLen, UnstrLen0, UnstrLend, l; Line.hpp l.375-410 *)
Record pline := Pline { u_len : R; u_len0 : R; u_vel : R; u_seg : list R }.
Definition set_length (p : pline) (len : R) : pline :=
  Pline len (u_len0 p) (u_vel p) (map (fun _ => len / INR (length (u_seg p))) (u_seg p)).
Definition set_length_vel (p : pline) (v : R) : pline := Pline (u_len p) (u_len0 p) v (u_seg p).
Definition update_length (dt : R) (p : pline) : pline :=
  if Req_EM_T (u_vel p) 0 then p
  else if Req_EM_T dt 0 then Pline (u_len p) (u_len p) (u_vel p) (u_seg p)
  else set_length p (u_len0 p + dt * u_vel p).

(** DOF taken by one body or rod in Init, Step and GetForces *)
Definition dof (b : cobj) : nat := if full b then 6 else 3.
(** NCoupledDOF, MoorDyn2.hpp l.144-154 *)
Definition NCoupledDOF (bodies rods : list cobj) (points : list cpt) : nat :=
  6 * length bodies + 3 * length points + list_sum (map dof rods).

(** the loops over CpldBodyIs and CpldRodIs in Step, MoorDyn2.cpp l.636-682, and in Init,
    l.436-482 (where the acceleration is zero): entries from ix on are consumed *)
Fixpoint take_objs (acc : v6 -> v6 -> v6) (bs : list cobj) (x xd : list R) (ix : nat) : outcome (list cobj * nat) :=
  match bs with
  | [] => Ok ([], ix)
  | b :: bs' =>
      rr <- (if full b then r <- rd6 x ix ;; rd <- rd6 xd ix ;; Ok (r, rd)
             else r <- rd3 x ix ;; rd <- rd3 xd ix ;; Ok (V6 r vzero, V6 rd vzero)) ;;
      rest <- take_objs acc bs' x xd (ix + dof b) ;;
      Ok (initiate b (fst rr) (snd rr) (acc (snd rr) (rd_ves b)) :: fst rest, snd rest)
  end.
(** the loop over CpldPointIs, l.683-689 and l.484-505 *)
Fixpoint take_pts (ps : list cpt) (x xd : list R) (ix : nat) : outcome (list cpt * nat) :=
  match ps with
  | [] => Ok ([], ix)
  | p :: ps' =>
      r <- rd3 x ix ;; rd <- rd3 xd ix ;; rest <- take_pts ps' x xd (ix + 3) ;;
      Ok (initiate_p p r rd :: fst rest, snd rest)
  end.
(** GetForces, MoorDyn2.hpp l.486-532: the entries written to f, in order *)
Definition put_objs (bs : list cobj) (fs : list v6) : list R :=
  flat_map (fun bf => if full (fst bf) then lst6 (snd bf) else lst3 (v6hd (snd bf))) (combine bs fs).
Definition put_pts (fs : list v3) : list R := flat_map lst3 fs.

(** line failures, Misc.hpp FailProps: the time and the status *)
Record failure := Failure { f_time : R; f_done : bool }.

(** the gate of AllOutput, l.2284-2286: is a row written? *)
Definition rfloor (r : R) : Z := Int_part r.
Definition row_due (dtOut t dt : R) : bool :=
  if Rgt_dec dtOut 0 then if Rlt_dec t ((IZR (rfloor ((t - dt) / dtOut)) + 1) * dtOut) then false else true else true.

Section Step.
Variables (S D X : Type) (o : sops S D).
(** the objects driven by the coupling and everything else *)
Record sys := Sys { e_bod : list cobj; e_rod : list cobj; e_pts : list cpt; e_lin : list pline; e_rest : X }.
(** oracles for everything else: setState of the free objects, getStateDeriv, Courant limit,
    calculation mask, convergence test, detachLines of failure i, and the forces *)
Variable updX : sys -> R -> R -> S -> outcome X.
Variable calX : sys -> D -> outcome (X * D).
Variable limX : sys -> R -> R -> R.
Variable mskX : sys -> R -> outcome X.
Variable conv : D -> D -> bool.
Variable detX : nat -> sys -> outcome X.
Variable frcX : sys -> list v6 * list v6 * list v3.

Definition set_rest (e : sys) (x : X) := Sys (e_bod e) (e_rod e) (e_pts e) (e_lin e) x.
(** TimeSchemeBase::Update, Time.cpp l.39-89 *)
Definition upd_sys (e : sys) (t l : R) (x : S) : outcome sys :=
  let e1 := Sys (map (fairlead l) (e_bod e)) (map (fairlead l) (e_rod e)) (map (fairlead_p l) (e_pts e)) (map (update_length l) (e_lin e)) (e_rest e) in
  r <- updX e1 t l x ;; Ok (set_rest e1 r).
Definition cal_sys (e : sys) (d : D) : outcome (sys * D) := r <- calX e d ;; Ok (set_rest e (fst r), snd r).
Definition msk_sys (e : sys) (dt : R) : outcome sys := r <- mskX e dt ;; Ok (set_rest e r).
Notation ts := (tsch S D sys).
Definition ts_step (c : scheme) (s : ts) (dt : R) : outcome ts := step S D sys o upd_sys cal_sys limX msk_sys conv c s dt.
(** TimeScheme::Next, Time.hpp l.232-238 *)
Definition next (s : ts) : ts :=
  let e := env _ _ _ s in
  set_env _ _ _ (set_tl _ _ _ s 0) (Sys (e_bod e) (e_rod e) (e_pts e) (map (update_length 0) (e_lin e)) (e_rest e)).

(** a MoorDyn instance: the integrator with the objects, its scheme, dtM0, dtOut, FailList
    and the times of the rows in the main output file *)
Record md := Md { m_ts : ts; m_scheme : scheme; m_dtM : R; m_dtOut : R; m_fail : list failure; m_rows : list R }.

(** the forces written by GetForces *)
Definition get_forces (e : sys) : list R :=
  let '(fb, fr, fp) := frcX e in put_objs (e_bod e) fb ++ put_objs (e_rod e) fr ++ put_pts fp.
(** the loop over FailList, MoorDyn2.cpp l.717-735 *)
Fixpoint fail_loop (i : nat) (t : R) (fs : list failure) (e : sys) : outcome (list failure * sys) :=
  match fs with
  | [] => Ok ([], e)
  | f :: fs' =>
      if f_done f || Rltb (f_time f) t then
        r <- fail_loop (Datatypes.S i) t fs' e ;; Ok (f :: fst r, snd r)
      else
        x <- detX i e ;; r <- fail_loop (Datatypes.S i) t fs' (set_rest e x) ;; Ok (Failure (f_time f) true :: fst r, snd r)
  end.
(** coupled objects set up at the beginning of Step *)
Definition couple (e : sys) (x xd : list R) (dt : R) : outcome sys :=
  let acc rd old := v6scale (/ dt) (v6sub rd old) in
  b <- take_objs acc (e_bod e) x xd 0 ;; r <- take_objs acc (e_rod e) x xd (snd b) ;; p <- take_pts (e_pts e) x xd (snd r) ;;
  Ok (Sys (fst b) (fst r) (fst p) (e_lin e) (e_rest e)).
(** MoorDyn::Step: the new instance and the forces. Simplification: opened output file, no
    error in the output channels; messages are not modelled *)
Definition md_step (fuel : nat) (m : md) (x xd : list R) (dt : R) : outcome (md * list R) :=
  if Rle_dec dt 0 then Ok (m, get_forces (env _ _ _ (m_ts m)))
  else
    e <- couple (env _ _ _ (m_ts m)) x xd dt ;;
    s <- sub_loop R ts Rltb Rminus 0 (ts_step (m_scheme m)) fuel (m_dtM m) (next (set_env _ _ _ (m_ts m) e)) dt ;;
    let t := MScheme.tt _ _ _ s in
    fe <- fail_loop 0 t (m_fail m) (env _ _ _ s) ;;
    let rows := if row_due (m_dtOut m) t dt then m_rows m ++ [t] else m_rows m in
    Ok (Md (set_env _ _ _ s (snd fe)) (m_scheme m) (m_dtM m) (m_dtOut m) (fst fe) rows, get_forces (snd fe)).
(** the coupled part of MoorDyn::Init, l.432-505: initiateStep with zero acceleration and
    updateFairlead(0) *)
Definition md_init (m : md) (x xd : list R) : outcome md :=
  let e := env _ _ _ (m_ts m) in
  let acc (_ _ : v6) := v6zero in
  b <- take_objs acc (e_bod e) x xd 0 ;; r <- take_objs acc (e_rod e) x xd (snd b) ;; p <- take_pts (e_pts e) x xd (snd r) ;;
  Ok (Md (set_env _ _ _ (m_ts m) (Sys (map (fairlead 0) (fst b)) (map (fairlead 0) (fst r)) (map (fairlead_p 0) (fst p)) (e_lin e) (e_rest e)))
         (m_scheme m) (m_dtM m) (m_dtOut m) (m_fail m) (if row_due (m_dtOut m) 0 0 then m_rows m ++ [0] else m_rows m)).
End Step.
