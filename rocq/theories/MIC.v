(** The generation of initial conditions: MoorDyn::icLegacy, MoorDyn::icStationary and their call in MoorDyn::Init
    (source/MoorDyn2.cpp l.188-330, l.332-405, l.527-540), scaleDrag of the objects (Line.hpp l.770, Rod.hpp l.422,
    Point.hpp l.318, Body.hpp l.356). Numbers are exact reals. The mooring system and its time scheme are any type
    with a step, a time, fairlead tensions and a residual. *)
From Coq Require Import Reals List Arith Bool.
From Verif Require Import MErr MVec MStateOps MStep.
Import ListNotations.
Open Scope R_scope.

(** Cdn, Cdt of the lines; pointCdA; Cdn, Cdt, CdEnd of the rods; bodyCdA *)
Record drags := Drags { d_lines : list (R * R); d_points : list R; d_rods : list (R * R * R); d_bodies : list v6 }.
(** scaleDrag on all the objects: Line.hpp l.770-775, Point.hpp l.318, Rod.hpp l.422-427, Body.hpp l.356; the calls in
    MoorDyn2.cpp l.199-206 and l.312-325 *)
Definition scale_drags (k : R) (d : drags) : drags :=
  Drags (map (fun c => (fst c * k, snd c * k)) (d_lines d)) (map (fun c => c * k) (d_points d))
        (map (fun c => match c with (a, b, e) => (a * k, b * k, e * k) end) (d_rods d)) (map (v6scale k) (d_bodies d)).

(** abs(a / b - 1.0) and its comparisons, MoorDyn2.cpp l.266-268: a finite value, infinity for b = 0, or NaN for 0 / 0 *)
Inductive ratio := Fin (x : R) | Inf | NaN.
Definition rel_error (a b : R) : ratio :=
  if Req_EM_T b 0 then (if Req_EM_T a 0 then NaN else Inf) else Fin (Rabs (a / b - 1)).
Definition gtb (e m : ratio) : bool :=
  match e, m with
  | Fin x, Fin y => Rltb y x
  | Inf, Fin _ => true
  | _, _ => false
  end.
(** the maximum over the lines and their previous tensions, l.261-272 *)
Definition worse (m : ratio) (ab : R * R) : ratio := let e := rel_error (fst ab) (snd ab) in if gtb e m then e else m.
Definition max_error (cur : list R) (last : list (list R)) : ratio :=
  fold_left (fun m cl => fold_left (fun m l => worse m (fst cl, l)) (snd cl) m) (combine cur last) (Fin 0).

(** convergence_iters, l.192 *)
Definition iters : nat := 9.
(** std::numeric_limits<real>::min() *)
Definition tiny : R := / (2 ^ 1022).
(** std::numeric_limits<real>::max() *)
Definition dbl_max : R := 2 ^ 1024 - 2 ^ 971.
(** how a loop ended: by its break, or by its condition *)
Inductive ending := Broke | TimedOut.

Section IC.
Variable X : Type.
(** Step with the drag coefficients of the objects, Next, Init, SetTime, GetTime, the norm of the tension at the last
    node of every line, and StationaryScheme::Error *)
Variables (stp : drags -> X -> R -> outcome X) (nxt : X -> X) (ini : X -> outcome X) (settime : X -> R -> X) (tim : X -> R) (ten : X -> list R) (err : X -> R).
Variables (dtM ICTmax ICthresh ICDfac : R).

(** the variables of icLegacy: the system, t, FairTens, FairTensLast, iic, converged *)
Record ics := Ics { i_sys : X; i_t : R; i_cur : list R; i_last : list (list R); i_iic : nat; i_conv : bool }.
(** Next and the inner loop, l.231-247: advance by ICdt. An exception of a step is caught and returned as an error. *)
Definition advance (fuel : nat) (d : drags) (dt : R) (xt : X * R) : outcome (X * R) :=
  sub_loop R (X * R) Rltb Rminus 0 (fun xt h => x' <- stp d (fst xt) h ;; Ok (x', tim x')) fuel dtM (nxt (fst xt), snd xt) dt.
(** l.250-254 *)
Definition roll (cur : list R) (last : list (list R)) : list (list R) := map (fun cl => fst cl :: firstn (iters - 1) (snd cl)) (combine cur last).
(** the body of the loop after the integration, l.249-288; true in the second component: break *)
Definition assess (s : ics) (x : X) (t : R) : ics * bool :=
  let last := roll (i_cur s) (i_last s) in
  let cur := ten x in
  if (iters <? i_iic s)%nat then
    let conv := negb (gtb (max_error cur last) (Fin ICthresh)) in
    if conv then (Ics x t cur last (i_iic s) true, true) else (Ics x t cur last (S (i_iic s)) false, false)
  else (Ics x t cur last (S (i_iic s)) (i_conv s), false).
(** the loop l.226-289. Simplification: iic is unbounded *)
Fixpoint relax (fuel : nat) (d : drags) (dt : R) (s : ics) : outcome (ics * ending) :=
  match fuel with
  | O => Diverges
  | S n =>
      if Rltb tiny (ICTmax - i_t s) then
        xt <- advance fuel d dt (i_sys s, i_t s) ;;
        let r := assess s (fst xt) (snd xt) in
        if snd r then Ok (fst r, Broke) else relax n d dt (fst r)
      else Ok (s, TimedOut)
  end.
(** icLegacy, l.188-330: the drag coefficients and ICdt it leaves behind, whether it returned by an error or not,
    and the system, the ending of the loop and the reported convergence if it did not.
    The best score and the messages are not modelled, except for the reported convergence *)
Definition ic0 (nl : nat) (x : X) : ics := Ics x 0 (repeat 0 nl) (repeat (map INR (seq 0 iters)) nl) 1 true.
Definition icLegacy (fuel : nat) (d : drags) (ICdt : R) (x : X) : drags * R * outcome (ics * ending) :=
  let dt1 := ICdt / INR (iters + 1) in
  match ini x with
  | Ok x1 =>
      let d1 := scale_drags ICDfac d in
      let dt2 := dt1 / INR (iters + 1) in
      match relax fuel d1 dt2 (ic0 (length (d_lines d)) x1) with
      | Ok (s, e) => (scale_drags (1 / ICDfac) d1, dt2, Ok (Ics (settime (i_sys s) 0) (i_t s) (i_cur s) (i_last s) (i_iic s) (i_conv s), e))
      | Throw ex => (d1, dt2, Throw ex)
      | UB => (d1, dt2, UB)
      | Diverges => (d1, dt2, Diverges)
      end
  | Throw ex => (d, dt1, Throw ex)
  | UB => (d, dt1, UB)
  | Diverges => (d, dt1, Diverges)
  end.

(** icStationary, l.332-405: the system, t, error and error0 *)
Record sts := Sts { s_sys : X; s_t : R; s_err : R; s_err0 : R }.
Definition sstep (d : drags) (s : sts) (h : R) : outcome sts :=
  x' <- stp d (s_sys s) h ;;
  Ok (Sts x' (tim x') (err x') (if Req_EM_T (s_t s) 0 then err x' else s_err0 s)).
(** l.390-393; a division by zero gives an infinity or a NaN, none of which is less than the threshold *)
Definition less_rel (a b : R) : bool := if Req_EM_T b 0 then false else Rltb (a / b) ICthresh.
Definition settled (prev : R) (s : sts) : bool :=
  (if Req_EM_T (s_err s) 0 then true else false) || less_rel (s_err s) (s_err0 s) || less_rel (Rabs (prev - s_err s)) prev.
Fixpoint settle (fuel : nat) (d : drags) (dt prev : R) (s : sts) : outcome (R * sts * ending) :=
  match fuel with
  | O => Diverges
  | S n =>
      if Rltb tiny (ICTmax - s_t s) then
        s' <- sub_loop R sts Rltb Rminus 0 (sstep d) fuel dtM (Sts (nxt (s_sys s)) (s_t s) (s_err s) (s_err0 s)) dt ;;
        if settled prev s' then Ok (prev, s', Broke) else settle n d dt (s_err s') s'
      else Ok (prev, s, TimedOut)
  end.
Definition icStationary (fuel : nat) (d : drags) (ICdt : R) (x : X) : outcome (R * sts * ending) :=
  x1 <- ini x ;; settle fuel d ICdt dbl_max (Sts x1 0 dbl_max dbl_max).

(** the choice of MoorDyn::Init, l.527-540: the drag coefficients it leaves and the system it starts from.
    The states found by icStationary are copied to the time scheme of the simulation, l.398 *)
Definition init_ic (fuel : nat) (skip dynamic : bool) (d : drags) (ICdt : R) (x : X) : drags * outcome X :=
  if skip then (d, x1 <- ini x ;; Ok (settime x1 0))
  else if dynamic then
    match icLegacy fuel d ICdt x with (d', _, r) => (d', se <- r ;; Ok (settime (i_sys (fst se)) 0)) end
  else (d, r <- icStationary fuel d ICdt x ;; Ok (settime (s_sys (snd (fst r))) 0)).
End IC.
