(** Time integration schemes: source/Time.hpp, source/Time.cpp.
    The schemes are written against the state arithmetic [sops] (State.cpp, see
    MStateOps) and three oracles for the objects of the system: [upd] (applying times
    and a state to the objects, Time.cpp l.39-89), [cal] (asking the objects for the
    derivatives, l.91-150) and [lim] (the Courant limits of the stationary scheme,
    l.205-216). Theorems hold for all oracles unless they say otherwise.
    Numbers are exact reals. *)
From Coq Require Import Reals List Arith Bool.
From Verif Require Import MErr MVec MInterp MStateOps.
Import ListNotations.
Open Scope R_scope.

(** the operators of MoorDynState and DMoorDynStateDt *)
Record sops (S D : Type) := Sops {
  o_sadd : S -> S -> outcome S; o_ssub : S -> S -> outcome S; o_smix : S -> S -> R -> outcome S;
  o_scale : D -> R -> outcome S;
  o_dadd : D -> D -> outcome D; o_dsub : D -> D -> outcome D; o_dmix : D -> D -> R -> outcome D;
  o_newmark : D -> D -> R -> R -> R -> outcome D; o_wilson : D -> D -> R -> R -> outcome D;
  o_stat : D -> R -> outcome (R * D) }.
Arguments o_sadd {S D}. Arguments o_ssub {S D}. Arguments o_smix {S D}. Arguments o_scale {S D}.
Arguments o_dadd {S D}. Arguments o_dsub {S D}. Arguments o_dmix {S D}. Arguments o_newmark {S D}.
Arguments o_wilson {S D}. Arguments o_stat {S D}.

(** the operators of State.cpp *)
Definition system_ops : sops mst mdst :=
  Sops mst mdst madd_s msub_s mmix_s mscale_d madd_d msub_d mmix_d mnewmark_d mwilson_d mstat_d.

(** the available schemes with their parameters; constructors in Time.cpp *)
Inductive scheme :=
| Stationary | Euler | LocalEuler | Heun | RK2 | RK4
| AB (order : nat) (local : bool)
| ImplicitEuler (iters : nat) (dt_factor : R)
| AndersonEuler (iters : nat) (dt_factor : R)
| Newmark (iters : nat) (gamma beta : R)
| Wilson (iters : nat) (theta : R).

(** sizes of the arrays r and rd: the template arguments in Time.hpp (l.783, 840,
    948, 973, 998, 1026, 1057, 1395, 1432, 1470, 1515) *)
Definition nstate (c : scheme) : nat :=
  match c with Euler | LocalEuler | Heun | AB _ _ => 1 | RK4 => 5 | _ => 2 end.
Definition nderiv (c : scheme) : nat :=
  match c with Stationary | Euler | LocalEuler => 1 | Heun | RK2 | ImplicitEuler _ _ | AndersonEuler _ _ => 2
  | Newmark _ _ _ | Wilson _ _ => 3 | RK4 => 4 | AB _ _ => 5 end.

(** relaxation coefficients c0, c1: Time.cpp l.498-499, l.722-723, l.770-771 *)
Definition relax_c (c : scheme) : R * R :=
  match c with Newmark _ _ _ => (0.9, 0.15) | Wilson _ _ => (0.015, 0) | _ => (0.9, 0) end.
(** ImplicitSchemeBase::Relax, Time.cpp l.503-511 *)
Definition relax (iters : nat) (c01 : R * R) (iter : nat) : R :=
  let x := 4 * ((INR iter + 1) / INR iters - 0.5) in
  let y0 := 1 / INR iters in
  let y1 := 0.5 * (tanh x + 1) in
  fst c01 * (1 - y0) + snd c01 * (1 - y1).

Section Schemes.
Variables (S D Env : Type) (o : sops S D).
Variable upd : Env -> R -> R -> S -> outcome Env.
Variable cal : Env -> D -> outcome (Env * D).
Variable lim : Env -> R -> R -> R.
(** LocalTimeSchemeBase::SetCalcMask, modelled in detail in MLocal *)
Variable setmask : Env -> R -> outcome Env.
(** AndersonSchemeBase::converged, Time.hpp l.1286-1290, from the last residue *)
Variable conv : D -> D -> bool.

(** the fields of a TimeScheme: t and t_local (Time.hpp l.302-304), the arrays r and rd
    (l.750-753), n_steps (l.1110), _error and _booster (l.828-831); [env] are the objects *)
Record tsch := Ts { tt : R; tl : R; env : Env; rr : list S; rd : list D; nst : nat; err : R; boost : R }.

Definition set_t s x := Ts x (tl s) (env s) (rr s) (rd s) (nst s) (err s) (boost s).
Definition set_tl s x := Ts (tt s) x (env s) (rr s) (rd s) (nst s) (err s) (boost s).
Definition set_env s x := Ts (tt s) (tl s) x (rr s) (rd s) (nst s) (err s) (boost s).
Definition set_rr s x := Ts (tt s) (tl s) (env s) x (rd s) (nst s) (err s) (boost s).
Definition set_rd s x := Ts (tt s) (tl s) (env s) (rr s) x (nst s) (err s) (boost s).
Definition set_nst s x := Ts (tt s) (tl s) (env s) (rr s) (rd s) x (err s) (boost s).
Definition set_err s x := Ts (tt s) (tl s) (env s) (rr s) (rd s) (nst s) x (boost s).
Definition set_boost s x := Ts (tt s) (tl s) (env s) (rr s) (rd s) (nst s) (err s) x.

(** r[i] = x and rd[i] = x *)
Definition put_r s i x := l <- vset (rr s) i x ;; Ok (set_rr s l).
Definition put_d s i x := l <- vset (rd s) i x ;; Ok (set_rd s l).
(** Update(t_local, substep), Time.cpp l.39-89 *)
Definition update (s : tsch) (dtl : R) (i : nat) : outcome tsch :=
  x <- vget (rr s) i ;; e <- upd (env s) (tt s) (dtl + tl s) x ;; Ok (set_env s e).
(** CalcStateDeriv(substep), Time.cpp l.91-150; entries that the objects do not write
    keep their former value, so [cal] receives it *)
Definition calc (s : tsch) (i : nat) : outcome tsch :=
  d <- vget (rd s) i ;; ed <- cal (env s) d ;; put_d (set_env s (fst ed)) i (snd ed).
(** r[dst] = r[a] + rd[d] * k *)
Definition axpy (s : tsch) (dst a d : nat) (k : R) : outcome tsch :=
  x <- vget (rr s) a ;; y <- vget (rd s) d ;; z <- o_scale o y k ;; w <- o_sadd o x z ;; put_r s dst w.
(** rd[dst] = rd[src] *)
Definition copy_d (s : tsch) (dst src : nat) : outcome tsch := y <- vget (rd s) src ;; put_d s dst y.
(** rd[a].Mix(rd[b], f) *)
Definition mix_d (s : tsch) (a b : nat) (f : R) : outcome tsch :=
  x <- vget (rd s) a ;; y <- vget (rd s) b ;; z <- o_dmix o x y f ;; put_d s a z.
(** the end of every Step: Update(dt, 0); TimeSchemeBase::Step(dt) (Time.hpp l.254, 568) *)
Definition finish (s : tsch) (dt : R) : outcome tsch :=
  s <- update s dt 0 ;; Ok (set_tl s (tl s + dt)).

(** EulerScheme::Step, Time.cpp l.231-240 *)
Definition step_euler (s : tsch) (dt : R) : outcome tsch :=
  s <- update s 0 0 ;; s <- calc s 0 ;; s <- axpy s 0 0 0 dt ;; finish (set_t s (tt s + dt)) dt.
(** LocalEulerScheme::Step, l.336-346 *)
Definition step_leuler (s : tsch) (dt : R) : outcome tsch :=
  e <- setmask (env s) dt ;; step_euler (set_env s e) dt.
(** HeunScheme::Step, l.354-369 *)
Definition step_heun (s : tsch) (dt : R) : outcome tsch :=
  s <- axpy s 0 0 0 dt ;; s <- copy_d s 1 0 ;; s <- update s 0 0 ;; s <- calc s 0 ;;
  a <- vget (rd s) 0 ;; b <- vget (rd s) 1 ;; d <- o_dsub o a b ;; z <- o_scale o d (0.5 * dt) ;;
  x <- vget (rr s) 0 ;; w <- o_sadd o x z ;; s <- put_r s 0 w ;;
  finish (set_t s (tt s + dt)) dt.
(** RK2Scheme::Step, l.377-393 *)
Definition step_rk2 (s : tsch) (dt : R) : outcome tsch :=
  s <- update s 0 0 ;; s <- calc s 0 ;;
  s <- axpy (set_t s (tt s + 0.5 * dt)) 1 0 0 (0.5 * dt) ;;
  s <- update s (0.5 * dt) 1 ;; s <- calc s 1 ;;
  s <- axpy s 0 0 1 dt ;; finish (set_t s (tt s + 0.5 * dt)) dt.
(** RK4Scheme::Step, l.401-431 *)
Definition step_rk4 (s : tsch) (dt : R) : outcome tsch :=
  s <- update s 0 0 ;; s <- calc s 0 ;;
  s <- axpy (set_t s (tt s + 0.5 * dt)) 1 0 0 (0.5 * dt) ;; s <- update s (0.5 * dt) 1 ;; s <- calc s 1 ;;
  s <- axpy s 1 0 1 (0.5 * dt) ;; s <- update s (0.5 * dt) 1 ;; s <- calc s 2 ;;
  s <- axpy (set_t s (tt s + 0.5 * dt)) 2 0 2 dt ;; s <- update s dt 2 ;; s <- calc s 3 ;;
  d0 <- vget (rd s) 0 ;; d1 <- vget (rd s) 1 ;; d2 <- vget (rd s) 2 ;; d3 <- vget (rd s) 3 ;;
  x <- vget (rr s) 0 ;;
  d03 <- o_dadd o d0 d3 ;; z <- o_scale o d03 (dt / 6) ;; w <- o_sadd o x z ;;
  d12 <- o_dadd o d1 d2 ;; z' <- o_scale o d12 (dt / 3) ;; w' <- o_sadd o w z' ;;
  s <- put_r s 0 w' ;; finish s dt.

(** r = r + rd[i] * k and r = r - rd[i] * k, parts of an Adams-Bashforth formula *)
Definition plus_d (s : tsch) (x : S) (i : nat) (k : R) : outcome S :=
  y <- vget (rd s) i ;; z <- o_scale o y k ;; o_sadd o x z.
Definition minus_d (s : tsch) (x : S) (i : nat) (k : R) : outcome S :=
  y <- vget (rd s) i ;; z <- o_scale o y k ;; o_ssub o x z.
(** ABScheme::shift(), Time.hpp l.1150-1154: for (i = 0; i < 4; i++) shift(i), upwards.
    Simplification: the mask of shift(org) (l.1115-1146) is all true, as it is for the
    non-local schemes, the only ones create_time_scheme makes *)
Definition ab_shift (s : tsch) : outcome tsch :=
  s <- copy_d s 1 0 ;; s <- copy_d s 2 1 ;; s <- copy_d s 3 2 ;; copy_d s 4 3.
(** the formulas of ABScheme::Step, Time.cpp l.462-483 *)
Definition ab_formula (s : tsch) (x : S) (dt : R) : outcome S :=
  match nst s with
  | 0%nat => plus_d s x 0 dt
  | 1%nat => x <- plus_d s x 0 (dt * 1.5) ;; minus_d s x 1 (dt * 0.5)
  | 2%nat => x <- plus_d s x 0 (dt * 23 / 12) ;; x <- minus_d s x 1 (dt * 4 / 3) ;; plus_d s x 2 (dt * 5 / 12)
  | 3%nat => x <- plus_d s x 0 (dt * 55 / 24) ;; x <- minus_d s x 1 (dt * 59 / 24) ;;
             x <- plus_d s x 2 (dt * 37 / 24) ;; minus_d s x 3 (dt * 3 / 8)
  | _ => x <- plus_d s x 0 (dt * 1901 / 720) ;; x <- minus_d s x 1 (dt * 1387 / 360) ;;
         x <- plus_d s x 2 (dt * 109 / 30) ;; x <- minus_d s x 3 (dt * 637 / 360) ;; plus_d s x 4 (dt * 251 / 720)
  end.
(** ABScheme::Step, Time.cpp l.451-490 *)
Definition step_ab (order : nat) (local : bool) (s : tsch) (dt : R) : outcome tsch :=
  s <- update s 0 0 ;; s <- ab_shift s ;;
  s <- (if local && (nst s =? order)%nat then e <- setmask (env s) dt ;; Ok (set_env s e) else Ok s) ;;
  s <- calc s 0 ;;
  x <- vget (rr s) 0 ;; x <- ab_formula s x dt ;; s <- put_r s 0 x ;;
  finish (set_t (set_nst s (Nat.min (nst s + 1) order)) (tt s + dt)) dt.

(** the loop of ImplicitEulerScheme::Step, l.650-661; [n] iterations left, i = iters - n *)
Fixpoint ie_loop (iters : nat) (c : R * R) (k dt : R) (n : nat) (s : tsch) : outcome tsch :=
  match n with
  | O => Ok s
  | Datatypes.S n' =>
      s <- axpy s 1 0 0 (k * dt) ;; s <- update s (k * dt) 1 ;; s <- calc s 0 ;;
      s <- (if (0 <? n')%nat then s <- mix_d s 0 1 (relax iters c (iters - n)) ;; copy_d s 1 0 else Ok s) ;;
      ie_loop iters c k dt n' s
  end.
(** ImplicitEulerScheme::Step, l.646-669 *)
Definition step_ie (iters : nat) (c : R * R) (k : R) (s : tsch) (dt : R) : outcome tsch :=
  s <- copy_d (set_t s (tt s + k * dt)) 1 0 ;; s <- ie_loop iters c k dt iters s ;;
  s <- axpy s 0 0 0 dt ;; finish (set_t s (tt s + (1 - k) * dt)) dt.
(** the loop of AndersonEulerScheme::Step, l.687-699, with the part of qr (l.529-563) that
    is executed: it always ends with the relaxation of l.556 or l.561 *)
Fixpoint an_loop (iters : nat) (c : R * R) (k dt : R) (n : nat) (s : tsch) : outcome tsch :=
  match n with
  | O => Ok s
  | Datatypes.S n' =>
      s <- axpy s 1 0 0 (k * dt) ;; s <- update s (k * dt) 1 ;; s <- calc s 0 ;;
      x <- vget (rd s) 1 ;; fx <- vget (rd s) 0 ;;
      s <- (if (0 <? n')%nat then s <- mix_d s 0 1 (relax iters c (iters - n)) ;; copy_d s 1 0 else Ok s) ;;
      if conv x fx then Ok s else an_loop iters c k dt n' s
  end.
(** AndersonEulerScheme::Step, l.684-707 *)
Definition step_an (iters : nat) (c : R * R) (k : R) (s : tsch) (dt : R) : outcome tsch :=
  s <- an_loop iters c k dt iters (set_t s (tt s + k * dt)) ;;
  s <- axpy s 0 0 0 dt ;; finish (set_t s (tt s + (1 - k) * dt)) dt.

(** r[1] = r[0] + rd[0].Newmark(rd[1], dt, gamma, beta) * dt *)
Definition nm_apply (g b dt : R) (s : tsch) : outcome tsch :=
  x <- vget (rr s) 0 ;; d0 <- vget (rd s) 0 ;; d1 <- vget (rd s) 1 ;;
  d <- o_newmark o d0 d1 dt g b ;; z <- o_scale o d dt ;; w <- o_sadd o x z ;; put_r s 1 w.
(** the loop of ImplicitNewmarkScheme::Step, l.735-749 *)
Fixpoint nm_loop (iters : nat) (c : R * R) (g b dt : R) (n : nat) (s : tsch) : outcome tsch :=
  match n with
  | O => Ok s
  | Datatypes.S n' =>
      s <- nm_apply g b dt s ;; s <- update s dt 1 ;; s <- calc s 1 ;;
      s <- (if (0 <? n')%nat then s <- mix_d s 1 2 (relax iters c (iters - n)) ;; copy_d s 2 1 else Ok s) ;;
      nm_loop iters c g b dt n' s
  end.
(** r[0] = r[1]; rd[0] = rd[1] *)
Definition accept (s : tsch) : outcome tsch := x <- vget (rr s) 1 ;; s <- put_r s 0 x ;; copy_d s 0 1.
(** ImplicitNewmarkScheme::Step, l.726-757 *)
Definition step_nm (iters : nat) (c : R * R) (g b : R) (s : tsch) (dt : R) : outcome tsch :=
  s <- copy_d s 1 0 ;; s <- copy_d (set_t s (tt s + dt)) 2 0 ;; s <- nm_loop iters c g b dt iters s ;;
  s <- nm_apply g b dt s ;; s <- accept s ;; finish s dt.

(** r[1] = r[0] + rd[0].Wilson(rd[1], tau, tdt) * tau *)
Definition wi_apply (tau tdt : R) (s : tsch) : outcome tsch :=
  x <- vget (rr s) 0 ;; d0 <- vget (rd s) 0 ;; d1 <- vget (rd s) 1 ;;
  d <- o_wilson o d0 d1 tau tdt ;; z <- o_scale o d tau ;; w <- o_sadd o x z ;; put_r s 1 w.
(** the loop of ImplicitWilsonScheme::Step, l.779-793 *)
Fixpoint wi_loop (iters : nat) (c : R * R) (tdt : R) (n : nat) (s : tsch) : outcome tsch :=
  match n with
  | O => Ok s
  | Datatypes.S n' =>
      s <- wi_apply tdt tdt s ;; s <- update s tdt 1 ;; s <- calc s 1 ;;
      s <- (if (0 <? n')%nat then s <- mix_d s 0 1 (relax iters c (iters - n)) ;; copy_d s 1 0 else Ok s) ;;
      wi_loop iters c tdt n' s
  end.
(** ImplicitWilsonScheme::Step, l.774-803: t -= (1 - theta) * dt *)
Definition step_wi (iters : nat) (c : R * R) (theta : R) (s : tsch) (dt : R) : outcome tsch :=
  let tdt := theta * dt in
  s <- copy_d (set_t s (tt s + tdt)) 1 0 ;; s <- wi_loop iters c tdt iters s ;;
  s <- wi_apply dt tdt (set_t s (tt s - (1 - theta) * dt)) ;; s <- accept s ;; finish s dt.

(** rd[0].MakeStationary(dt) with the error stored in _error *)
Definition make_stat (s : tsch) (dt : R) : outcome tsch :=
  d <- vget (rd s) 0 ;; ed <- o_stat o d dt ;; s <- put_d s 0 (snd ed) ;; Ok (set_err s (fst ed)).
(** StationaryScheme::Step, l.176-223 *)
Definition step_st (s : tsch) (dt : R) : outcome tsch :=
  s <- update s 0 0 ;; s <- calc s 0 ;;
  let prev := err s in
  s <- make_stat s dt ;;
  s <- (if Req_EM_T prev 0 then Ok s
        else if Rge_dec prev (err s) then Ok (set_boost s (boost s * 1.01))
        else
          let s := set_boost s (boost s / 1.01) in
          x <- vget (rr s) 0 ;; y <- vget (rr s) 1 ;; z <- o_smix o x y 0.5 ;; s <- put_r s 0 z ;;
          s <- update s 0 0 ;; s <- calc s 0 ;; make_stat s dt) ;;
  let s := if Rgt_dec (boost s) 50 then set_boost s 50
           else if Rlt_dec (boost s) 0.1 then set_boost s 0.1 else s in
  let new_dt := lim (env s) (boost s * dt) (0.5 * dt * err s) in
  x <- vget (rr s) 0 ;; s <- put_r s 1 x ;;
  s <- axpy s 0 0 0 new_dt ;; finish (set_t s (tt s + dt)) dt.

(** TimeScheme::Step dispatch *)
Definition step (c : scheme) (s : tsch) (dt : R) : outcome tsch :=
  match c with
  | Stationary => step_st s dt
  | Euler => step_euler s dt
  | LocalEuler => step_leuler s dt
  | Heun => step_heun s dt
  | RK2 => step_rk2 s dt
  | RK4 => step_rk4 s dt
  | AB order local => step_ab order local s dt
  | ImplicitEuler n k => step_ie n (relax_c c) k s dt
  | AndersonEuler n k => step_an n (relax_c c) k s dt
  | Newmark n g b => step_nm n (relax_c c) g b s dt
  | Wilson n th => step_wi n (relax_c c) th s dt
  end.
End Schemes.
