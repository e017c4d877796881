(** The setting up of waves and currents from the options: source/Waves.cpp l.246-507 (Waves::setup) and l.586-660
    (queries), Waves/WaveOptions.hpp, MoorDyn2.cpp l.88, l.541-561 (MoorDyn::Init), l.1637-1652 (end of the reading of
    the input) and l.2146-2164 (options). *)
From Coq Require Import List Arith ZArith Bool Reals.
From Verif Require Import MErr MVec MStateOps MNodes.
Import ListNotations.
Local Open Scope Z_scope.

(** The options as integers: the enumerations are cast from stoi (l.2147, l.2154), so any int can arrive.
    WAVES_NONE .. WAVES_SUM_COMPONENTS_NODE are 0 .. 7, CURRENTS_NONE .. CURRENTS_4D are 0 .. 5 (WaveOptions.hpp l.7-60) *)
Record options := Options { o_wave : Z; o_curr : Z; o_unify : bool }.
(** end of a call: it returns, or a failed assertion ends the program *)
Inductive fin := Returned | Aborted.

Section Setup.
(** Oracles: wave grids and current grids (what they are is modelled in MWaves, MFill, MCur), the flow they stand for,
    and the reading of the files, which depends on the depth in the environment. The file of the component sum gives
    the frequencies and the flow. unify adds a current of the given mode to a wave grid (MCur.unify). *)
Variables WG CG : Type.
Variable wfield : WG -> v3 -> R -> wkin.
Variable cfield : CG -> v3 -> R -> v3 * v3.
Variables fft_grid elev_grid : R -> outcome WG.
Variable components : R -> outcome (list R * (v3 -> R -> wkin)).
Variables steady dynamic grid4d : R -> outcome CG.
Variable unify : Z -> WG -> CG -> outcome WG.
(** built with NDEBUG: assertions are not compiled *)
Variable ndebug : bool.

(** waveKinematics, currentKinematics, waveGrid of Waves (Waves.hpp l.520-530) *)
Inductive wsource := FromGrid (g : WG) | FromSum (f : v3 -> R -> wkin).
Record wst := Wst { ws_wave : option wsource; ws_curr : option CG; ws_grid : option WG }.

(** the check of compatibility, Waves.cpp l.266-359: only whether it throws; l.335-349 write messages *)
Definition compatible (wm cm : Z) : bool :=
  if wm =? 0 then (cm =? 1) || (cm =? 2) || (cm =? 3) || (cm =? 4) || (cm =? 5)
  else if cm =? 0 then (wm =? 1) || (wm =? 2) || (wm =? 3) || (wm =? 5) || (wm =? 6) || (wm =? 7)
  else true.
(** l.353-380: waves *)
Definition setup_waves (depth : R) (wm : Z) (s : wst) : outcome wst :=
  if wm =? 7 then
    r <- components depth ;;
    match fst r with
    | [] => UB                                        (* waveSpectrum[0], l.362 *)
    | w :: _ => if Req_EM_T w 0 then Ok (Wst (Some (FromSum (snd r))) (ws_curr s) (ws_grid s)) else Throw ExInvalidValue
    end
  else if wm =? 2 then g <- fft_grid depth ;; Ok (Wst (ws_wave s) (ws_curr s) (Some g))
  else if wm =? 3 then g <- elev_grid depth ;; Ok (Wst (ws_wave s) (ws_curr s) (Some g))
  else Ok s.
(** l.382-477: currents; read is the constructor of the mode *)
Definition add_current (cm : Z) (un : bool) (read : outcome CG) (s : wst) : outcome wst :=
  c <- read ;;
  match ws_grid s, un with
  | Some g, true => g' <- unify cm g c ;; Ok (Wst (ws_wave s) (ws_curr s) (Some g'))
  | _, _ => Ok (Wst (ws_wave s) (Some c) (ws_grid s))
  end.
Definition setup_currents (depth : R) (cm : Z) (un : bool) (s : wst) : outcome wst :=
  if cm =? 1 then add_current cm un (steady depth) s
  else if cm =? 2 then add_current cm un (dynamic depth) s
  else if cm =? 5 then add_current cm un (grid4d depth) s
  else Ok s.
Definition some {A} (o : option A) : bool := match o with Some _ => true | None => false end.
(** the assertions, l.485-505 *)
Definition asserts (wm cm : Z) (s : wst) : bool :=
  negb (some (ws_grid s)) && xorb ((wm =? 0) || (wm =? 1)) (some (ws_wave s)) &&
  (if cm =? 0 then negb (some (ws_curr s)) else some (ws_wave s) || some (ws_curr s)).
(** Waves::setup; when it throws, what was set so far remains: simplification, the state left behind is the one after
    the reset of l.254-255, which nothing but another call of setup reads (the error is returned by the callers) *)
Definition setup (depth : R) (o : options) (s0 : wst) : wst * outcome fin :=
  let s := Wst None None (ws_grid s0) in
  let wm := o_wave o in let cm := o_curr o in
  if (wm =? 0) && (cm =? 0) then (s, Ok Returned)
  else if negb (compatible wm cm) then (s, Throw ExInvalidValue)
  else
    match (s1 <- setup_waves depth wm s ;; setup_currents depth cm (o_unify o) s1) with
    | Ok s2 =>
        let s3 := match ws_grid s2, ws_wave s2 with Some g, None => Wst (Some (FromGrid g)) (ws_curr s2) None | _, _ => s2 end in
        (s3, if ndebug || asserts wm cm s3 then Ok Returned else Ok Aborted)
    | Throw e => (s, Throw e) | UB => (s, UB) | Diverges => (s, Diverges)
    end.

(** env->WtrDpth while waves are set up, and after: MoorDyn2.cpp l.552-559 and l.1643-1650; floor is the average depth of
    the sea floor, if there is one (negative, as elevations are) *)
Definition setup_in_env (floor : option R) (depth : R) (o : options) (s : wst) : R * wst * outcome fin :=
  let d := match floor with Some f => (- f)%R | None => depth end in
  match setup d o s with
  | (s', Ok r) => (depth, s', Ok r)
  | (s', r) => (d, s', r)
  end.
(** both calls: waves are off when the input has been read (WaveKinTemp keeps the option, l.2147), on after the initial
    condition. between is the depth found by the second call *)
Definition reading (floor : option R) (depth : R) (o : options) : R * wst * outcome fin :=
  setup_in_env floor depth (Options 0 (o_curr o) (o_unify o)) (Wst None None None).
Definition simulation (floor : option R) (depth : R) (o : options) : R * wst * outcome fin :=
  match reading floor depth o with
  | (d, s, Ok Returned) => setup_in_env floor d o s
  | r => r
  end.

(** the flows kept, and Waves::getWaveKin, Waves.cpp l.604-660, at time t *)
Definition flow (w : wsource) : v3 -> R -> wkin := match w with FromGrid g => wfield g | FromSum f => f end.
Definition kin_at (s : wst) (p : v3) (t : R) : wkin :=
  match ws_wave s, ws_curr s with
  | None, None => wzero
  | w, c =>
      let a := match w with Some w => flow w p t | None => wzero end in
      let b := match c with Some c => cfield c p t | None => (vzero, vzero) end in
      Wk (w_zeta a) (vadd (w_u a) (fst b)) (vadd (w_ud a) (snd b)) (w_pdyn a)
  end.
(** Waves::getWaveHeightPoint, l.586-602: waveKinematics is dereferenced *)
Definition height_at (s : wst) (x y t : R) : outcome R :=
  match ws_wave s with Some w => Ok (w_zeta (flow w (V3 x y 0) t)) | None => UB end.
(** what updateWaves (MNodes.update_waves) works with *)
Definition as_waves (o : options) (s : wst) (nodek wavek : wtab) : waves :=
  Waves nodek wavek (o_wave o =? 1) (option_map flow (ws_wave s)) (option_map cfield (ws_curr s)).
End Setup.
