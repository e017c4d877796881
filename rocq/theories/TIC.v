(** C97: the initial condition computed before the simulation. *)
From Coq Require Import Reals List Arith Bool Lra Lia.
From Verif Require Import MErr MVec MStateOps MStep SStep MIC SIC PIC PICb PICc.
Import ListNotations.
Open Scope R_scope.

(** Any system, steps, settings and start: if the steps succeed, the dynamic relaxation ends. *)
Theorem C97_ends : forall X stp nxt ini settime tim ten dtM TmaxIC thresh CdScale d dtIC x x1,
  0 < dtM -> 0 < dtIC -> clock X stp nxt tim settime -> runs X stp -> ini x = Ok x1 -> tim x1 = 0 ->
  exists fuel0, forall fuel, (fuel0 <= fuel)%nat -> exists d' dt' s e,
    icLegacy X stp nxt ini settime tim ten dtM TmaxIC thresh CdScale fuel d dtIC x = (d', dt', Ok (s, e)).
Proof. exact legacy_ends. Qed.
Print Assumptions C97_ends.

(** When it ends: the clock is zero, no more than TmaxIC and a hundredth of dtIC was simulated, and less than TmaxIC
    only if the tensions were found converged, after a tenth of dtIC at least. If TmaxIC was reached, convergence is
    reported only if there were less than ten comparisons. *)
Theorem C97_time : forall X stp nxt ini settime tim ten dtM TmaxIC thresh CdScale fuel d dtIC x d' dt' s e,
  0 < dtM -> 0 < dtIC -> clock X stp nxt tim settime -> (forall x1, ini x = Ok x1 -> tim x1 = 0) ->
  icLegacy X stp nxt ini settime tim ten dtM TmaxIC thresh CdScale fuel d dtIC x = (d', dt', Ok (s, e)) ->
  tim (i_sys X s) = 0 /\ (i_t X s = 0 \/ i_t X s < TmaxIC + dtIC / 100) /\ (e = TimedOut -> TmaxIC - i_t X s <= tiny) /\
  (e = Broke -> i_conv X s = true /\ dtIC / 10 <= i_t X s) /\ (e = TimedOut -> i_conv X s = true -> i_t X s <= 9 / 100 * dtIC).
Proof. exact legacy_time. Qed.
Print Assumptions C97_time.

(** What converged means: the system handed over and the nine before it, each a hundredth of dtIC of simulation after
    the one before, with the drag coefficients times CdScaleIC, have the same fairlead tensions to within threshIC. *)
Theorem C97_converged_partial : forall X stp nxt ini settime tim ten dtM TmaxIC thresh CdScale fuel d dtIC x d' dt' s,
  0 < dtM -> 0 < dtIC -> 0 <= thresh -> (forall x, length (ten x) = length (d_lines d)) ->
  icLegacy X stp nxt ini settime tim ten dtM TmaxIC thresh CdScale fuel d dtIC x = (d', dt', Ok (s, Broke)) ->
  exists ds h x1, drag_times CdScale d ds /\ length h = 10%nat /\ chained X stp nxt dtM ds (dtIC / 100) h /\ hd_error h = Some x1 /\ i_sys X s = settime x1 0 /\
  forall y l, In y h -> (l < length (d_lines d))%nat -> within thresh (nth l (ten x1) 0) (nth l (ten y) 0).
Proof.
  intros X stp nxt ini settime tim ten dtM TmaxIC thresh CdScale fuel d dtIC x d' dt' s H1 H2 H3 H4 H5. destruct (legacy_accepts X stp nxt ini settime tim ten dtM TmaxIC thresh CdScale fuel d dtIC x d' dt' s H1 H2 H3 H4 H5) as (h & x1 & K).
  exists (scale_drags CdScale d), h, x1. split; [apply scale_times|exact K].
Qed.
Print Assumptions C97_converged_partial.

(** The documents say that the system must be converged for a time dtIC. It need not: convergence can be found before
    that time has been simulated at all. *)
Theorem C97_period_refuted : ~ (forall X stp nxt ini settime tim ten dtM TmaxIC thresh CdScale fuel d dtIC x d' dt' s,
  0 < dtM -> 0 < dtIC -> dtIC <= TmaxIC -> 0 < thresh -> clock X stp nxt tim settime -> runs X stp ->
  (forall x, length (ten x) = length (d_lines d)) -> (forall x1, ini x = Ok x1 -> tim x1 = 0) ->
  icLegacy X stp nxt ini settime tim ten dtM TmaxIC thresh CdScale fuel d dtIC x = (d', dt', Ok (s, Broke)) ->
  dtIC <= i_t X s).
Proof.
  intro H. destruct (slow_accepted 0) as (s & E & Et).
  unfold slow_legacy in E. apply H in E; [lra|lra..|exact slow_clock|exact slow_runs|reflexivity|congruence].
Qed.
Print Assumptions C97_period_refuted.

(** That system: accepted after 0.1 s, its tension changes by ten times the threshold in the time dtIC = 1 s. *)
Example C97_period_case : forall fuel, exists s, slow_legacy 120 (20 + fuel) slow_drags 1 0 = (slow_drags, 1 / 100, Ok (s, Broke)) /\ i_t R s = 1 / 10 /\
  ~ within (9 / 1000) (nth 0 (slow_ten 1) 0) (nth 0 (slow_ten 0) 0).
Proof.
  intro fuel. destruct (slow_accepted fuel) as (s & E & Et). exists s. split; [exact E|]. split; [exact Et|]. unfold within, slow_ten. cbn.
  replace (100 + 1 - (100 + 0)) with 1 by lra. rewrite !Rabs_pos_eq by lra. lra.
Qed.

(** Convergence is reported although no tensions were ever compared, whenever TmaxIC is not positive. *)
Theorem C97_report_refuted : ~ (forall X stp nxt ini settime tim ten dtM TmaxIC thresh CdScale fuel d dtIC x d' dt' s e,
  0 < dtM -> 0 < dtIC -> clock X stp nxt tim settime -> runs X stp -> (forall x, length (ten x) = length (d_lines d)) ->
  icLegacy X stp nxt ini settime tim ten dtM TmaxIC thresh CdScale fuel d dtIC x = (d', dt', Ok (s, e)) -> i_conv X s = true -> e = Broke).
Proof.
  intro H. pose proof tiny_pos as HT.
  assert (E : slow_legacy 0 1 slow_drags 1 0 = (slow_drags, 1 / 100, Ok (ic0 R 1 0, TimedOut))).
  { unfold slow_legacy, icLegacy. rewrite dt_100, scale_back by lra. cbn [relax ic0 i_t]. unfold Rltb. destruct (Rlt_dec tiny (0 - 0)); [lra|]. reflexivity. }
  unfold slow_legacy in E. apply H in E; [discriminate|lra..|exact slow_clock|exact slow_runs|reflexivity|reflexivity].
Qed.
Print Assumptions C97_report_refuted.

(** The drag coefficients of all objects are the given ones after a success; after a failure they are those, or those
    times CdScaleIC. *)
Theorem C97_drag : forall X stp nxt ini settime tim ten dtM TmaxIC thresh CdScale fuel d dtIC x d' dt' r, CdScale <> 0 ->
  icLegacy X stp nxt ini settime tim ten dtM TmaxIC thresh CdScale fuel d dtIC x = (d', dt', r) ->
  match r with Ok _ => d' = d | _ => d' = d \/ drag_times CdScale d d' end.
Proof.
  intros X stp nxt ini settime tim ten dtM TmaxIC thresh CdScale fuel d dtIC x d' dt' r H1 H2. pose proof (legacy_drag X stp nxt ini settime tim ten dtM TmaxIC thresh CdScale fuel d dtIC x d' dt' r H1 H2) as K.
  destruct r; [exact K|destruct K as [K|K]; [now left|right; rewrite K; apply scale_times]..].
Qed.
Print Assumptions C97_drag.
Example C97_drag_case : fst (fst (icLegacy unit (fun _ _ _ => Throw ExNan) (fun x => x) (fun x => Ok x) (fun x _ => x) (fun _ => 0) (fun _ => []) 1 120 (1 / 1000) 5 1 (Drags [(1, 2)] [3] [] []) 1 tt)) =
  Drags [(1 * 5, 2 * 5)] [3 * 5] [] [].
Proof.
  unfold icLegacy. rewrite dt_100. cbn [relax ic0 i_t]. pose proof tiny_small as HT. unfold Rltb. destruct (Rlt_dec tiny (120 - 0)) as [_|N]; [|lra].
  unfold advance. cbn [sub_loop]. unfold Rltb. destruct (Rlt_dec 0 (1 / 100)) as [_|N]; [|lra]. cbn. reflexivity.
Qed.

(** The whole: with a static or a dynamic solver or none, the simulation starts at time zero with the given drag. *)
Theorem C97_init : forall X stp nxt ini settime tim ten err dtM TmaxIC thresh CdScale fuel skip dyn d dtIC x d' x',
  clock X stp nxt tim settime -> CdScale <> 0 ->
  init_ic X stp nxt ini settime tim ten err dtM TmaxIC thresh CdScale fuel skip dyn d dtIC x = (d', Ok x') -> d' = d /\ tim x' = 0.
Proof. exact init_spec. Qed.
Print Assumptions C97_init.
Example C97_init_case : forall fuel, exists x', init_ic R slow_stp (fun x => x) (fun x => Ok x) (fun _ t => t) (fun x => x) slow_ten (fun _ => 5) 1 120 (1 / 1000) 5 (20 + fuel) false true slow_drags 1 0 = (slow_drags, Ok x').
Proof. intro fuel. destruct (slow_accepted fuel) as (s & E & _). unfold slow_legacy in E. unfold init_ic. rewrite E. cbn. eauto. Qed.

(** The static solver ends, after at most TmaxIC and dtIC of simulation; before TmaxIC only by its criteria. *)
Theorem C97_static_ends : forall X stp nxt ini settime tim err dtM TmaxIC thresh d dtIC x x1,
  0 < dtM -> 0 < dtIC -> clock X stp nxt tim settime -> runs X stp -> ini x = Ok x1 -> tim x1 = 0 ->
  exists fuel0, forall fuel, (fuel0 <= fuel)%nat -> exists prev s e,
    icStationary X stp nxt ini tim err dtM TmaxIC thresh fuel d dtIC x = Ok (prev, s, e) /\ (s_t X s = 0 \/ s_t X s < TmaxIC + dtIC) /\
    (e = TimedOut -> TmaxIC - s_t X s <= tiny).
Proof. exact stationary_ends. Qed.
Print Assumptions C97_static_ends.

(** It accepts a residual of zero, one below the fraction threshIC of that of the first step, or one that changed by
    less than the fraction threshIC in the last dtIC. *)
Theorem C97_static_partial : forall X stp nxt ini settime tim err dtM TmaxIC thresh fuel d dtIC x prev s,
  0 < dtM -> 0 < dtIC -> clock X stp nxt tim settime -> (forall x1, ini x = Ok x1 -> tim x1 = 0) -> (forall x, 0 <= err x) ->
  icStationary X stp nxt ini tim err dtM TmaxIC thresh fuel d dtIC x = Ok (prev, s, Broke) ->
  exists x1 y, ini x = Ok x1 /\ first_residual X stp nxt err dtM d x1 (s_err0 X s) /\ simulated X stp nxt dtM d dtIC y (s_sys X s) /\ (prev = err y \/ prev = dbl_max /\ y = x1) /\
  let e := err (s_sys X s) in (e = 0 \/ e < thresh * s_err0 X s \/ Rabs (prev - e) < thresh * prev) /\ tim (s_sys X s) < TmaxIC + dtIC.
Proof. exact stationary_accepts. Qed.
Print Assumptions C97_static_partial.

(** So that an accepted state need not be closer to equilibrium than the first one. *)
Theorem C97_static_refuted : ~ (forall X stp nxt ini settime tim err dtM TmaxIC thresh fuel d dtIC x prev s,
  0 < dtM -> 0 < dtIC -> dtIC <= TmaxIC -> 0 < thresh < 1 -> clock X stp nxt tim settime -> runs X stp -> (forall x, 0 <= err x) -> (forall x1, ini x = Ok x1 -> tim x1 = 0) ->
  icStationary X stp nxt ini tim err dtM TmaxIC thresh fuel d dtIC x = Ok (prev, s, Broke) ->
  err (s_sys X s) < err x).
Proof.
  intro H. destruct (slow_unmoved 0) as (prev & s & E & _).
  unfold slow_stationary in E. eapply H in E; [cbn in E; lra|lra|lra|lra|lra|exact slow_clock|exact slow_runs|intros; cbn; lra|congruence].
Qed.
Print Assumptions C97_static_refuted.
