(** Properties C24, C26-C29, C31: the coupling step.
    Everything that is not driven by the coupling enters as arbitrary functions: [updX]
    (free objects take a state), [calX] (derivatives), [limX], [mskX], [conv], [detX]
    (detachLines for one failure), [frcX] (forces at the coupled objects). *)
From Coq Require Import Reals List Arith Bool ZArith Lra Lia.
From Verif Require Import MErr MVec MInterp MStateOps MScheme PScheme PStepInv MStep SStep PStep PStepDemo.
Import ListNotations.
Open Scope R_scope.

(** C24 *)
Theorem C24_substeps_add_up_exactly : forall dtM dt, 0 < dtM -> 0 < dt ->
  exists l, cut dtM dt l /\ forall fuel, (length l < fuel)%nat -> substeps fuel dtM dt = Ok l.
Proof. exact substeps_exact. Qed.
Print Assumptions C24_substeps_add_up_exactly.
Theorem C24_the_integrator_gets_these_substeps : forall X (stp : X -> R -> outcome X) dtM dt, 0 < dtM -> 0 < dt ->
  exists l, cut dtM dt l /\ forall x fuel, (length l < fuel)%nat -> sub_loop R X Rltb Rminus 0 stp fuel dtM x dt = ofold stp l x.
Proof. exact loop_exact. Qed.
Print Assumptions C24_the_integrator_gets_these_substeps.
Theorem C24_time_advances_by_dt : forall S D X o updX calX limX mskX conv detX frcX fuel m x xd dt m' fo,
  ahead (m_scheme S D X m) -> (forall n th, m_scheme S D X m <> Wilson n th) -> 0 < m_dtM S D X m -> 0 < dt ->
  md_step S D X o updX calX limX mskX conv detX frcX fuel m x xd dt = Ok (m', fo) ->
  MScheme.tt S D (sys X) (m_ts S D X m') = MScheme.tt S D (sys X) (m_ts S D X m) + dt.
Proof.
  intros until fo. intros Hc HW HM Hd E. destruct (mstep_all S D X o updX calX limX mskX conv detX frcX fuel m x xd dt m' fo Hc HM Hd E) as (_ & _ & _ & _ & _ & _ & _ & _ & _ & _ & T & _).
  destruct (m_scheme S D X m); try exact T. exfalso. exact (HW _ _ eq_refl).
Qed.
Print Assumptions C24_time_advances_by_dt.
Theorem C24_no_step_without_time : forall S D X o updX calX limX mskX conv detX frcX fuel m x xd dt, dt <= 0 ->
  md_step S D X o updX calX limX mskX conv detX frcX fuel m x xd dt = Ok (m, get_forces X frcX (env S D (sys X) (m_ts S D X m))).
Proof. exact mstep_idle. Qed.
Print Assumptions C24_no_step_without_time.
(** Finding: the API accepts any model time step; with a non-positive one Step never returns *)
Theorem C24_nonpositive_model_step_hangs : forall X (stp : X -> R -> outcome X) dtM dt, dtM <= 0 -> 0 < dt -> (forall x d, exists x', stp x d = Ok x') ->
  forall fuel x, sub_loop R X Rltb Rminus 0 stp fuel dtM x dt = Diverges.
Proof. exact loop_stuck. Qed.
Print Assumptions C24_nonpositive_model_step_hangs.
Example C24_case : substeps 5 (1 / 4) (5 / 8) = Ok [1 / 4; 1 / 4; 5 / 8 - 1 / 4 - 1 / 4].
Proof.
  unfold substeps. cbn [sub_loop obind app].
  rewrite (proj2 (Rltb_true 0 (5 / 8))) by lra. rewrite (proj2 (Rltb_true (1 / 4) (5 / 8))) by lra. cbn [obind].
  rewrite (proj2 (Rltb_true 0 (5 / 8 - 1 / 4))) by lra. rewrite (proj2 (Rltb_true (1 / 4) (5 / 8 - 1 / 4))) by lra. cbn [obind].
  rewrite (proj2 (Rltb_true 0 (5 / 8 - 1 / 4 - 1 / 4))) by lra. rewrite (proj2 (Rltb_false (1 / 4) (5 / 8 - 1 / 4 - 1 / 4))) by lra. cbn [obind].
  rewrite (proj2 (Rltb_false 0 (5 / 8 - 1 / 4 - 1 / 4 - (5 / 8 - 1 / 4 - 1 / 4)))) by lra. reflexivity.
Qed.
Example C24_step_succeeds : forall dt, 0 < dt -> exists fuel m' fo, step0 fuel m0 x0 x0 dt = Ok (m', fo).
Proof. intros dt Hd. destruct (runs0 m0 dt) as (fuel & m' & fo & E & _); [exists 1, 0; now split|reflexivity|cbn; lra|exact Hd|reflexivity|]. exists fuel, m', fo. exact E. Qed.

(** C26. The entries of x and xd are spread over bodies, rods and points in this order,
    each to exactly one object; beyond the total they are not used. *)
Theorem C26_entries_used_once_in_order : forall X e x xd dt, (total_dof e <= length x)%nat -> (total_dof e <= length xd)%nat ->
  exists e', couple X e x xd dt = Ok e' /\ e_lin X e' = e_lin X e /\ map full (e_bod X e') = map full (e_bod X e) /\ map full (e_rod X e') = map full (e_rod X e) /\
    length (e_pts X e') = length (e_pts X e) /\
    layout e' r_ves p_rves = firstn (total_dof e) x /\ layout e' rd_ves p_rdves = firstn (total_dof e) xd.
Proof. exact couple_ok. Qed.
Print Assumptions C26_entries_used_once_in_order.
Theorem C26_shorter_arrays_are_overrun : forall X e x xd dt, (length x < total_dof e)%nat -> forall e', couple X e x xd dt <> Ok e'.
Proof. intros X e x xd dt H e' E. destruct (couple_lin X e x xd dt e' E) as [_ A]. lia. Qed.
Print Assumptions C26_shorter_arrays_are_overrun.
Theorem C26_as_many_forces : forall X frcX (e : sys X),
  (let '(fb, fr, fp) := frcX e in length fb = length (e_bod X e) /\ length fr = length (e_rod X e) /\ length fp = length (e_pts X e)) ->
  length (get_forces X frcX e) = total_dof e.
Proof. exact forces_len. Qed.
Print Assumptions C26_as_many_forces.
(** Finding: every pinned coupled body is counted with 6 instead of 3 degrees of freedom *)
Theorem C26_reported_count : forall X (e : sys X),
  NCoupledDOF (e_bod X e) (e_rod X e) (e_pts X e) = (total_dof e + 3 * pinned_bodies e)%nat.
Proof. intros X e. unfold total_dof, pinned_bodies. rewrite NCoupled_pinned. lia. Qed.
Print Assumptions C26_reported_count.
Theorem C26_reported_count_refuted : exists e : sys unit,
  NCoupledDOF (e_bod _ e) (e_rod _ e) (e_pts _ e) = 6%nat /\ total_dof e = 3%nat /\
  exists x e', length x = 3%nat /\ couple unit e x x 1 = Ok e'.
Proof.
  exists (Sys unit [b0 false] [] [] [] Datatypes.tt). split; [reflexivity|]. split; [reflexivity|]. exists [1; 2; 3]. eexists. split; reflexivity.
Qed.
Print Assumptions C26_reported_count_refuted.
Theorem C26_count_without_pinned_bodies_partial : forall X (e : sys X), Forall (fun b => full b = true) (e_bod X e) ->
  NCoupledDOF (e_bod X e) (e_rod X e) (e_pts X e) = total_dof e.
Proof.
  intros X e H. rewrite C26_reported_count. unfold pinned_bodies. replace (filter (fun b => negb (full b)) (e_bod X e)) with (@nil cobj); [cbn; lia|].
  induction H as [|b l Hb H IH]; [reflexivity|]. cbn. now rewrite Hb.
Qed.
Print Assumptions C26_count_without_pinned_bodies_partial.
Example C26_case : total_dof e00 = 12%nat /\ exists e', couple R e00 x0 x0 1 = Ok e' /\ layout e' r_ves p_rves = x0 /\ map p_rves (e_pts R e') = [V3 10 11 12].
Proof. split; [reflexivity|]. eexists. split; [reflexivity|]. split; reflexivity. Qed.

(** C27. After a coupling step all coupled objects are where x + xd dt says, and inside the
    step, after any sequence of substeps, where x + xd (elapsed time) says. *)
Theorem C27_end_of_step : forall S D X o updX calX limX mskX conv detX frcX fuel m x xd dt m' fo,
  ahead (m_scheme S D X m) -> 0 < m_dtM S D X m -> 0 < dt ->
  md_step S D X o updX calX limX mskX conv detX frcX fuel m x xd dt = Ok (m', fo) ->
  let e' := env S D (sys X) (m_ts S D X m') in
  (length x = total_dof (env S D (sys X) (m_ts S D X m)) -> length xd = length x ->
   layout e' r_ves p_rves = x /\ layout e' rd_ves p_rdves = xd) /\
  Forall (moved_to dt) (e_bod X e') /\ Forall (moved_to dt) (e_rod X e') /\ Forall (moved_to_p dt) (e_pts X e').
Proof.
  intros until fo. intros Hc HM Hd E. destruct (mstep_all S D X o updX calX limX mskX conv detX frcX fuel m x xd dt m' fo Hc HM Hd E) as (e1 & _ & C & _ & _ & V & A1 & A2 & A3 & _).
  split; [|exact (conj A1 (conj A2 A3))]. intros Lx Ld. exact (layout_of_ves X _ _ x xd dt e1 Lx Ld C V).
Qed.
Print Assumptions C27_end_of_step.
Theorem C27_inside_the_step : forall S D X o updX calX limX mskX conv c l s s',
  ahead c -> Forall (fun d => 0 < d) l -> l <> [] ->
  ofold (ts_step S D X o updX calX limX mskX conv c) l (next S D X s) = Ok s' ->
  let e' := env S D (sys X) s' in
  (layout e' r_ves p_rves = layout (env S D (sys X) s) r_ves p_rves /\ layout e' rd_ves p_rdves = layout (env S D (sys X) s) rd_ves p_rdves) /\
  Forall (moved_to (rsum0 l)) (e_bod X e') /\ Forall (moved_to (rsum0 l)) (e_rod X e') /\ Forall (moved_to_p (rsum0 l)) (e_pts X e').
Proof. exact inside_the_step. Qed.
Print Assumptions C27_inside_the_step.
Example C27_hypotheses_met : forall dt, 0 < dt -> exists fuel m' fo, step0 fuel m0 x0 x0 dt = Ok (m', fo) /\ length x0 = total_dof (env _ _ _ (m_ts _ _ _ m0)).
Proof. intros dt Hd. destruct (C24_step_succeeds dt Hd) as (fuel & m' & fo & E). exists fuel, m', fo. split; [exact E|reflexivity]. Qed.

(** C28 *)
Theorem C28_pay_out_over_a_run : forall S D X o updX calX limX mskX conv detX frcX fuel calls m m',
  ahead (m_scheme S D X m) -> 0 < m_dtM S D X m -> Forall (fun c => 0 < dt_of c) calls ->
  md_run S D X o updX calX limX mskX conv detX frcX fuel m calls = Ok m' ->
  Forall2 (paid (rsum0 (map dt_of calls))) (e_lin X (env S D (sys X) (m_ts S D X m))) (e_lin X (env S D (sys X) (m_ts S D X m'))).
Proof. exact run_paid. Qed.
Print Assumptions C28_pay_out_over_a_run.
Theorem C28_even_segments_sum_to_the_length : forall p, even p -> u_seg p <> [] -> rsum0 (u_seg p) = u_len p.
Proof. exact even_sum. Qed.
Print Assumptions C28_even_segments_sum_to_the_length.
Theorem C28_setting_the_length : forall p len, even (set_length p len) /\ u_len (set_length p len) = len.
Proof. exact set_length_even. Qed.
Print Assumptions C28_setting_the_length.
Example C28_hypotheses_met : even (Pline 10 10 2 [5; 5]) /\ ahead (m_scheme _ _ _ m0) /\
  forall dt, 0 < dt -> exists fuel m', md_run R R R Rops upd0 cal0 lim0 msk0 (fun _ _ => true) det0 frc0 fuel m0 [(x0, x0, dt)] = Ok m'.
Proof.
  split; [unfold even; cbn; repeat constructor; field|]. split; [exact I|]. intros dt Hd. destruct (C24_step_succeeds dt Hd) as (fuel & m' & fo & E). exists fuel, m'.
  cbn [md_run]. unfold step0 in E. rewrite E. reflexivity.
Qed.

(** C29. What happens over a run: a failure is executed in the first step if its time is
    still ahead of the end of that step, and never if it is not. *)
Theorem C29_what_is_executed : forall S D X o updX calX limX mskX conv detX frcX fuel calls m m',
  ahead (m_scheme S D X m) -> (match m_scheme S D X m with Wilson _ _ => False | _ => True end) -> 0 < m_dtM S D X m -> Forall (fun c => 0 < dt_of c) calls ->
  md_run S D X o updX calX limX mskX conv detX frcX fuel m calls = Ok m' -> forall j g, nth_error (m_fail S D X m) j = Some g ->
  exists g', nth_error (m_fail S D X m') j = Some g' /\ f_time g' = f_time g /\
  (f_done g' = true <-> f_done g = true \/ exists c r, calls = c :: r /\ MScheme.tt S D (sys X) (m_ts S D X m) + dt_of c <= f_time g).
Proof. exact run_failures. Qed.
Print Assumptions C29_what_is_executed.
(** Finding: a failure at t = 5 is executed at t = 1/2, one at t = 1/8 is not *)
Theorem C29_failure_time_refuted : exists fuel m' fo, step0 fuel m0 x0 x0 (1 / 2) = Ok (m', fo) /\ MScheme.tt _ _ _ (m_ts _ _ _ m') = 1 / 2 /\
  m_fail _ _ _ m0 = [Failure 5 false; Failure (1 / 8) false] /\ m_fail _ _ _ m' = [Failure 5 true; Failure (1 / 8) false].
Proof. destruct fails_wrongly as (fuel & m' & fo & A & B & C). exists fuel, m', fo. repeat split; assumption. Qed.
Print Assumptions C29_failure_time_refuted.
(** what holds: no failure is executed twice *)
Theorem C29_only_once_partial : forall X detX i t fs e fs' e', fail_loop X detX i t fs e = Ok (fs', e') ->
  Forall (fun g => f_done g = true) fs -> fs' = fs /\ e' = e.
Proof. exact done_once. Qed.
Print Assumptions C29_only_once_partial.

(** C31 *)
Theorem C31_row_iff_interval_ends : forall dtOut t dt, 0 < dtOut -> (row_due dtOut t dt = true <-> interval_end dtOut t dt).
Proof. exact row_due_spec. Qed.
Print Assumptions C31_row_iff_interval_ends.
Theorem C31_step_writes_that_row : forall S D X o updX calX limX mskX conv detX frcX fuel m x xd dt m' fo,
  ahead (m_scheme S D X m) -> 0 < m_dtM S D X m -> 0 < dt -> 0 < m_dtOut S D X m ->
  md_step S D X o updX calX limX mskX conv detX frcX fuel m x xd dt = Ok (m', fo) ->
  let t := MScheme.tt S D (sys X) (m_ts S D X m') in
  (interval_end (m_dtOut S D X m) t dt /\ m_rows S D X m' = m_rows S D X m ++ [t]) \/ (~ interval_end (m_dtOut S D X m) t dt /\ m_rows S D X m' = m_rows S D X m).
Proof. exact step_rows. Qed.
Print Assumptions C31_step_writes_that_row.
Theorem C31_each_multiple_in_one_step : forall t0 dts dtOut k, Forall (fun d => 0 < d) dts -> t0 < IZR k * dtOut <= t0 + rsum0 dts ->
  exists i, (i < length dts)%nat /\ time_at t0 dts i < IZR k * dtOut <= time_at t0 dts (S i) /\
  forall j, time_at t0 dts j < IZR k * dtOut <= time_at t0 dts (S j) -> j = i.
Proof. intros t0 dts dtOut k. exact (one_interval t0 dts (IZR k * dtOut)). Qed.
Print Assumptions C31_each_multiple_in_one_step.
Theorem C31_long_steps_always_write : forall dtOut t dt, 0 < dtOut -> dtOut <= dt -> row_due dtOut t dt = true.
Proof. exact row_each. Qed.
Print Assumptions C31_long_steps_always_write.
(** Finding: the initial row at t = 0, which Init asks for, is not written if dtOut > 0 *)
Theorem C31_initial_row_refuted : forall dtOut, 0 < dtOut -> row_due dtOut 0 0 = false.
Proof. exact row_none. Qed.
Print Assumptions C31_initial_row_refuted.
Example C31_case : row_due 1 (5 / 4) (1 / 2) = true /\ row_due 1 (7 / 4) (1 / 2) = false.
Proof.
  split; [apply row_due_spec; [lra|]; exists 1%Z; lra|]. destruct (row_due 1 (7 / 4) (1 / 2)) eqn:E; [|reflexivity]. apply row_due_spec in E; [|lra].
  destruct E as (k & A & B). assert (1 < k)%Z by (apply lt_IZR; lra). assert (k < 2)%Z by (apply lt_IZR; lra). lia.
Qed.
