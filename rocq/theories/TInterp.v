(** Properties C14-C17: interpolation, bathymetry, Courant factors. *)
From Coq Require Import Reals ZArith List Lra Lia.
From Verif Require Import MErr MInterp SInterp PInterp MSeafloor SSeafloor PSeafloor MCFL PCFL.
Import ListNotations.
Open Scope R_scope.

(** C14: the interpolated value is the one of the piecewise linear function,
    constant outside of the table ([lin_interp]), for every table and query. *)
Theorem C14_interpolates : forall xp yp x, increasing xp -> xp <> [] -> length yp = length xp ->
  exists y, interp xp yp x = Ok y /\ lin_interp xp yp x y.
Proof. exact interp_spec. Qed.
Print Assumptions C14_interpolates.
Theorem C14_spec_determines_value : forall xp yp x y y', increasing xp -> xp <> [] ->
  lin_interp xp yp x y -> lin_interp xp yp x y' -> y = y'.
Proof. exact lin_interp_unique. Qed.
Print Assumptions C14_spec_determines_value.
Theorem C14_tabulated_value : forall xp yp k, increasing xp -> length yp = length xp -> (k < length xp)%nat ->
  interp xp yp (nth k xp 0) = Ok (nth k yp 0).
Proof. exact interp_node. Qed.
Print Assumptions C14_tabulated_value.
Theorem C14_between_neighbours : forall xp yp x y k, increasing xp -> lin_interp xp yp x y ->
  (S k < length xp)%nat -> nth k xp 0 <= x <= nth (S k) xp 0 ->
  Rmin (nth k yp 0) (nth (S k) yp 0) <= y <= Rmax (nth k yp 0) (nth (S k) yp 0).
Proof. exact lin_between. Qed.
Print Assumptions C14_between_neighbours.
Theorem C14_bounded : forall xp yp x lo hi, increasing xp -> xp <> [] -> length yp = length xp ->
  Forall (within lo hi) yp -> exists y, interp xp yp x = Ok y /\ lo <= y <= hi.
Proof. exact interp_bounds. Qed.
Print Assumptions C14_bounded.
(** index and factor: always in range, and designating the segment of x *)
Theorem C14_factor_in_range : forall xp i0 x, (2 <= length xp)%nat ->
  exists j f, interp_factor xp i0 x = Ok (j, f) /\ (1 <= j < length xp)%nat /\ 0 <= f <= 1.
Proof. exact interp_factor_range. Qed.
Print Assumptions C14_factor_in_range.
Theorem C14_factor_designates_segment : forall xp x, increasing xp -> (2 <= length xp)%nat ->
  exists j f, interp_factor xp 1 x = Ok (j, f) /\ (1 <= j < length xp)%nat /\ 0 <= f <= 1 /\
   (nth 0 xp 0 <= x <= nth (length xp - 1) xp 0 ->
      nth (j - 1) xp 0 <= x <= nth j xp 0 /\ x = nth (j - 1) xp 0 + f * (nth j xp 0 - nth (j - 1) xp 0)) /\
   (x <= nth 0 xp 0 -> j = 1%nat /\ f = 0) /\
   (nth (length xp - 1) xp 0 <= x -> j = (length xp - 1)%nat /\ f = 1).
Proof. exact interp_factor_segment. Qed.
Print Assumptions C14_factor_designates_segment.
(** any hint at or before the segment gives the same value *)
Theorem C14_hint : forall xp yp i0 x, increasing xp -> (2 <= length xp)%nat -> length yp = length xp ->
  (i0 <= 1)%nat \/ (nth (Nat.min i0 (length xp - 1) - 1) xp 0 <= x) ->
  exists j f y, interp_factor xp i0 x = Ok (j, f) /\ (1 <= j < length xp)%nat /\
    pick yp j f = Ok y /\ lin_interp xp yp x y /\
    nth (j - 1) xp 0 <= Rmax x (nth 0 xp 0).
Proof. exact interp_from_hint. Qed.
Print Assumptions C14_hint.
(** the vector version, for queries in increasing order (as all callers use it) *)
Theorem C14_batch : forall xp yp xs y, increasing xp -> (2 <= length xp)%nat -> length yp = length xp ->
  nondecreasing xs -> (length xs <= length y)%nat ->
  exists y', interp_batch xp yp xs y = Ok y' /\ length y' = length y /\
   forall k, (k < length xs)%nat -> lin_interp xp yp (nth k xs 0) (nth k y' 0).
Proof. exact batch_spec. Qed.
Print Assumptions C14_batch.
(** Findings: the vector version is wrong for queries in another order, *)
Theorem C14_batch_unordered_refuted : exists xp yp xs y',
  increasing xp /\ length yp = length xp /\
  interp_batch xp yp xs [0; 0] = Ok y' /\ ~ lin_interp xp yp (nth 1 xs 0) (nth 1 y' 0).
Proof. exact batch_order_matters. Qed.
Print Assumptions C14_batch_unordered_refuted.
(** and fills only the first value when the table has one entry. *)
Theorem C14_batch_single_entry_refuted : exists xs y,
  interp_batch [0] [7] xs [0; 0] = Ok y /\ length xs = 2%nat /\ nth 1 y 0 <> 7.
Proof. exact batch_single_value. Qed.
Print Assumptions C14_batch_single_entry_refuted.
Example C14_ex : increasing [0; 10] /\ interp [0; 10] [5; 7] 10 = Ok 7 /\ nondecreasing [1; 3].
Proof.
  split; [apply incr_pair; lra|]. split.
  - apply (interp_node [0; 10] [5; 7] 1); [apply incr_pair; lra|reflexivity|cbn; lia].
  - intros i j H. left. apply incr_pair; [lra|exact H].
Qed.

(** C15: [setup stoi stof lines = Ok sf]: the file was accepted; [entries_are]:
    its (x, y, depth) entries. Missing: incomplete tables. *)
Theorem C15_bounded_partial : forall tok (stoi : tok -> outcome Z) (stof : tok -> outcome R) lines sf es lo hi x y,
  setup stoi stof lines = Ok sf -> entries_are stof lines es ->
  increasing (sf_px sf) -> increasing (sf_py sf) -> complete (sf_px sf) (sf_py sf) es ->
  Forall (within lo hi) (depths es) ->
  exists d, get_depth_at sf x y = Ok d /\ lo <= d <= hi.
Proof. exact @file_bounds. Qed.
Print Assumptions C15_bounded_partial.
Theorem C15_depth_at_grid_point : forall tok (stoi : tok -> outcome Z) (stof : tok -> outcome R) lines sf es xe ye d,
  setup stoi stof lines = Ok sf -> entries_are stof lines es ->
  increasing (sf_px sf) -> increasing (sf_py sf) ->
  Forall (on_grid (sf_px sf) (sf_py sf)) es -> consistent es ->
  In (xe, ye, d) es -> get_depth_at sf xe ye = Ok d.
Proof. exact @file_node. Qed.
Print Assumptions C15_depth_at_grid_point.
Theorem C15_bilinear : forall tok (stoi : tok -> outcome Z) (stof : tok -> outcome R) lines sf x y,
  setup stoi stof lines = Ok sf -> increasing (sf_px sf) -> increasing (sf_py sf) ->
  exists d, get_depth_at sf x y = Ok d /\ bilinear (sf_px sf) (sf_py sf) (sf_grid sf) x y d.
Proof. exact @file_bilinear. Qed.
Print Assumptions C15_bilinear.
Theorem C15_constant_beyond_grid : forall tok (stoi : tok -> outcome Z) (stof : tok -> outcome R) lines sf x y,
  setup stoi stof lines = Ok sf -> increasing (sf_px sf) -> increasing (sf_py sf) ->
  (x <= nth 0 (sf_px sf) 0 -> get_depth_at sf x y = get_depth_at sf (nth 0 (sf_px sf) 0) y) /\
  (nth (length (sf_px sf) - 1) (sf_px sf) 0 <= x -> get_depth_at sf x y = get_depth_at sf (nth (length (sf_px sf) - 1) (sf_px sf) 0) y) /\
  (y <= nth 0 (sf_py sf) 0 -> get_depth_at sf x y = get_depth_at sf x (nth 0 (sf_py sf) 0)) /\
  (nth (length (sf_py sf) - 1) (sf_py sf) 0 <= y -> get_depth_at sf x y = get_depth_at sf x (nth (length (sf_py sf) - 1) (sf_py sf) 0)).
Proof. exact @file_clamped. Qed.
Print Assumptions C15_constant_beyond_grid.
Theorem C15_shallowest_point : forall tok (stoi : tok -> outcome Z) (stof : tok -> outcome R) lines sf es,
  setup stoi stof lines = Ok sf -> entries_are stof lines es ->
  exists m, sf_min sf = Some m /\ In m (depths es) /\ Forall (fun d => d <= m) (depths es).
Proof. exact @file_min. Qed.
Print Assumptions C15_shallowest_point.
(** Finding: grid points without an entry are silently at depth 0. *)
Theorem C15_incomplete_refuted : exists (lines : list (list Z)) sf es d,
  setup ztoi ztof lines = Ok sf /\ entries_are ztof lines es /\
  increasing (sf_px sf) /\ increasing (sf_py sf) /\
  Forall (within (-7) (-5)) (depths es) /\ get_depth_at sf 20 0 = Ok d /\ ~ within (-7) (-5) d.
Proof. exact incomplete_out_of_bounds. Qed.
Print Assumptions C15_incomplete_refuted.
Example C15_ex : exists sf es, setup ztoi ztof flat_file = Ok sf /\ entries_are ztof flat_file es /\
  increasing (sf_px sf) /\ increasing (sf_py sf) /\ complete (sf_px sf) (sf_py sf) es /\
  Forall (on_grid (sf_px sf) (sf_py sf)) es /\ consistent es /\ NoDup (map fst es) /\ length es = 2%nat.
Proof.
  eexists. exists [(0, 0, -5); (10, 0, -7)]. split; [apply flat_file_ok|]. cbn [sf_px sf_py].
  split; [constructor; [exists 0%Z, 0%Z, (-5)%Z; repeat split|constructor; [exists 10%Z, 0%Z, (-7)%Z; repeat split|constructor]]|].
  split; [apply incr_pair; lra|]. split; [apply incr_one|]. split.
  - intros x y [<-|[<-|[]]] [<-|[]]; eexists; [left; reflexivity|right; left; reflexivity].
  - split; [constructor; [split; left; reflexivity|constructor; [split; [right; left; reflexivity|left; reflexivity]|constructor]]|].
    split; [|split; [|reflexivity]].
    + intros x y d d' [E|[E|[]]] [E'|[E'|[]]]; injection E; injection E'; intros; lra.
    + constructor; [intros [E|[]]; injection E as E; lra|constructor; [intros []|constructor]].
Qed.

(** C16: when no grid point is given twice the average depth is the mean over
    the grid. Missing: files that give a grid point twice. *)
Theorem C16_average_is_mean_partial : forall tok (stoi : tok -> outcome Z) (stof : tok -> outcome R) lines sf es,
  setup stoi stof lines = Ok sf -> entries_are stof lines es ->
  increasing (sf_px sf) -> increasing (sf_py sf) ->
  (Z.of_nat (length (sf_px sf)) * Z.of_nat (length (sf_py sf)) < 2 ^ 32)%Z ->
  Forall (on_grid (sf_px sf) (sf_py sf)) es -> NoDup (map fst es) ->
  sf_avg sf = rsum (map rsum (sf_grid sf)) / (INR (length (sf_px sf)) * INR (length (sf_py sf))).
Proof. exact @file_mean. Qed.
Print Assumptions C16_average_is_mean_partial.
(** Finding: an entry given twice is counted twice. *)
Theorem C16_average_refuted : exists (lines : list (list Z)) sf,
  setup ztoi ztof lines = Ok sf /\ increasing (sf_px sf) /\ increasing (sf_py sf) /\
  sf_grid sf = [[-10]] /\ sf_avg sf = -20.
Proof. exact average_not_mean. Qed.
Print Assumptions C16_average_refuted.

(** C17: [hangs o o']: o' is o or is attached to it, directly or not. *)
Theorem C17_step_stable_for_attached : forall c o o', hangs o o' -> cfl2dt c o <= cfl2dt c o'.
Proof. exact hangs_dt. Qed.
Print Assumptions C17_step_stable_for_attached.
Theorem C17_factor_largest_of_attached : forall dt o o', hangs o o' -> dt2cfl dt o' <= dt2cfl dt o.
Proof. exact hangs_cfl. Qed.
Print Assumptions C17_factor_largest_of_attached.
Theorem C17_step_attained : forall c o, cfl2dt c o = dbl_max \/
  exists l k m, hangs o (NatFreq l k m) /\ cfl2dt c o = c * period k m.
Proof. exact dt_attained. Qed.
Print Assumptions C17_step_attained.
Theorem C17_factor_attained : forall dt o, dt2cfl dt o = 0 \/
  exists l k m, hangs o (NatFreq l k m) /\ dt2cfl dt o = dt / period k m.
Proof. exact cfl_attained. Qed.
Print Assumptions C17_factor_attained.
Theorem C17_velocity_step_stable_for_attached : forall c v o o', hangs o o' -> cfl2dt_v c v o <= cfl2dt_v c v o'.
Proof. exact hangs_dt_v. Qed.
Print Assumptions C17_velocity_step_stable_for_attached.
Theorem C17_velocity_factor_largest_of_attached : forall dt v o o', hangs o o' -> dt2cfl_v dt v o' <= dt2cfl_v dt v o.
Proof. exact hangs_cfl_v. Qed.
Print Assumptions C17_velocity_factor_largest_of_attached.
Theorem C17_line_roundtrip : forall l k m c, 0 < k -> 0 < m ->
  dt2cfl (cfl2dt c (NatFreq l k m)) (NatFreq l k m) = c.
Proof. exact natfreq_inverse. Qed.
Print Assumptions C17_line_roundtrip.
(** the step of a line is the CFL factor times the period of its segments,
    2 pi (L/N) sqrt(w/EA) *)
Theorem C17_line_step : forall EA w L N, 0 < EA -> 0 < w -> 0 < L -> (0 < N)%nat ->
  forall c, cfl2dt c (line_cfl EA w L N) = c * (2 * PI * (L / INR N) * sqrt (w / EA)).
Proof. exact line_period. Qed.
Print Assumptions C17_line_step.
(** Init without a requested step (the default of the option is the largest double) *)
Theorem C17_init_stable : forall dtM0 c objs dt c', 9 / 10 * dbl_max <= dtM0 ->
  init_dt dtM0 c objs = (dt, c') ->
  (forall o o', In o objs -> hangs o o' -> dt <= cfl2dt c o') /\
  (dt = dtM0 \/ dt = dbl_max \/ exists o l k m, In o objs /\ hangs o (NatFreq l k m) /\ dt = c * period k m).
Proof. exact init_stable. Qed.
Print Assumptions C17_init_stable.
Theorem C17_init_factor : forall dtM0 c objs dt c', init_dt dtM0 c objs = (dt, c') ->
  0 <= c' /\ (forall o o', In o objs -> hangs o o' -> dt2cfl dt o' <= c') /\
  (c' = 0 \/ exists o l k m, In o objs /\ hangs o (NatFreq l k m) /\ c' = dt / period k m).
Proof. exact init_factor. Qed.
Print Assumptions C17_init_factor.
Theorem C17_init_factor_not_above_requested : forall dtM0 c objs dt c', 9 / 10 * dbl_max <= dtM0 -> 0 < c ->
  Forall periods_ok objs -> init_dt dtM0 c objs = (dt, c') -> c' <= c.
Proof. exact init_reported. Qed.
Print Assumptions C17_init_factor_not_above_requested.
(** Init with a requested step uses that step *)
Theorem C17_init_requested_step : forall dtM0 c objs, 0 < dtM0 < 9 / 10 * dbl_max ->
  (forall o l k m, In o objs -> hangs o (NatFreq l k m) -> dtM0 / dbl_max <= period k m) ->
  fst (init_dt dtM0 c objs) = dtM0.
Proof. exact init_requested. Qed.
Print Assumptions C17_init_requested_step.
(** the setters *)
Theorem C17_set_cfl : forall c objs dt c', set_cfl c objs = (dt, c') ->
  c' = c /\ (forall o o', In o objs -> hangs o o' -> dt <= cfl2dt c o') /\
  (dt = dbl_max \/ exists o l k m, In o objs /\ hangs o (NatFreq l k m) /\ dt = c * period k m).
Proof. exact set_cfl_stable. Qed.
Print Assumptions C17_set_cfl.
Theorem C17_set_dt : forall dt objs dt' c', set_dt dt objs = (dt', c') ->
  dt' = dt /\ (forall o o', In o objs -> hangs o o' -> dt2cfl dt o' <= c') /\
  (c' = 0 \/ exists o l k m, In o objs /\ hangs o (NatFreq l k m) /\ c' = dt / period k m).
Proof. exact set_dt_factor. Qed.
Print Assumptions C17_set_dt.
Theorem C17_set_roundtrip : forall c objs, 0 < c -> Forall periods_ok objs ->
  fst (set_cfl c objs) < dbl_max -> snd (set_dt (fst (set_cfl c objs)) objs) = c.
Proof. exact set_roundtrip. Qed.
Print Assumptions C17_set_roundtrip.
Example C17_ex : hangs (Super 1 [Plain 2; Super 1 [NatFreq 1 4 1]]) (NatFreq 1 4 1) /\
  periods_ok (Super 1 [NatFreq 1 4 1]).
Proof.
  split.
  - eapply hangs_child; [right; left; reflexivity|]. eapply hangs_child; [left; reflexivity|]. constructor.
  - intros l k m H. inversion H as [|? ? c o Hin Hh]; subst. destruct Hin as [<-|[]].
    inversion Hh; subst. lra.
Qed.
