(** Line properties C37-C43 and C63-C66 *)
From Coq Require Import Ascii String List Reals Lra Lia Arith ZArith.
From Verif Require Import MErr MStr MVec MStateOps MMat MInterp MLine MCurve SMat SCurve SLine PStr PLine PLineB PLineE PCurve.
Import ListNotations.
Open Scope R_scope.

(** *** C37 *)
(** what a line exerts on its own nodes sums to zero; the net force is the external one *)
Theorem C37_internal_forces_cancel : forall L e k F, (0 < lN L)%nat -> line_forces L e k = Some F ->
  vsum (lN L + 1) (internal L e k F) = vzero /\ vsum (lN L + 1) F = vsum (lN L + 1) (external L e k).
Proof. exact (fun L e k F HN H => conj (internal_sum L e k F HN H) (total_force L e k F HN H)). Qed.
Print Assumptions C37_internal_forces_cancel.
Theorem C37_node_masses : forall L, (0 < lN L)%nat -> larea L = PI / 4 * ldia L * ldia L ->
  nsum (lN L + 1) (lmi L) = lrho L * larea L * nsum (lN L) (ll L).
Proof. exact masses_sum. Qed.
Print Assumptions C37_node_masses.
(** total weight: line mass minus displaced water *)
Theorem C37_total_weight : forall L e k, (0 < lN L)%nat ->
  nsum (lN L + 1) (fun i => vz (lW L e k i))
  = - gr e * (lrho L * larea L * nsum (lN L) (ll L) - rho_w e * (larea L * nsum (lN L) (fun i => lF L k i * ll L i))).
Proof. exact weight_sum. Qed.
Print Assumptions C37_total_weight.
Theorem C37_linear_lines_have_forces : forall L e k, lsx L = [] -> ldx L = [] -> lbx L = [] -> exists F, line_forces L e k = Some F.
Proof. exact linear_total. Qed.
Print Assumptions C37_linear_lines_have_forces.
Example C37_met : (0 < lN demo)%nat /\ larea demo = PI / 4 * ldia demo * ldia demo /\ exists F, line_forces demo demo_env still = Some F.
Proof. split; [cbn; lia|]. split; [reflexivity | exact demo_forces]. Qed.

(** *** C38 *)
Theorem C38_slack_segment : forall L i, 0 < ll L i -> norm (seg L i) <= ll L i -> lT L i = Some vzero.
Proof. exact slack_no_tension. Qed.
Print Assumptions C38_slack_segment.
Theorem C38_taut_segment : forall L i, lsx L = [] -> 0 < ll L i -> 0 <= lE L * larea L -> ll L i < norm (seg L i) -> tol < norm (seg L i) ->
  exists t, lT L i = Some t /\ norm t = lE L * larea L * ((norm (seg L i) - ll L i) / ll L i)
    /\ exists s, 0 <= s /\ t = vscale s (seg L i).
Proof. exact taut_tension. Qed.
Print Assumptions C38_taut_segment.
Example C38_met : ll demo 0 < norm (seg demo 0) /\ tol < norm (seg demo 0) /\ norm (seg demo 1) <= ll demo 1 /\ 0 <= lE demo * larea demo.
Proof. rewrite demo_seg0, demo_seg1. pose proof tol_small. pose proof PI_RGT_0. cbn. repeat split; lra. Qed.

(** *** C39 (lines) *)
Theorem C39_line_drag_dissipates : forall L e k i, (0 < lN L)%nat -> (i <= lN L)%nat -> sensible L -> 0 <= rho_w e ->
  dot (vadd (lDp L e k i) (lDq L e k i)) (vsub (lrd L i) (wU k i)) <= 0.
Proof. exact drag_dissipates. Qed.
Print Assumptions C39_line_drag_dissipates.
Example C39_met : sensible demo /\ 0 <= rho_w demo_env /\ vsub (lrd demo 1) (wU still 1) <> vzero.
Proof. split; [exact demo_sensible|]. split; [cbn; lra|]. cbn. intros C. injection C. lra. Qed.

(** *** C40 *)
Theorem C40_friction_partial : forall e A wd r rd, env_ok e -> 0 <= A ->
  let B := bottom e A wd r rd in
  sqrt (vx B * vx B + vy B * vy B) <= Rmax 1 (statDyn e) * (fric e * Rabs (vz B)) /\ vx B * vx rd + vy B * vy rd <= 0.
Proof. exact friction_bound. Qed.
Print Assumptions C40_friction_partial.
Theorem C40_pushes_up_partial : forall e A wd r rd, env_ok e -> 0 <= A -> vz rd <= 0 -> 0 <= vz (bottom e A wd r rd).
Proof. exact bottom_up. Qed.
Print Assumptions C40_pushes_up_partial.
Theorem C40_no_contact_partial : forall e A wd r rd, wd <= vz r -> bottom e A wd r rd = vzero.
Proof. exact bottom_off. Qed.
Print Assumptions C40_no_contact_partial.
(** the sea bed pulls a node that leaves it fast enough *)
Theorem C40_sea_bed_pulls_refuted : exists e A wd r rd, env_ok e /\ 0 < A /\ vz (bottom e A wd r rd) < 0.
Proof. exact bed_pulls. Qed.
Print Assumptions C40_sea_bed_pulls_refuted.
Example C40_met : env_ok demo_env /\ vx (bottom demo_env 1 0 (V3 0 0 (-1)) (V3 1 0 0)) < 0.
Proof.
  split; [unfold env_ok; cbn; lra|]. unfold bottom. cbn [vx vy vz kb cb fric fricDamp statDyn demo_env].
  destruct (Rlt_dec (-1) 0); [| lra]. cbv zeta. replace (1 * 1 + 0 * 0) with 1 by ring. rewrite sqrt_1.
  destruct (Req_EM_T 1 0); [lra|]. cbn [vx]. rewrite Rabs_right by lra. destruct (Rlt_dec _ _); lra.
Qed.

(** *** C41 *)
Theorem C41_range_partial : forall d a b h, 0 <= d -> 0 <= calcSubSeg d a b h <= 1.
Proof. exact sub_range. Qed.
Print Assumptions C41_range_partial.
Theorem C41_below_and_above_partial : forall d a b h,
  (vz a < h -> vz b < h -> calcSubSeg d a b h = 1) /\ (h < vz a -> h < vz b -> calcSubSeg d a b h = 0).
Proof. exact (fun d a b h => conj (sub_below d a b h) (sub_above d a b h)). Qed.
Print Assumptions C41_below_and_above_partial.
Theorem C41_thin_line_partial : forall a b h, vz a < h -> h < vz b -> calcSubSeg 0 a b h = (h - vz a) / (vz b - vz a).
Proof. exact sub_thin. Qed.
Print Assumptions C41_thin_line_partial.
(** a thick line: the share below the surface of the diagonal from its lowest to its highest corner, as the comments of the
    code say *)
Theorem C41_thick_line_partial : forall d a b h, 0 <= d -> vz a < h -> h < vz b -> calcSubSeg d a b h = (h - vz a + disc_rise d a b) / (vz b - vz a + 2 * disc_rise d a b).
Proof. exact sub_thick. Qed.
Print Assumptions C41_thick_line_partial.
(** the fraction of a thick line jumps when its end leaves the water *)
Theorem C41_jump_refuted : forall d, 0 < d -> (forall z, z < 0 -> calcSubSeg d (V3 0 0 (-1)) (V3 1 0 z) 0 = 1) /\
  exists c, c < 1 /\ forall z, 0 < z < 1 -> calcSubSeg d (V3 0 0 (-1)) (V3 1 0 z) 0 <= c.
Proof. exact sub_jump. Qed.
Print Assumptions C41_jump_refuted.
Theorem C41_order_partial : forall d a b h, vz a <> h -> vz b <> h -> calcSubSeg d a b h = calcSubSeg d b a h.
Proof. exact sub_order. Qed.
Print Assumptions C41_order_partial.
(** a segment standing on the surface is entirely submerged, or entirely dry in the other order *)
Theorem C41_end_on_surface_refuted : forall d z h, 0 < z ->
  calcSubSeg d (V3 0 0 h) (V3 0 0 (h + z)) h = 1 /\ calcSubSeg d (V3 0 0 (h + z)) (V3 0 0 h) h = 0.
Proof. exact surface_standing. Qed.
Print Assumptions C41_end_on_surface_refuted.
Example C41_met : calcSubSeg 0 (V3 0 0 (-1)) (V3 1 0 3) 0 = / 4.
Proof. rewrite sub_thin; cbn; lra. Qed.

(** *** C42 *)
(** abscissae are read from the first column, and the curve has the given number of points *)
Theorem C42_first_column_partial : forall stold atof opened basepath entry h1 h2 h3 (rows : list (str * str * str * list str)),
  stold entry = StInvalid ->
  opened (basepath ++ entry)%list = Some (join (h1 :: h2 :: h3 :: map (fun r => fst (fst (fst r))) rows)) ->
  ~ In newline h1 -> ~ In newline h2 -> ~ In newline h3 ->
  (forall l e0 e1 r, In (l, e0, e1, r) rows -> ~ In newline l /\ split_sep (rtrim l) space = e0 :: e1 :: r) ->
  (2 <= length rows)%nat ->
  read_curve stold atof opened basepath entry
  = COk (map (fun r => atof (snd (fst (fst r)))) rows) (map (fun r => atof (snd (fst (fst r)))) rows).
Proof. exact reads_lines. Qed.
Print Assumptions C42_first_column_partial.
Theorem C42_point_limit_partial : forall stold atof opened basepath entry c n x y,
  stold entry = StInvalid -> read_curve_props stold atof opened basepath entry = POk c n x y ->
  (2 <= n <= nCoef)%nat /\ length x = n /\ length y = n /\ c = 0.
Proof. exact props_bounds. Qed.
Print Assumptions C42_point_limit_partial.
(** the ordinates are the abscissae: the second column is never used *)
Theorem C42_second_column_ignored_refuted : forall stold atof opened basepath entry x y,
  stold entry = StInvalid -> read_curve stold atof opened basepath entry = COk x y -> y = x.
Proof. exact (fun stold atof opened basepath entry x y Hs H => eq_sym (same_columns stold atof opened basepath entry x y Hs H)). Qed.
Print Assumptions C42_second_column_ignored_refuted.
(** a file that ends with a newline is refused *)
Theorem C42_final_newline_refuted : forall stold atof opened basepath entry s,
  stold entry = StInvalid -> opened (basepath ++ entry)%list = Some (s ++ [newline])%list ->
  read_curve stold atof opened basepath entry = CErr MOORDYN_INVALID_INPUT.
Proof. exact final_newline. Qed.
Print Assumptions C42_final_newline_refuted.
Example C42_file_met : forall atof,
  read_curve (fun _ => StInvalid) atof (fun _ => Some (join (map list_ascii_of_string ["a"; "b"; "c"; "0 0"; "1 5"])))%string [] (list_ascii_of_string "f")
  = COk [atof (list_ascii_of_string "0"); atof (list_ascii_of_string "1")] [atof (list_ascii_of_string "0"); atof (list_ascii_of_string "1")].
Proof. reflexivity. Qed.
(** a tension curve is followed *)
Theorem C42_tension_curve_partial : forall L i Y, lsx L <> [] -> 0 < ll L i -> ll L i < norm (seg L i) -> tol < norm (seg L i) ->
  interp (lsx L) (lsy L) ((norm (seg L i) - ll L i) / ll L i) = Ok Y -> 0 <= Y -> 0 <= larea L ->
  exists t, lT L i = Some t /\ norm t = larea L * Y /\ exists s, 0 <= s /\ t = vscale s (seg L i).
Proof. exact curve_tension. Qed.
Print Assumptions C42_tension_curve_partial.
(** a two-sided damping curve is followed while the segment changes its length *)
Theorem C42_two_sided_damping_partial : forall L i x0 xs Y, ldx L = x0 :: xs -> x0 < 0 -> 0 < ll L i -> tol < norm (seg L i) ->
  stretch_rate L i <> 0 -> interp (ldx L) (ldy L) (stretch_rate L i / ll L i) = Ok Y ->
  lTd L i = Some (vscale (larea L * Y / norm (seg L i)) (seg L i)).
Proof. exact damp_two_sided. Qed.
Print Assumptions C42_two_sided_damping_partial.
(** a one-sided curve gives an even function of the rate instead of an odd one: a shortening
    segment pulls with the force of a lengthening one *)
Theorem C42_one_sided_damping_refuted : forall L i x0 xs Y, ldx L = x0 :: xs -> 0 <= x0 -> 0 < ll L i -> tol < norm (seg L i) ->
  stretch_rate L i <> 0 -> interp (ldx L) (ldy L) (Rabs (stretch_rate L i / ll L i)) = Ok Y ->
  lTd L i = Some (vscale (larea L * Y / norm (seg L i)) (seg L i)).
Proof. exact damp_one_sided. Qed.
Print Assumptions C42_one_sided_damping_refuted.
(** a damping curve gives no number when two neighbouring nodes have the same velocity, as in
    every line at rest *)
Theorem C42_damping_curve_at_rest_refuted : forall L e k i, ldx L <> [] -> (i < lN L)%nat -> lrd L i = lrd L (S i) -> line_forces L e k = None.
Proof. exact damp_curve_nan. Qed.
Print Assumptions C42_damping_curve_at_rest_refuted.
Definition curved (x0 : R) : line :=
  Line 1 0.1 2 1000 1000 0 10 1 0 1.2 0.1 [0; 2] [0; 6] [] [] [x0; 2] [3 * x0; 6] false (fun _ => 0)
    (fun i => V3 (2 * INR i) 0 0) (fun i => V3 (INR i) 0 0) (fun _ => 1) (fun _ => 1) false false (V3 1 0 0) (V3 1 0 0).
Example C42_curve_met : norm (seg (curved (-2)) 0) = 2 /\ stretch_rate (curved (-2)) 0 = 1
  /\ interp (lsx (curved (-2))) (lsy (curved (-2))) 1 = Ok 3 /\ interp (ldx (curved (-2))) (ldy (curved (-2))) 1 = Ok 3
  /\ interp (ldx (curved 0)) (ldy (curved 0)) 1 = Ok 3.
Proof.
  assert (ES : seg (curved (-2)) 0 = V3 2 0 0) by (unfold seg; cbn; apply PMat.v3eq; cbn; ring).
  assert (EN : norm (V3 2 0 0) = 2) by (apply norm_x; lra).
  split; [rewrite ES; exact EN|]. split.
  { unfold stretch_rate. rewrite ES, EN. unfold dot. cbn. lra. }
  unfold interp, interp_factor. cbn. repeat split.
  - destruct (Rle_dec 1 0); [lra|]. destruct (Rge_dec 1 2); [lra|]. cbn. destruct (Rle_dec 1 2); [| lra]. cbn. f_equal. field.
  - destruct (Rle_dec 1 (-2)); [lra|]. destruct (Rge_dec 1 2); [lra|]. cbn. destruct (Rle_dec 1 2); [| lra]. cbn. f_equal. field.
  - destruct (Rle_dec 1 0); [lra|]. destruct (Rge_dec 1 2); [lra|]. cbn. destruct (Rle_dec 1 2); [| lra]. cbn. f_equal. field.
Qed.

(** *** C43 *)
(** the reported maximum is that of the nodes 0 .. N-1 *)
Theorem C43_maximum_partial : forall L T Td, exists m, getMaxTen L T Td = Ok m /\ 0 <= m /\
  (forall i, (i < lN L)%nat -> exists t, getNodeTen L T Td i = Ok t /\ norm t <= m) /\
  (m = 0 \/ exists i t, (i < lN L)%nat /\ getNodeTen L T Td i = Ok t /\ m = norm t).
Proof. exact (fun L T Td => max_loop_spec L T Td (lN L) (le_n _)). Qed.
Print Assumptions C43_maximum_partial.
Theorem C43_fairlead_tension_partial : forall L T Td, (0 < lN L)%nat ->
  getFairTen L T Td = Ok (norm (vadd (T (lN L - 1)%nat) (Td (lN L - 1)%nat))).
Proof. exact fairten. Qed.
Print Assumptions C43_fairlead_tension_partial.
Theorem C43_set_stiffness_partial : forall L EA, larea L <> 0 -> getConstantEA (setConstantEA L EA) = EA.
Proof. exact set_get_EA. Qed.
Print Assumptions C43_set_stiffness_partial.
(** the last node is left out: the fairlead tension can exceed the reported maximum *)
Theorem C43_maximum_omits_fairlead_refuted : exists L T Td m f,
  getMaxTen L T Td = Ok m /\ getFairTen L T Td = Ok f /\ m < f.
Proof.
  exact (ex_intro _ demo (ex_intro _ (fun i => match i with 1%nat => V3 2 0 0 | _ => vzero end) (ex_intro _ (fun _ => vzero) max_omits))).
Qed.
Print Assumptions C43_maximum_omits_fairlead_refuted.
(** the constant stiffness query answers the opposite *)
Theorem C43_constant_stiffness_inverted_refuted : forall L, isConstantEA L = true <-> lsx L <> [].
Proof. exact const_EA_inverted. Qed.
Print Assumptions C43_constant_stiffness_inverted_refuted.
(** the sea bed force query adds the bending force *)
Theorem C43_sea_bed_force_refuted : forall L B Bs i, (i <= lN L)%nat -> getNodeSeabedForce L B Bs i = Ok (vadd (B i) (Bs i)).
Proof. exact seabed_query. Qed.
Print Assumptions C43_sea_bed_force_refuted.

(** *** C63 *)
(** what a line exerts on its own nodes has no moment about any point: either without bending
    stiffness or with pinned ends and segments longer than the tolerance *)
Theorem C63_no_internal_moment_partial : forall L e k F, (0 < lN L)%nat -> line_forces L e k = Some F ->
  lisEI L = false \/ (long L /\ lcantA L = false /\ lcantB L = false) ->
  forall o, vsum (lN L + 1) (fun i => cross (vsub (lr L i) o) (internal L e k F i)) = vzero.
Proof. exact internal_moment_any. Qed.
Print Assumptions C63_no_internal_moment_partial.
Definition stiff : line :=
  Line 2 0.1 (PI / 4 * 0.1 * 0.1) 1000 1000 50 10 1 0 1.2 0.1 [] [] [] [] [] [] false (fun _ => 0)
    (fun i => match i with O => V3 0 0 (-10) | S O => V3 2 0 (-10) | _ => V3 2 1 (-10) end)
    (fun i => V3 (INR i) 0 0) (fun _ => 1) (fun _ => PI / 4 * 0.1 * 0.1) false false (V3 1 0 0) (V3 1 0 0).
Example C63_met : lisEI stiff = true /\ long stiff /\ exists F, line_forces stiff demo_env still = Some F.
Proof.
  split; [unfold lisEI; cbn; destruct (Rlt_dec 0 50); [reflexivity | lra]|].
  split; [exact (fun i Hi => proj2 (demo_long i Hi)) | apply linear_total; reflexivity].
Qed.

(** *** C64 *)
Theorem C64_mass_symmetric : forall L e k i, symmetric3 (lM L e k i).
Proof. exact mass_symmetric. Qed.
Print Assumptions C64_mass_symmetric.
Theorem C64_mass_positive_definite : forall L e k i v, (0 < lN L)%nat -> (i <= lN L)%nat -> sensible L -> 0 <= rho_w e ->
  lmi L i * dot v v <= dot v (mmulv (lM L e k i) v) /\ 0 < lmi L i.
Proof. exact mass_posdef. Qed.
Print Assumptions C64_mass_positive_definite.
Theorem C64_second_law : forall L e k T Td Bs i, (0 < lN L)%nat -> (i <= lN L)%nat -> sensible L -> 0 <= rho_w e ->
  mmulv (lM L e k i) (lacc L e k T Td Bs i) = lFnet L e k T Td Bs i.
Proof. exact newton. Qed.
Print Assumptions C64_second_law.
Example C64_met : (0 < lN demo)%nat /\ sensible demo /\ 0 <= rho_w demo_env.
Proof. split; [cbn; lia|]. split; [exact demo_sensible | cbn; lra]. Qed.

(** *** C65 *)
Theorem C65_damping_dissipates_partial : forall L e k F, (0 < lN L)%nat -> ldx L = [] -> line_forces L e k = Some F ->
  0 <= lc L * larea L -> (forall i, (i < lN L)%nat -> 0 < ll L i) ->
  exists F0, line_forces (undamped L) e k = Some F0 /\ power L F <= power L F0.
Proof. exact damping_dissipates. Qed.
Print Assumptions C65_damping_dissipates_partial.
(** exactly: each segment takes c A / l times the square of its stretching rate *)
Theorem C65_dissipated_power_partial : forall L e k F, (0 < lN L)%nat -> ldx L = [] -> long L -> line_forces L e k = Some F ->
  exists F0, line_forces (undamped L) e k = Some F0 /\
    power L F = power L F0 - nsum (lN L) (fun i => lc L * larea L / ll L i * (stretch_rate L i * stretch_rate L i)).
Proof. exact dissipated_power. Qed.
Print Assumptions C65_dissipated_power_partial.
(** with a one-sided damping curve the damping drives the motion of a shortening line *)
Theorem C65_one_sided_curve_drives_refuted : exists L Td, lTd L 0 = Some Td /\ (lN L = 1)%nat /\
  0 < dot Td (vsub (lrd L 0) (lrd L 1)).
Proof. exact one_sided_drives. Qed.
Print Assumptions C65_one_sided_curve_drives_refuted.
Example C65_met : (0 < lN demo)%nat /\ ldx demo = [] /\ long demo /\ 0 < lc demo * larea demo /\ stretch_rate demo 0 <> 0.
Proof.
  pose proof PI_RGT_0. split; [cbn; lia|]. split; [reflexivity|]. split; [exact (fun i Hi => proj2 (demo_long i Hi))|].
  split; [cbn; lra|]. unfold stretch_rate. rewrite demo_seg0. unfold seg, dot. cbn. lra.
Qed.

(** *** C66 *)
(** the internal forces turn work into elastic energy and damping losses, nothing else *)
Theorem C66_energy_balance_partial : forall L e k F p t, (0 < lN L)%nat -> lisEI L = false -> lsx L = [] -> ldx L = [] ->
  (forall i, (i < lN L)%nat -> tol < ll L i /\ tol < norm (seg L i)) ->
  line_forces L e k = Some F -> moves_as L p t ->
  exists dU, derivable_pt_lim (fun s => elastic_energy L (p s)) t dU /\
    power L (internal L e k F) = - dU - nsum (lN L) (fun i => lc L * larea L / ll L i * (stretch_rate L i * stretch_rate L i)).
Proof. exact energy_balance. Qed.
Print Assumptions C66_energy_balance_partial.
Example C66_met : lisEI demo = false /\ (forall i, (i < lN demo)%nat -> tol < ll demo i /\ tol < norm (seg demo i))
  /\ exists p, moves_as demo p 0.
Proof.
  split; [unfold lisEI; cbn; destruct (Rlt_dec 0 0); [lra | reflexivity]|]. split; [exact demo_long|].
  exact (straight_motion demo).
Qed.
