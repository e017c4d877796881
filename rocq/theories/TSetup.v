(** C99: what the options of waves and currents give. *)
From Coq Require Import List Arith ZArith Bool Reals Lra Lia.
From Verif Require Import MErr MVec MStateOps MNodes SNodes PNodes MSetup SSetup PSetup.
Import ListNotations.
Local Open Scope Z_scope.

(** With files that can be read, every documented pair of options is accepted, at the reading of the input and at the
    start of the simulation, and the water moves as the options say: the flow of the waves plus that of the currents, or
    that of the common grid. The files are read with the average depth of the sea floor, and the depth of the
    environment is afterwards what it was. *)
Theorem C99_documented : forall WG CG wfield cfield fft elev comp st dy g4 unify ndebug floor depth o x,
  documented o = true -> readable WG CG fft elev comp st dy g4 unify (match floor with Some f => - f | None => depth end)%R o x ->
  exists s, simulation WG CG fft elev comp st dy g4 unify ndebug floor depth o = (depth, s, Ok Returned) /\
  forall p t, kin_at WG CG wfield cfield s p t = motion WG CG wfield cfield x o p t.
Proof.
  intros WG CG wfield cfield fft elev comp st dy g4 unify ndebug floor depth o x HD HR. destruct (simulated WG CG fft elev comp st dy g4 unify ndebug floor depth o x HR) as (d & s & E & K).
  assert (V : verdict ndebug o = Ok Returned) by (unfold verdict; now rewrite HD). destruct (K V) as [-> ->]. rewrite V in E. eexists. split; [exact E|]. intros p t. apply kept_motion.
Qed.
Print Assumptions C99_documented.

(** The nodes of lines, rods, points and bodies see this flow at every update, if waves are not external. *)
Theorem C99_nodes : forall WG CG wfield cfield fft elev comp st dy g4 unify ndebug floor depth o x nd tab wtb tm,
  documented o = true -> readable WG CG fft elev comp st dy g4 unify (match floor with Some f => - f | None => depth end)%R o x ->
  o_wave o <> 1 -> fits nd tab -> calm o tab ->
  exists s w', simulation WG CG fft elev comp st dy g4 unify ndebug floor depth o = (depth, s, Ok Returned) /\
  update_waves nd tm (as_waves WG CG wfield cfield o s tab wtb) = Ok w' /\ fits nd (nodeKin w') /\
  forall a p, position nd a = Some p -> water (nodeKin w') a = Some (motion WG CG wfield cfield x o p tm).
Proof.
  intros WG CG wfield cfield fft elev comp st dy g4 unify ndebug floor depth o x nd tab wtb tm HD HR HN F HC.
  destruct (simulated WG CG fft elev comp st dy g4 unify ndebug floor depth o x HR) as (d & s & E & K).
  assert (V : verdict ndebug o = Ok Returned) by (unfold verdict; now rewrite HD). destruct (K V) as [-> ->]. rewrite V in E.
  destruct (nodes_motion WG CG wfield cfield x o nd tab wtb tm (proj2 (Z.eqb_neq _ _) HN) F HC) as (w' & E' & F' & H). eexists. exists w'. repeat split; eauto; apply F'.
Qed.
Print Assumptions C99_nodes.

(** External waves: the nodes see what the caller gave plus the currents, and without currents what the caller gave. *)
Theorem C99_external : forall WG CG wfield cfield fft elev comp st dy g4 unify ndebug floor depth o x nd tab wtb tm,
  documented o = true -> readable WG CG fft elev comp st dy g4 unify (match floor with Some f => - f | None => depth end)%R o x ->
  o_wave o = 1 -> fits nd tab -> fits nd wtb ->
  exists s w', simulation WG CG fft elev comp st dy g4 unify ndebug floor depth o = (depth, s, Ok Returned) /\
  update_waves nd tm (as_waves WG CG wfield cfield o s tab wtb) = Ok w' /\
  (o_curr o = 0 -> nodeKin w' = tab) /\
  (o_curr o <> 0 -> forall a p v, position nd a = Some p -> water wtb a = Some v -> exists y, water (nodeKin w') a = Some y /\
     w_u y = vadd (w_u v) (fst (current_flow WG CG cfield x (o_curr o) p tm)) /\ w_ud y = vadd (w_ud v) (snd (current_flow WG CG cfield x (o_curr o) p tm))).
Proof.
  intros WG CG wfield cfield fft elev comp st dy g4 unify ndebug floor depth o x nd tab wtb tm HD HR HN F1 F2.
  destruct (simulated WG CG fft elev comp st dy g4 unify ndebug floor depth o x HR) as (d & s & E & K).
  assert (V : verdict ndebug o = Ok Returned) by (unfold verdict; now rewrite HD). destruct (K V) as [-> ->]. rewrite V in E.
  pose proof (nodes_external WG CG wfield cfield x o nd tab wtb tm HN F1 F2) as H. unfold current_flow.
  assert (C : the_current WG CG x (o_curr o) = None <-> o_curr o = 0).
  { unfold documented in HD. apply andb_true_iff in HD as [_ HD]. cbn in HD. unfold the_current. split; [|intros ->; reflexivity].
    destruct (Z.eqb_spec (o_curr o) 0); [trivial|]. destruct (o_curr o =? 1); [discriminate|]. destruct (o_curr o =? 2); [discriminate|]. destruct (o_curr o =? 5); discriminate. }
  destruct (the_current WG CG x (o_curr o)) as [c|].
  - destruct H as (w' & E' & H). eexists. exists w'. split; [exact E|]. split; [exact E'|]. split; [|intros _; exact H]. intro H0. apply C in H0. discriminate.
  - eexists. eexists. split; [exact E|]. split; [exact H|]. split; [reflexivity|]. intro Hn. exfalso. apply Hn. now apply C.
Qed.
Print Assumptions C99_external.

(** Nothing is simulated without the files that the options ask for: the spectrum of option 7 has to begin at frequency 0. *)
Theorem C99_files : forall WG CG fft elev comp st dy g4 unify ndebug floor depth o d s,
  simulation WG CG fft elev comp st dy g4 unify ndebug floor depth o = (d, s, Ok Returned) ->
  let dd := (match floor with Some f => - f | None => depth end)%R in
  (o_wave o = 2 -> exists g, fft dd = Ok g) /\ (o_wave o = 3 -> exists g, elev dd = Ok g) /\ (o_wave o = 7 -> exists ws f, comp dd = Ok (0%R :: ws, f)) /\
  (o_curr o = 1 -> exists c, st dd = Ok c) /\ (o_curr o = 2 -> exists c, dy dd = Ok c) /\ (o_curr o = 5 -> exists c, g4 dd = Ok c).
Proof. exact simulation_needs. Qed.
Print Assumptions C99_files.

(** All other integers: some are refused. The rest is accepted by a build without assertions, and the program is ended by a
    build with them. *)
Theorem C99_others : forall WG CG fft elev comp st dy g4 unify ndebug floor depth o x,
  readable WG CG fft elev comp st dy g4 unify (match floor with Some f => - f | None => depth end)%R o x ->
  snd (simulation WG CG fft elev comp st dy g4 unify ndebug floor depth o) =
  if documented o then Ok Returned else if refused o then Throw ExInvalidValue else if ndebug then Ok Returned else Ok Aborted.
Proof. intros WG CG fft elev comp st dy g4 unify ndebug floor depth o x HR. destruct (simulated WG CG fft elev comp st dy g4 unify ndebug floor depth o x HR) as (d & s & E & _). rewrite E. reflexivity. Qed.
Print Assumptions C99_others.

(** Options that are documented as not implemented are not refused: with waves 5 or 6 or currents 3 or 4, a build without
    assertions simulates still water without any error. *)
Theorem C99_not_implemented_refuted : forall WG CG wfield cfield fft elev comp st dy g4 unify floor depth x wm cm un,
  readable WG CG fft elev comp st dy g4 unify (match floor with Some f => - f | None => depth end)%R (Options wm cm un) x ->
  (wm = 5 \/ wm = 6) /\ cm = 0 \/ wm = 0 /\ (cm = 3 \/ cm = 4) ->
  exists s, simulation WG CG fft elev comp st dy g4 unify true floor depth (Options wm cm un) = (depth, s, Ok Returned) /\ forall p t, kin_at WG CG wfield cfield s p t = wzero.
Proof.
  intros WG CG wfield cfield fft elev comp st dy g4 unify floor depth x wm cm un HR HO. destruct (simulated WG CG fft elev comp st dy g4 unify true floor depth (Options wm cm un) x HR) as (d & s & E & K).
  assert (V : verdict true (Options wm cm un) = Ok Returned) by (destruct HO as [([-> | ->] & ->)|(-> & [-> | ->])]; reflexivity). destruct (K V) as [-> ->]. rewrite V in E. eexists. split; [exact E|].
  intros p t. rewrite kept_motion. destruct HO as [([-> | ->] & ->)|(-> & [-> | ->])]; exact (plus_zero wzero).
Qed.
Print Assumptions C99_not_implemented_refuted.

(** If the files of the waves cannot be read the error is returned, but the depth of the environment stays replaced by the
    average depth of the sea floor: it is not what it was. *)
Theorem C99_depth_refuted : ~ (forall WG CG fft elev comp st dy g4 unify ndebug floor depth o d s r,
  simulation WG CG fft elev comp st dy g4 unify ndebug floor depth o = (d, s, r) -> d = depth).
Proof.
  intro H. specialize (H unit unit (fun _ => Throw ExInputFile) (fun _ => Throw ExInputFile) (fun _ => Throw ExInputFile) (fun _ => Throw ExInputFile) (fun _ => Throw ExInputFile) (fun _ => Throw ExInputFile) (fun _ _ _ => UB) true (Some (-30)%R) 50%R (Options 2 0 true)).
  specialize (H _ _ _ eq_refl). cbn in H. lra.
Qed.
Print Assumptions C99_depth_refuted.

(** The elevation of the water asked for at a place is that of the waves; without waves (or with external ones) the
    function reads a null pointer, where still water has the elevation zero. *)
Theorem C99_height_partial : forall WG CG wfield cfield fft elev comp st dy g4 unify ndebug floor depth o x s,
  documented o = true -> readable WG CG fft elev comp st dy g4 unify (match floor with Some f => - f | None => depth end)%R o x ->
  simulation WG CG fft elev comp st dy g4 unify ndebug floor depth o = (depth, s, Ok Returned) ->
  forall a b t, height_at WG CG wfield s a b t = if existsb (Z.eqb (o_wave o)) [2; 3; 7] then Ok (w_zeta (motion WG CG wfield cfield x o (V3 a b 0) t)) else UB.
Proof.
  intros WG CG wfield cfield fft elev comp st dy g4 unify ndebug floor depth o x s HD HR E a b t. destruct (simulated WG CG fft elev comp st dy g4 unify ndebug floor depth o x HR) as (d & s' & E' & K).
  assert (V : verdict ndebug o = Ok Returned) by (unfold verdict; now rewrite HD). destruct (K V) as [-> ->]. rewrite E' in E. assert (s = kept WG CG x o) as -> by congruence. clear E E' K V.
  unfold height_at. rewrite <- kept_motion. unfold kin_at. destruct (ws_wave WG CG (kept WG CG x o)) as [w|] eqn:EW.
  - destruct (existsb (Z.eqb (o_wave o)) [2; 3; 7]) eqn:EX; [|rewrite (kept_wave WG CG x o EX) in EW; discriminate]. now destruct (ws_curr WG CG (kept WG CG x o)).
  - now rewrite (kept_wave' WG CG x o EW).
Qed.
Print Assumptions C99_height_partial.

(** A case: grids are velocities of a uniform flow; waves from the elevations, a steady current, separate grids and one
    grid. *)
Definition ex_w (g : R) (p : v3) (t : R) : wkin := Wk g (V3 g 0 0) vzero 0.
Definition ex_c (c : R) (p : v3) (t : R) : v3 * v3 := (V3 0 c 0, vzero).
Definition ex_files : water_files R R := WFiles R R 1%R 2%R (fun _ _ => wzero) 3%R 4%R 5%R (fun _ g c => (g + c)%R).
Example C99_ex_readable : forall o, o_wave o <> 2 -> o_curr o <> 2 -> readable R R (fun _ => Throw ExInputFile) (fun _ => Ok 2%R) (fun _ => Ok ([0; 1]%R, fun _ _ => wzero)) (fun _ => Ok 3%R) (fun _ => Throw ExInputFile) (fun _ => Ok 5%R) (fun _ g c => Ok (g + c)%R) 100%R o ex_files.
Proof. intros o H K. repeat split; try contradiction. intros _. exists [1%R]. reflexivity. Qed.
Example C99_ex_documented : documented (Options 3 1 true) = true /\ documented (Options 3 1 false) = true /\ documented (Options 1 5 true) = true /\ documented (Options 4 1 true) = false.
Proof. repeat split. Qed.
Example C99_ex_motion : motion R R ex_w ex_c ex_files (Options 3 1 false) vzero 0%R = Wk 2 (V3 (2 + 0) (0 + 3) (0 + 0)) (vadd vzero vzero) 0 /\ motion R R ex_w ex_c ex_files (Options 3 1 true) vzero 0%R = ex_w (2 + 3)%R vzero 0%R.
Proof. split; reflexivity. Qed.
Example C99_ex_calm : forall o nd, exists t, make_table nd = Ok t /\ fits nd t /\ (nd = Nodes [[vzero; V3 1 0 0]] [] [] [vzero] -> calm o t).
Proof.
  intros o nd. destruct (make_table_fits nd) as (t & E & F). exists t. split; [exact E|]. split; [exact F|]. intros ->. cbn in E. assert (t = Wtab [[wzero; wzero]] [] [] [[wzero]]) as -> by congruence.
  assert (Z : forall a w, water (Wtab [[wzero; wzero]] [] [] [[wzero]]) a = Some w -> w = wzero).
  { intros [l j|l j|l|l] w H; cbn in H; unfold get2 in H; repeat (destruct l as [|l]; cbn in H; try discriminate); repeat (destruct j as [|j]; cbn in H; try discriminate); try congruence. all: destruct l; discriminate. }
  intros a w Ha. rewrite (Z a w Ha). repeat split.
Qed.
