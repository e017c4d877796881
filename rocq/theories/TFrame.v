(** C101 and C102: the choice of the horizontal axes, and of the end a line is described from. *)
From Coq Require Import Reals List Arith ZArith Bool Lra Lia.
From Verif Require Import MErr MVec MStateOps MMat MInterp MLine MRod MBody MScheme MSys SMat SLine SRod SFrame PMat PLine PLineB PRod PRodB PRodC PFrame PFrameB PFrameC PFrameD PFrameE PFrameF PFrameG PFrameH PDemo PFrameI PSymm.
From Verif Require MStep MNodes.
Import ListNotations.
Open Scope R_scope.

(** *** C101.  [g] is a turn about the vertical, a reflection at a vertical plane, a shift, or any combination *)
(** lines: forces and masses of the nodes; the line fails in one system of axes if it fails in the other *)
Theorem C101_line : forall g L e k k', isometry g -> moved_water g k k' ->
  match line_forces L e k, line_forces (moved_line g L) e k' with Some F, Some F' => forall i, F' i = turn g (F i) | None, None => True | _, _ => False end /\
  forall i, moved_matrix g (lM L e k i) (lM (moved_line g L) e k' i).
Proof. intros g L e k k' HG HK. split; [exact (line_moved g HG L e k k' HK)|exact (lM_moved g HG L e k k' HK)]. Qed.
Print Assumptions C101_line.
(** the accelerations follow: what solves a regular mass matrix turns with it *)
Theorem C101_acceleration : forall g m m' F, isometry g -> moved_matrix g m m' -> mdet m <> 0 -> mdet m' = mdet m /\ mmulv (minv m') (turn g F) = turn g (mmulv (minv m) F).
Proof. intros g m m' F HG HM HD. split; [exact (det_moved g HG m m' HM)|exact (minv_moved g HG m m' F HM HD)]. Qed.
Print Assumptions C101_acceleration.
(** points with any number of lines: force and mass, and what they hand to a body *)
Theorem C101_point : forall g p p' e U, isometry g -> moved_point g p p' ->
  agree (fun x x' => fst x' = turn g (fst x) /\ moved_matrix g (snd x) (snd x')) (point_rhs p e U) (point_rhs p' e (turn g U)) /\
  forall rB w, agree (fun x x' => fst x' = turn6 g (fst x) /\ moved_matrix6 g (snd x) (snd x')) (point_share p e U rB w) (point_share p' e (turn g U) (place g rB) (spin g w)).
Proof. intros g p p' e U HG HP. split; [exact (point_moved g HG p p' e U HP)|intros rB w; exact (point_share_moved g HG p p' e U rB w HP)]. Qed.
Print Assumptions C101_point.
(** rods with any number of lines at their ends, not nearly vertical (a rod less than a millionth off the vertical loses its
    heading; a vertical one is included) *)
Theorem C101_rod_partial : forall g D e k k' ph be a b a' b', isometry g -> moved_water g k k' -> Forall2 (moved_end g) a a' -> Forall2 (moved_end g) b b' ->
  rangles D = Ok (ph, be) -> ((0 < rn D)%nat -> headed (rq D)) ->
  exists be', rangles (moved_rod g D) = Ok (ph, be') /\ rF6net (moved_rod g D) e k' ph be' a' b' = turn6 g (rF6net D e k ph be a b) /\
    match rM6net D e k ph be a b, rM6net (moved_rod g D) e k' ph be' a' b' with Some M, Some M' => moved_matrix6 g M M' | None, None => True | _, _ => False end.
Proof.
  intros g D e k k' ph be a b a' b' HG HK HA HB E HH. destruct (angles_moved g HG D ph be E HH) as (be' & E' & HBe). exists be'. split; [exact E'|]. split.
  - now apply rF6net_moved.
  - now apply rM6net_moved.
Qed.
Print Assumptions C101_rod_partial.
(** bodies with any number of points and rods, under turns and shifts *)
Theorem C101_body_partial : forall g b e U parts parts', isometry g -> g_d g = 1 -> Forall2 (fun x x' => fst x' = turn6 g (fst x) /\ moved_matrix6 g (snd x) (snd x')) parts parts' ->
  let r := body_rhs b e U parts in let r' := body_rhs (moved_body g b) e (turn g U) parts' in
  fst r' = turn6 g (fst r) /\ moved_matrix6 g (snd r) (snd r') /\
  (forall a, body_solves b (fst r) (snd r) a -> body_solves (moved_body g b) (fst r') (snd r') (turn6 g a)) /\
  body_getFnet (moved_body g b) (fst r') (snd r') = turn6 g (body_getFnet b (fst r) (snd r)).
Proof.
  intros g b e U parts parts' HG HD HP r r'. destruct (body_moved g HG HD b e U parts parts' HP) as (A & B). fold r r' in A, B. split; [exact A|]. split; [exact B|]. rewrite A. split.
  - intros a. now apply solves_moved.
  - now apply fnet_moved.
Qed.
Print Assumptions C101_body_partial.
(** whole simulations of lines and points: any number of coupling steps, any time scheme that evaluates all the objects. Both
    runs succeed or fail in the same way, and return the same forces *)
Theorem C101_simulation : forall g sea sea' depth depth' ec conv fuel m m' calls, isometry g -> moved_sea g sea sea' -> moved_depth g depth depth' ->
  whole (MStep.m_scheme _ _ _ m) -> (match MStep.m_scheme _ _ _ m with AndersonEuler _ _ => blind_test g conv | _ => True end) -> moved_instance g m m' ->
  agree (fun r r' => moved_instance g (fst r) (fst r') /\ Forall2 (same_forces g) (snd r) (snd r'))
    (net_run sea depth ec conv fuel m (map (fun c : list v3 * list v3 * R => coupling (fst (fst c)) (snd (fst c)) (snd c)) calls))
    (net_run sea' depth' ec conv fuel m' (map (fun c => coupling (map (place g) (fst (fst c))) (map (turn g) (snd (fst c))) (snd c)) calls)).
Proof. intros g sea sea' depth depth' ec conv fuel m m' calls HG HS HD HW HC HM. exact (run_moved g HG sea sea' depth depth' ec HS HD conv fuel calls m m' HW HC HM). Qed.
Print Assumptions C101_simulation.
(** the test of the Anderson scheme is not blind to the axes: it averages the absolute components of the residue *)
Theorem C101_anderson_refuted : exists g, isometry g /\ ~ blind_test g (fun x fx => if Rlt_dec (residue_mean x fx) 0.01 then true else false).
Proof.
  exists (Plane 0.6 0.8 1 0 0). split; [unfold isometry; cbn; split; [lra|now left]|]. intro H.
  set (x := Md [] [Dr vzero vzero] [] []). set (y := Md [] [Dr vzero (V3 0.028 0 0)] [] []).
  specialize (H x (Md [] [Dr vzero vzero] [] []) y (Md [] [Dr vzero (V3 0.0168 0.0224 0)] [] [])).
  assert (A1 : moved_deriv (Plane 0.6 0.8 1 0 0) x (Md [] [Dr vzero vzero] [] [])). { split; [reflexivity|]. split; [reflexivity|]. cbn. unfold turn, vzero. cbn. repeat f_equal; lra. }
  assert (A2 : moved_deriv (Plane 0.6 0.8 1 0 0) y (Md [] [Dr vzero (V3 0.0168 0.0224 0)] [] [])). { split; [reflexivity|]. split; [reflexivity|]. cbn. unfold turn, vzero. cbn. repeat f_equal; lra. }
  specialize (H A1 A2). unfold x, y, residue_mean in H. cbn [d_lines d_points flat_map map app combine dacc fst snd comps vsub vx vy vz vzero fold_left length] in H.
  rewrite !Rminus_0_r, !Rabs_R0 in H. rewrite !Rabs_right in H by lra. replace (INR 3) with 3 in H by (cbn; lra). destruct (Rlt_dec ((0 + 0.028 + 0 + 0) / 3) 0.01) as [_|K]; [|lra]. destruct (Rlt_dec ((0 + 0.0168 + 0.0224 + 0) / 3) 0.01) as [K|_]; [lra|discriminate].
Qed.
Print Assumptions C101_anderson_refuted.

(** a turn by the angle of (3, 4) after a reflection, and a shift; the same system in the new axes exists for every system
    without rods and bodies; a line in a current runs *)
Definition g1 : plane := Plane 0.6 0.8 (-1) 5 (-7).
Example C101_met_isometry : isometry g1. Proof. unfold isometry, g1; cbn; split; [lra|now right]. Qed.
Example C101_met_sea : moved_sea g1 sea1 (fun t _ => MNodes.Wk 0 (turn g1 (V3 (1 + 0.1 * t) 0 0)) (turn g1 (V3 0.1 0 0)) 0) /\ moved_depth g1 (fun _ _ => -20) (fun _ _ => -20).
Proof. split; intro; reflexivity. Qed.
Example C101_met_instance : forall g m, no_frames m -> moved_instance g m (mv_inst g m). Proof. exact moved_exists. Qed.
Example C101_met_run : no_frames inst1 /\ whole (MStep.m_scheme _ _ _ inst1) /\ forall conv, exists m f, net_run sea1 (fun _ _ => -20) demo_env conv 2 inst1 (map (fun c => coupling (fst (fst c)) (snd (fst c)) (snd c)) calls1) = Ok (m, [f]) /\ length f = 3%nat.
Proof. split; [exact inst1_plain|]. split; [exact I|exact runs1]. Qed.
Example C101_met_water : moved_water g1 still (Wkin (fun _ => 0) (fun _ => turn g1 vzero) (fun _ => turn g1 vzero) (fun _ => 0) (fun _ _ => -20)).
Proof. split; [intro; repeat split|intro; reflexivity]. Qed.
Example C101_met_line : exists F, line_forces demo demo_env still = Some F. Proof. exact demo_forces. Qed.
Example C101_met_rod : let D := rod1 (V3 0.6 0 0.8) vzero (V3 0 1 0) in headed (rq D) /\ exists ph be, rangles D = Ok (ph, be).
Proof. split; [exact slant_headed|]. apply headed_angles; [cbn; lia | exact slant_headed]. Qed.

(** *** C102.  The line described from B to A has the same forces and masses at the same nodes, unless a node lies exactly at
    the level of the water over its segment *)
Theorem C102_reversed_partial : forall L e k, (0 < lN L)%nat ->
  (forall i, (i < lN L)%nat -> vz (lr L i) <> 0.5 * (wzeta k i + wzeta k (S i)) /\ vz (lr L (S i)) <> 0.5 * (wzeta k i + wzeta k (S i))) ->
  match line_forces L e k, line_forces (reversed L) e (reversed_water (lN L) k) with
  | Some F, Some F' => forall i, (i <= lN L)%nat -> F' i = F (lN L - i)%nat | None, None => True | _, _ => False end /\
  forall i, (i <= lN L)%nat -> lM (reversed L) e (reversed_water (lN L) k) i = lM L e k (lN L - i)%nat.
Proof. intros L e k HN HS. split; [exact (line_rev L HN e k HS)|intros i Hi; exact (lM_rev L HN e k HS i Hi)]. Qed.
Print Assumptions C102_reversed_partial.
(** the tensions need no such exception *)
Theorem C102_tension : forall L, (0 < lN L)%nat -> forall i, (i < lN L)%nat ->
  lT (reversed L) i = option_map (vscale (-1)) (lT L (lN L - 1 - i)) /\ lTd (reversed L) i = option_map (vscale (-1)) (lTd L (lN L - 1 - i)).
Proof. intros L HN i Hi. split; [exact (lT_rev L HN i Hi)|exact (lTd_rev L HN i Hi)]. Qed.
Print Assumptions C102_tension.
(** a line standing on the surface of still water is wholly under water if described from its foot, and dry if described from
    its top *)
Theorem C102_reversed_refuted : ~ (forall L e k F F', (0 < lN L)%nat -> line_forces L e k = Some F -> line_forces (reversed L) e (reversed_water (lN L) k) = Some F' ->
  forall i, (i <= lN L)%nat -> F' i = F (lN L - i)%nat).
Proof. intro H. destruct post_refutes as (F & F' & E & E' & N). apply N. intros i Hi. exact (H post demo_env still F F' (Nat.lt_0_succ 0) E E' i Hi). Qed.
Print Assumptions C102_reversed_refuted.
Example C102_met : (0 < lN demo)%nat /\ (forall i, (i < lN demo)%nat -> vz (lr demo i) <> 0.5 * (wzeta still i + wzeta still (S i)) /\ vz (lr demo (S i)) <> 0.5 * (wzeta still i + wzeta still (S i))) /\ exists F, line_forces demo demo_env still = Some F.
Proof. split; [cbn; lia|]. split; [|exact demo_forces]. intros i Hi. cbn in Hi. destruct i as [|[|i]]; cbn; [split; lra|split; lra|lia]. Qed.
