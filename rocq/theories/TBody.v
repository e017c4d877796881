(** Points and bodies: C39 (points and bodies), C46, C71-C75 *)
From Coq Require Import Reals List Arith Lra Lia ZArith Permutation.
From Verif Require Import MErr MVec MStateOps MMat MInterp MLine MRod MBody SMat SLine SRod SBody PMat PEuler PLine PLineB PRod PRodB PRodC PBody PBodyB PBodyC PBodyD PBodyE.
Import ListNotations.
Open Scope R_scope.

(** *** C39 (points and bodies) *)
Theorem C39_point_drag_dissipates : forall p e U, 0 <= rho_w e -> 0 <= p_CdA p ->
  dot (drag_law (rho_w e) (p_CdA p) (vsub U (p_rd p))) (vsub (p_rd p) U) <= 0.
Proof. exact point_drag. Qed.
Print Assumptions C39_point_drag_dissipates.
Theorem C39_body_drag_dissipates : forall b e U, 0 <= rho_w e -> drag_areas b ->
  v6dot (body_drag b e U) (v6sub (b_v b) (V6 U vzero)) <= 0.
Proof. exact body_drag_dissipates. Qed.
Print Assumptions C39_body_drag_dissipates.
Example C39_body_met : drag_areas top_body.
Proof. exact (proj2 top_sensible). Qed.

(** *** C46 *)
Theorem C46_net_force_and_mass : forall p e U, Forall is_end (p_att p) -> exists F M, point_rhs p e U = Ok (F, M) /\
  F = vadd (point_own p e U) (vtotal end_force (p_att p)) /\
  (forall u, energy3 M u = (p_M p + rho_w e * p_V p * p_Ca p) * dot u u / 2 + rtotal (end_energy u) (p_att p)) /\
  (Forall (fun a => symmetric3 (loM (fst a) (end_node a))) (p_att p) -> symmetric3 M).
Proof. exact point_net. Qed.
Print Assumptions C46_net_force_and_mass.
Theorem C46_order_of_attachment : forall p q e U, Permutation (p_att p) (p_att q) -> Forall is_end (p_att p) ->
  p_F p = p_F q -> p_V p = p_V q -> p_M p = p_M q -> p_Ca p = p_Ca q -> p_CdA p = p_CdA q -> p_rd p = p_rd q ->
  Forall (fun a => symmetric3 (loM (fst a) (end_node a))) (p_att p) -> point_rhs p e U = point_rhs q e U.
Proof. exact point_order. Qed.
Print Assumptions C46_order_of_attachment.
Theorem C46_unknown_end_rejected : forall p e U, ~ Forall is_end (p_att p) -> point_rhs p e U = Throw ExInvalidValue.
Proof. exact point_bad. Qed.
Print Assumptions C46_unknown_end_rejected.
(** a free point obeys Newton's second law, and no other acceleration does *)
Theorem C46_acceleration : forall p e U, p_type p = PFree -> Forall is_end (p_att p) -> 0 < p_M p + rho_w e * p_V p * p_Ca p ->
  Forall (fun a => symmetric3 (loM (fst a) (end_node a)) /\ forall u, 0 <= end_energy u a) (p_att p) ->
  exists F M acc, point_rhs p e U = Ok (F, M) /\ point_deriv p e U = Ok (p_rd p, acc) /\ mmulv M acc = F /\ forall b, mmulv M b = F -> b = acc.
Proof. exact point_newton. Qed.
Print Assumptions C46_acceleration.
Definition rope : lineout := LineOut 3 (fun i => V3 (INR i) 0 1) (fun _ => mid) vzero vzero.
Definition buoy : point := Point PFree (V3 0 0 (-5)) (V3 1 0 0) 10 0.02 vzero 0.3 1 [(rope, 1%Z); (rope, 0%Z)].
Example C46_met : Forall is_end (p_att buoy) /\ 0 < p_M buoy + rho_w demo_env * p_V buoy * p_Ca buoy /\
  Forall (fun a => symmetric3 (loM (fst a) (end_node a)) /\ forall u, 0 <= end_energy u a) (p_att buoy).
Proof.
  split; [constructor; [|constructor; [|constructor]]; unfold is_end; cbn; auto|]. split; [cbn; lra|].
  assert (P : forall u, 0 <= energy3 mid u). { intros u. unfold energy3. rewrite mmulv_id. pose proof (dot_pos u). lra. }
  constructor; [split; [reflexivity | intros u; unfold end_energy; cbn [fst loM rope]; apply P]|].
  constructor; [split; [reflexivity | intros u; unfold end_energy; cbn [fst loM rope]; apply P]|]. constructor.
Qed.

(** *** C71: what the objects of a system exert on each other cancels *)
Theorem C71_only_outside_forces : forall e ls (ps : list (point * v3)) (net : point * v3 -> v3),
  Forall (computed e) ls ->
  Permutation (flat_map (fun x => p_att (fst x)) ps) (flat_map both_ends (map (sl_out e) ls)) ->
  (forall x, In x ps -> exists M, point_rhs (fst x) e (snd x) = Ok (net x, M)) ->
  vadd (vtotal net ps) (vtotal between ls) = vadd (vtotal (fun x => point_own (fst x) e (snd x)) ps) (vtotal (outside e) ls).
Proof. exact system_force. Qed.
Print Assumptions C71_only_outside_forces.
(** two points joined by the demonstration line *)
Example C71_met : exists F, let s := SLine demo still F vzero vzero in let o := sl_out demo_env s in
  let A := Point PFixed (V3 0 0 0) vzero 0 0 vzero 0 0 [(o, 0%Z)] in let B := Point PFree (V3 3 0 0) vzero 5 0 vzero 0 0 [(o, 1%Z)] in
  Forall (computed demo_env) [s] /\
  Permutation (flat_map (fun x => p_att (fst x)) [(B, vzero); (A, vzero)]) (flat_map both_ends (map (sl_out demo_env) [s])) /\
  (forall x, In x [(B, vzero); (A, vzero)] -> exists f M, point_rhs (fst x) demo_env (snd x) = Ok (f, M)).
Proof.
  destruct demo_forces as [F HF]. exists F. cbv zeta. split; [constructor; [split; [cbn; lia | exact HF] | constructor]|]. split.
  - cbn. apply perm_swap.
  - intros x [<-|[<-|[]]]; cbn [fst snd]; eexists; eexists; reflexivity.
Qed.

(** *** C72: linear momentum of bodies *)
Theorem C72_point_part : forall p e U rBody w F M x, point_rhs p e U = Ok (F, M) -> point_share p e U rBody w = Ok x ->
  balanced_part w x [(vsub (p_r p) rBody, M)] F.
Proof. exact point_part. Qed.
Print Assumptions C72_point_part.
Theorem C72_rod_part : forall D e k ph be a b M6n rRef w, (0 < rn D)%nat ->
  rM6net D e k ph be a b = Some M6n ->
  balanced_part w (rod_share D (rF6net D e k ph be a b) M6n (rMnet D e k ph a b) rRef w)
    (map (fun i => (vsub (rnode D i) rRef, rMnet D e k ph a b i)) (seq 0 (rn D + 1))) (vsum (rn D + 1) (rFnet D e k ph be a b)).
Proof. exact rod_part. Qed.
Print Assumptions C72_rod_part.
(** mass times acceleration of the centre of gravity and of everything attached is the sum of the forces *)
Theorem C72_free_body_partial : forall b e U parts mss fs a, dry b e -> rotation (b_Or b) -> b_type b = BFree ->
  length mss = length fs -> Forall2 (fun x mf => balanced_part (v6tl (b_v b)) x (fst mf) (snd mf)) parts (combine mss fs) ->
  body_solves b (fst (body_rhs b e U parts)) (snd (body_rhs b e U parts)) a ->
  vadd (vscale (b_M b) (acceleration_at (mmulv (b_Or b) (b_rCG b)) (v6hd a) (v6tl a) (v6tl (b_v b))))
       (vtotal (fun ms => vtotal (carried (v6tl (b_v b)) (v6hd a) (v6tl a)) ms) mss)
  = vadd (vadd (body_Fgrav b e) (v6hd (body_drag b e U))) (vtotal (fun f => f) fs).
Proof. exact body_momentum. Qed.
Print Assumptions C72_free_body_partial.
(** the force reported to the driver for a coupled body is the forces on what it carries less what is
    needed to move it along *)
Theorem C72_coupled_reaction : forall M V rCG I CdA Ca pos Or v a e U parts mss fs, rotation Or ->
  let b := body_keep BCoupled M V rCG I CdA Ca pos Or v a in
  length mss = length fs -> Forall2 (fun x mf => balanced_part (v6tl v) x (fst mf) (snd mf)) parts (combine mss fs) ->
  v6hd (body_getFnet b (fst (body_rhs b e U parts)) (snd (body_rhs b e U parts)))
  = vsub (vtotal (fun f => f) fs) (vtotal (fun ms => vtotal (carried (v6tl v) (v6hd a) (v6tl a)) ms) mss).
Proof. exact coupled_reaction. Qed.
Print Assumptions C72_coupled_reaction.
(** the same for a pinned body: the force reported at its pin is what is missing for the momentum *)
Theorem C72_pinned_reaction : forall b e U parts mss fs a, dry b e -> rotation (b_Or b) -> b_type b = BCpldPin ->
  length mss = length fs -> Forall2 (fun x mf => balanced_part (v6tl (b_v b)) x (fst mf) (snd mf)) parts (combine mss fs) -> b_a b = a ->
  vadd (vscale (b_M b) (acceleration_at (mmulv (b_Or b) (b_rCG b)) (v6hd a) (v6tl a) (v6tl (b_v b))))
       (vtotal (fun ms => vtotal (carried (v6tl (b_v b)) (v6hd a) (v6tl a)) ms) mss)
  = vsub (vadd (vadd (body_Fgrav b e) (v6hd (body_drag b e U))) (vtotal (fun f => f) fs))
         (v6hd (body_getFnet b (fst (body_rhs b e U parts)) (snd (body_rhs b e U parts)))).
Proof. exact pinned_momentum. Qed.
Print Assumptions C72_pinned_reaction.
(** lines attached to a rod add their forces and moments at the end they are attached to *)
Theorem C72_rod_lines : forall D e k ph be a b, (0 < rn D)%nat ->
  rF6net D e k ph be a b = v6add (rF6net D e k ph be [] [])
    (v6add (V6 (vtotal esF a) (vtotal esM a)) (v6add (wrench_at (vsub (rnode D (rn D)) (rnode D 0)) (vtotal esF b)) (V6 vzero (vtotal esM b)))).
Proof. exact rod_lines. Qed.
Print Assumptions C72_rod_lines.
Example C72_met : dry top_body vacuum /\ rotation (b_Or top_body) /\ b_type top_body = BFree /\
  exists F M x, point_rhs buoy vacuum vzero = Ok (F, M) /\ point_share buoy vacuum vzero vzero (V3 1 1 0) = Ok x.
Proof.
  split; [unfold dry; cbn; lra|]. split; [exact mid_rotation|]. split; [reflexivity|]. do 3 eexists. split; reflexivity.
Qed.
Example C72_orientations_are_rotations : forall q, qnorm2 q = 1 -> rotation (qrot q).
Proof. exact qrot_rotation. Qed.

(** *** C73: angular momentum of bodies.  In vacuum the moment about the centre of gravity is zero, so
    the rate of the angular momentum should be; the code leaves these terms *)
Theorem C73_angular_momentum_refuted : forall b e U a, rho_w e = 0 -> rotation (b_Or b) -> b_type b = BFree ->
  body_solves b (fst (body_rhs b e U [])) (snd (body_rhs b e U [])) a ->
  let rc := mmulv (b_Or b) (b_rCG b) in let w := v6tl (b_v b) in
  spin_rate (world_inertia b) w (v6tl a)
  = vadd (cross w (mmulv (world_inertia b) w)) (vscale (b_M b) (cross rc (cross w (cross w rc)))).
Proof. exact body_spin. Qed.
Print Assumptions C73_angular_momentum_refuted.
Theorem C73_spinning_body_refuted : exists b, sensible_body b /\ rotation (b_Or b) /\ forall U a,
  body_solves b (fst (body_rhs b vacuum U [])) (snd (body_rhs b vacuum U [])) a ->
  spin_rate (world_inertia b) (v6tl (b_v b)) (v6tl a) <> vzero.
Proof. exact spinning_body. Qed.
Print Assumptions C73_spinning_body_refuted.
Theorem C73_no_spin_partial : forall b e U a, rho_w e = 0 -> rotation (b_Or b) -> b_type b = BFree -> v6tl (b_v b) = vzero ->
  body_solves b (fst (body_rhs b e U [])) (snd (body_rhs b e U [])) a ->
  spin_rate (world_inertia b) (v6tl (b_v b)) (v6tl a) = vzero.
Proof. exact still_body. Qed.
Print Assumptions C73_no_spin_partial.

(** *** C74: what is handed to a body acts where it acts *)
Theorem C74_point_wrench_partial : forall p e U rBody F M, point_rhs p e U = Ok (F, M) ->
  exists Mb, point_share p e U rBody vzero = Ok (wrench_at (vsub (p_r p) rBody) F, Mb) /\
  (symmetric3 M -> forall t, energy6 Mb t = energy3 M (velocity_at (vsub (p_r p) rBody) t)).
Proof. exact point_handed. Qed.
Print Assumptions C74_point_wrench_partial.
Theorem C74_rod_wrench_partial : forall D F6 M6n M rRef t, (0 < rn D)%nat ->
  v6dot (fst (rod_share D F6 M6n M rRef vzero)) t = v6dot F6 (twist_at (vsub (rnode D 0) rRef) t).
Proof. exact rod_handed. Qed.
Print Assumptions C74_rod_wrench_partial.
(** on a turning body the force of an attached point is shifted without its moment *)
Theorem C74_turning_refuted : exists p e U w F M x, point_rhs p e U = Ok (F, M) /\ point_share p e U vzero w = Ok x /\
  v6tl (fst x) <> cross (p_r p) (v6hd (fst x)).
Proof. exact turning_share. Qed.
Print Assumptions C74_turning_refuted.

(** *** C75: the accelerations of a free body exist and are unique *)
Theorem C75_kinetic_energy : forall b e U parts t, orthogonal (b_Or b) ->
  energy6 (snd (body_rhs b e U parts)) (rotate_twist (b_Or b) t)
  = rigid_energy (b_M b) (b_rCG b) (b_I b) t + water_energy (b_V b * rho_w e) (b_Ca b) t
    + rtotal (fun x => energy6 (snd x) (rotate_twist (b_Or b) t)) parts.
Proof. exact body_energy. Qed.
Print Assumptions C75_kinetic_energy.
Theorem C75_positive_definite : forall b e U parts, sensible_body b -> 0 <= rho_w e -> orthogonal (b_Or b) -> proper_parts parts ->
  let M := snd (body_rhs b e U parts) in symmetric6 M /\ forall t, t <> v6zero -> 0 < energy6 M t.
Proof. exact body_pd. Qed.
Print Assumptions C75_positive_definite.
Theorem C75_unique_acceleration : forall b e U parts, sensible_body b -> 0 <= rho_w e -> orthogonal (b_Or b) -> proper_parts parts -> b_type b = BFree ->
  exists a, body_solves b (fst (body_rhs b e U parts)) (snd (body_rhs b e U parts)) a
    /\ forall a', body_solves b (fst (body_rhs b e U parts)) (snd (body_rhs b e U parts)) a' -> a' = a.
Proof. exact body_accelerates. Qed.
Print Assumptions C75_unique_acceleration.
(** a pinned body keeps the prescribed acceleration of its pin, and its rotation solves the equations of
    the moments, uniquely *)
Theorem C75_pinned_acceleration : forall b e U parts, sensible_body b -> 0 <= rho_w e -> orthogonal (b_Or b) -> proper_parts parts -> b_type b = BCpldPin ->
  let F := fst (body_rhs b e U parts) in let M := snd (body_rhs b e U parts) in
  exists a, body_solves b F M a /\ v6hd a = v6hd (b_a b) /\ v6tl (m6mulv M a) = v6tl F /\
    forall a', v6hd a' = v6hd (b_a b) -> v6tl (m6mulv M a') = v6tl F -> a' = a.
Proof. exact pinned_accelerates. Qed.
Print Assumptions C75_pinned_acceleration.
Example C75_pinned_met : let b := Body BCpldPin 2 0.001 (V3 0 0 (-1)) (V3 1 2 3) (V6 (V3 1 1 1) (V3 1 1 1)) (V6 (V3 1 1 1) (V3 0 0 0)) vzero mid (V6 vzero (V3 1 1 0)) v6zero in
  sensible_body b /\ dry b vacuum /\ rotation (b_Or b) /\ orthogonal (b_Or b).
Proof. split; [exact (proj1 top_sensible)|]. split; [unfold dry; cbn; lra|]. split; [exact mid_rotation|exact (proj1 mid_rotation)]. Qed.
Example C75_met : sensible_body top_body /\ orthogonal (b_Or top_body) /\ proper_parts [(v6zero, translateMass (V3 1 2 3) mid)].
Proof.
  split; [exact (proj1 top_sensible)|]. split; [exact (proj1 mid_rotation)|]. constructor; [|constructor]. cbn [snd].
  assert (S : symmetric3 mid) by reflexivity. split; [apply translate3_sym; exact S|]. intros t. rewrite translate3_energy by exact S.
  unfold energy3. rewrite mmulv_id. pose proof (dot_pos (velocity_at (V3 1 2 3) t)). lra.
Qed.

(** *** C76: water only acts on what is in it.  A point above the water that is lighter than the
    water it could displace is pushed up *)
Theorem C76_point_above_water_refuted : forall p e U F M, 0 < vz (p_r p) -> p_att p = [] -> p_F p = vzero -> U = p_rd p -> 0 < gr e -> p_M p < rho_w e * p_V p ->
  point_rhs p e U = Ok (F, M) -> 0 < vz F.
Proof. exact dry_buoyancy. Qed.
Print Assumptions C76_point_above_water_refuted.
Example C76_met : let p := Point PFree (V3 0 0 1000) vzero 10 0.02 vzero 0 0 [] in
  0 < vz (p_r p) /\ p_M p < rho_w demo_env * p_V p /\ exists F M, point_rhs p demo_env vzero = Ok (F, M).
Proof. cbn. split; [lra|]. split; [lra|]. do 2 eexists. reflexivity. Qed.
