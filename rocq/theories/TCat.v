(** C95, C96: the initial shape of lines, and their internal damping. *)
From Coq Require Import Reals ZArith List Arith Bool Lra Lia.
From Verif Require Import MErr MVec MStateOps MCat SCat PCatD PCatE PCatF PCatG PCatH.
Import ListNotations.
Open Scope R_scope.

(** Whatever the distances, length, stiffness, weight, friction, tolerance and places of the nodes: if the routine
    returns a line, its nodes are points of an elastic line in static equilibrium, under its weight and on a sea
    bed at the height of its lower end with friction; the line starts at the lower end; the tensions at the nodes
    and at both ends are those of that line. *)
Theorem C95_static : forall XF ZF L EA W CB Tol s c, catenary XF ZF L EA W CB Tol s = Ok (Some c) -> 0 < EA -> 0 < Tol -> 0 <= L ->
  exists X Z h v kinks, let low := if Rlt_dec ZF 0 then L else 0 in let high := L - low in let sg := if Rlt_dec ZF 0 then -1 else 1 in
    (length kinks <= 2)%nat /\ static_line L EA W CB X Z h v (Z low) kinks /\
    cnodes c = map (fun a => (X a, Z a, tension h v a)) (if Rlt_dec ZF 0 then map (fun a => L - a) (rev s) else s) /\
    (if Rlt_dec ZF 0 then X L = Rmax XF Tol /\ Z L = - Rmax (- ZF) Tol else X 0 = 0 /\ Z 0 = 0) /\
    h low = cHA c /\ sg * v low = cVA c /\ 0 < cHF c /\ (CB < 0 \/ 0 < cVF c -> h high = cHF c /\ sg * v high = cVF c) /\ (forall a, In a s -> 0 <= a <= L).
Proof. exact catenary_static. Qed.
Print Assumptions C95_static.

(** Where the other end comes to lie: unless the tensions are accepted in the very last iteration, a change of the
    tension of a fraction Tol / (1 - Tol I) brings the end of the line to the given place, to first order. *)
Theorem C95_closes : forall XF ZF L EA W CB Tol s c, catenary XF ZF L EA W CB Tol s = Ok (Some c) -> 0 < EA -> 0 < Tol < 1 / 2 -> 0 <= L -> CB <= 0 ->
  exists I, (1 <= I)%nat /\ Tol * INR I <= 1 /\
  (Tol * INR I < 1 -> CB < 0 \/ 0 < cVF c -> exists bed E, end_map L EA W bed E /\ (bed = true -> CB = 0 /\ 0 < cVF c <= W * L) /\
     reaches E (cHF c) (cVF c) (Rmax XF Tol) (Rmax (Rabs ZF) Tol) (Tol * cHF c / (1 - Tol * INR I)) (Tol * Rabs (cVF c) / (1 - Tol * INR I))).
Proof. exact catenary_closes. Qed.
Print Assumptions C95_closes.

(** A line of 10 m between ends 10.1 m apart, with a coarse tolerance: it is accepted in one of two iterations. *)
Example C95_closes_case : exists c E, catenary (101 / 10) 0 10 1000 1 (-1) (49 / 100) [0; 5; 10] = Ok (Some c) /\ end_map 10 1000 1 false E /\
  exists eh ev, reaches E (cHF c) (cVF c) (101 / 10) (49 / 100) eh ev /\ eh <= 25 * cHF c.
Proof.
  destruct case_accepts as (c & Hc). exists c. destruct (C95_closes _ _ _ _ _ _ _ _ _ Hc ltac:(lra) ltac:(lra) ltac:(lra) ltac:(lra)) as (I & H1 & H2 & H3).
  assert (HI : INR I <= 2). { assert (HI : (I < 3)%nat) by (apply INR_lt; cbn; lra). apply (le_INR I 2). lia. }
  destruct H3 as (bed & E & A & B & D); [lra|left; lra|]. exists E. split; [exact Hc|].
  pose proof (C95_static _ _ _ _ _ _ _ _ _ Hc ltac:(lra) ltac:(lra) ltac:(lra)) as (X & Z & h & v & k & _ & _ & _ & _ & _ & _ & P & _ & _).
  rewrite Rabs_R0, (Rmax_left (101 / 10)), (Rmax_right 0) in D by lra.
  assert (K : forall m, 0 < m -> 2 / 100 <= m -> 49 / 100 * cHF c / m <= 25 * cHF c).
  { intros m Pm Hm. apply Rmult_le_reg_r with m; [exact Pm|]. unfold Rdiv. rewrite !Rmult_assoc, Rinv_l by lra. nra. }
  destruct bed; [destruct (B eq_refl); lra|]. split; [exact A|]. eexists _, _. split; [exact D|]. apply K; lra.
Qed.

(** Without a sea bed the routine returns a line for every weight, stiffness and length: it never answers that
    no equilibrium was found. *)
Theorem C95_hangs : forall XF ZF L EA W CB s, CB < 0 -> 0 < EA -> W <> 0 -> 0 < L -> (forall a, In a s -> 0 <= a <= L) ->
  exists c, catenary XF ZF L EA W CB (1 / 100000) s = Ok (Some c).
Proof. exact catenary_hangs. Qed.
Print Assumptions C95_hangs.

(** A line of 150 m over 100 m and 50 m of height, with three nodes. *)
Example C95_hangs_case : exists c, catenary 100 50 150 1000000 100 (-1) (1 / 100000) [0; 75; 150] = Ok (Some c) /\
  exists X Z h v kinks, (length kinks <= 2)%nat /\ static_line 150 1000000 100 (-1) X Z h v 0 kinks /\ X 0 = 0 /\ Z 0 = 0 /\
    cnodes c = [(0, 0, tension h v 0); (X 75, Z 75, tension h v 75); (X 150, Z 150, tension h v 150)].
Proof.
  destruct (C95_hangs 100 50 150 1000000 100 (-1) [0; 75; 150]) as (c & Hc); [lra..|intros a [<-|[<-|[<-|[]]]]; lra|]. exists c. split; [exact Hc|].
  destruct (C95_static _ _ _ _ _ _ _ _ _ Hc ltac:(lra) ltac:(lra) ltac:(lra)) as (X & Z & h & v & k & H). cbv zeta in H. destruct (Rlt_dec 50 0); [lra|]. destruct H as (H1 & H2 & H3 & (X0 & Z0) & _).
  exists X, Z, h, v, k. rewrite Z0 in H2. split; [exact H1|]. split; [exact H2|]. split; [exact X0|]. split; [exact Z0|]. rewrite H3. cbn [map]. rewrite X0, Z0. reflexivity.
Qed.

(** The step of the iteration is defined for every tension without a sea bed, and on a sea bed without friction for
    every tension that lifts the end: it is Newton's step towards the given place, reduced by 1 - Tol I and so that the
    horizontal tension stays positive. *)
Theorem C95_step : forall XF ZF L EA W CB Tol I HF VF, 0 < EA -> 0 < L -> 0 < HF -> (CB < 0 /\ W <> 0 \/ CB = 0 /\ 0 < W /\ 0 < VF) ->
  exists d bed E a b, increments XF ZF L EA W CB Tol I HF VF = Some d /\ end_map L EA W bed E /\ (bed = true <-> CB = 0 /\ VF <= W * L) /\ newton E HF VF XF ZF a b /\
    fst d = Rmax (a * (1 - Tol * INR I)) ((Tol - 1) * HF) /\ snd d = b * (1 - Tol * INR I) /\ (0 < Tol -> 0 < HF + fst d).
Proof.
  intros XF ZF L EA W CB Tol I HF VF HEA HL HH HC. assert (N : increments XF ZF L EA W CB Tol I HF VF <> None).
  { destruct HC as [[C1 C2]|[-> [C1 C2]]]; [apply step_defined; assumption|apply bed_step_defined; assumption]. }
  destruct (increments XF ZF L EA W CB Tol I HF VF) as [d|] eqn:E; [|contradiction].
  destruct (increments_newton XF ZF L EA W CB Tol I HF VF d HEA ltac:(lra) HH HC E) as (bed & M & a & b & H1 & H2 & H3 & H4 & H5). exists d, bed, M, a, b.
  split; [reflexivity|]. split; [exact H1|]. split; [exact H2|]. split; [exact H3|]. split; [exact H4|]. split; [exact H5|]. intros HT. exact (next_pos XF ZF L EA W CB Tol HT I HF VF d HH E).
Qed.
Print Assumptions C95_step.
Example C95_step_case : exists d, increments 100 50 150 1000000 100 0 (1 / 100000) 1 5000 12000 = Some d /\ 0 < 5000 + fst d.
Proof. destruct (C95_step 100 50 150 1000000 100 0 (1 / 100000) 1 5000 12000) as (d & bed & E & a & b & A & _ & _ & _ & _ & _ & B); [lra..|right; lra|]. exists d. split; [exact A|apply B; lra]. Qed.

(** On a sea bed the routine gives up when the line would lie slack: the part l that hangs straight down with
    its own stretch and the rest along the bed already cover both distances. *)
Theorem C95_slack : forall XF ZF L EA W CB Tol s, 0 < W -> 0 < EA -> 0 <= CB ->
  (exists l, 0 <= l /\ l + W * l * l / (2 * EA) = Rabs ZF /\ XF + l <= L) -> catenary XF ZF L EA W CB Tol s = Ok None.
Proof. exact catenary_slack. Qed.
Print Assumptions C95_slack.
Example C95_slack_case : catenary 100 105 250 1000 1 0 (1 / 100000) [0; 250] = Ok None.
Proof. apply C95_slack; [lra..|]. exists 100. rewrite Rabs_pos_eq by lra. lra. Qed.

(** The nodes of a line after its initialization: N + 1 of them, from the first to the last end point, evenly along
    the straight line or along a line in equilibrium; which of both when. *)
Theorem C95_line : forall depth r0 rN N U0 U E A rho rho_w g d,
  (0 < N)%nat -> 0 < E * A -> 0 < U -> (U0 < 0 -> U = - U0 * norm (vsub rN r0)) -> (0 <= U0 -> U = U0) ->
  0 <= d -> d * d = (vx rN - vx r0) * (vx rN - vx r0) + (vy rN - vy r0) * (vy rN - vy r0) -> depth (vx r0) (vy r0) <= vz r0 ->
  let W := (rho - rho_w) * A * g in let clear r := depth (vx r) (vy r) * (1 - 1 / 100000) < vz r in let bed := ~ (clear r0 /\ clear rN) in
  exists ps, initial_shape depth r0 rN N U0 E A rho rho_w g = Ok ps /\ length ps = S N /\ nth 0 ps (V3 0 0 0) = r0 /\ nth N ps (V3 0 0 0) = rN /\
    (straight_between r0 rN N ps \/ (0 < d /\ exists CB, (CB = -1 /\ ~ bed \/ CB = 0 /\ bed) /\ static_between U (E * A) W CB r0 rN d N ps)) /\
    (0 < d -> W <> 0 -> ~ bed -> static_between U (E * A) W (-1) r0 rN d N ps) /\
    (d = 0 \/ W = 0 -> straight_between r0 rN N ps) /\
    (bed -> 0 < W -> (exists l, 0 <= l /\ l + W * l * l / (2 * (E * A)) = Rabs (vz rN - vz r0) /\ d + l <= U) -> straight_between r0 rN N ps).
Proof. exact line_shape. Qed.
Print Assumptions C95_line.
(** A line whose first end is below the sea bed is refused. *)
Theorem C95_anchor : forall depth r0 rN N U0 E A rho rho_w g, vz r0 < depth (vx r0) (vy r0) -> initial_shape depth r0 rN N U0 E A rho rho_w g = Throw ExInvalidValue.
Proof. intros depth r0 rN N U0 E A rho rho_w g H. destruct (shape_total depth r0 rN N U0 E A rho rho_w g) as [[_ K]|[B _]]; [exact K|lra]. Qed.
Print Assumptions C95_anchor.
(** A chain between two points 300 m and 400 m away and 30 m below the surface, over 200 m of water. *)
Example C95_line_case : exists ps, initial_shape (fun _ _ => -200) (V3 0 0 (-30)) (V3 300 400 (-50)) 10 520 (1 * 10 ^ 9) 1 7000 1025 10 = Ok ps /\
  static_between 520 (10 ^ 9) 59750 (-1) (V3 0 0 (-30)) (V3 300 400 (-50)) 500 10 ps.
Proof.
  destruct (C95_line (fun _ _ => -200) (V3 0 0 (-30)) (V3 300 400 (-50)) 10 520 520 (1 * 10 ^ 9) 1 7000 1025 10 500) as (ps & H1 & _ & _ & _ & _ & H2 & _); cbn [vx vy vz]; try lra; [lia|].
  exists ps. split; [exact H1|]. replace (10 ^ 9) with (1 * 10 ^ 9 * 1) by ring. replace 59750 with ((7000 - 1025) * 1 * 10) by ring. apply H2; [lra|lra|]. cbn [vx vy vz]. intros N. apply N. split; lra.
Qed.
(** The same over 20 m of water. *)
Example C95_anchor_case : initial_shape (fun _ _ => -20) (V3 0 0 (-30)) (V3 300 400 (-50)) 10 520 (1 * 10 ^ 9) 1 7000 1025 10 = Throw ExInvalidValue.
Proof. apply C95_anchor. cbn [vx vy vz]. lra. Qed.

(** C96: a negative damping coefficient -zeta gives each node the fraction zeta of critical damping, in the motion in
    which neighbouring nodes move against each other, whatever the stiffness, density, area, length and number of
    segments. *)
Theorem C96_damping : forall zeta U E rho A N, (0 < N)%nat -> 0 < U -> 0 < E -> 0 < rho -> 0 < A -> 0 < zeta ->
  let l := U / INR N in let c := internal_damping (- zeta) U E rho A N in damping_ratio (rho * A * l) (c * A / l) (E * A / l) = zeta.
Proof. exact damping_is. Qed.
Print Assumptions C96_damping.
(** With a coefficient that is not negative, the damping of a segment is that coefficient over its length. *)
Theorem C96_given : forall BA U E rho A N, 0 <= BA -> A <> 0 -> let l := U / INR N in internal_damping BA U E rho A N * A / l = BA / l.
Proof. intros BA U E rho A N HB HA l. unfold internal_damping. destruct (Rlt_dec BA 0); [lra|]. f_equal. field. exact HA. Qed.
Print Assumptions C96_given.
Example C96_damping_case : damping_ratio (7800 * 2 * (100 / INR 20)) (internal_damping (- (4 / 5)) 100 (2 * 10 ^ 6) 7800 2 20 * 2 / (100 / INR 20)) (2 * 10 ^ 6 * 2 / (100 / INR 20)) = 4 / 5.
Proof. apply C96_damping; lra || lia. Qed.
