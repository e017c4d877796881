(** C107: pinned rods *)
From Coq Require Import Reals List Lra Lia Arith ZArith.
From Verif Require Import MErr MVec MStateOps MMat MInterp MLine MRod MBody MEnd MRodS SMat SLine SRod SRodS PMat PLine PRod PRodB PRodC PRodT PRodS PEnd PEndB SEnd.
Import ListNotations.
Open Scope R_scope.

(** A rod pinned to the vessel, in vacuum, that turns about an axis across itself: the angular acceleration the program gives it
    is that of a uniform cylinder hinged to a point with the acceleration of the vessel, under its weight and no moment at the hinge.
    Missing: rods that also spin about their own axis (below), water (C72, C94, C106) *)
Theorem C107_vessel_turns_partial : forall K k t ls k1 ls1 s v k2 ls2 p e wk ph be zeta M a,
  k_type k = RodCpldPin -> rod_updateFairlead K k t ls = Ok (k1, ls1) -> rod_setState K k1 s v ls1 = Ok (k2, ls2) ->
  in_vacuum (rod_now p k2) e wk ph be zeta -> dot (v6tl (k_v6 k2)) (k_q k2) = 0 ->
  rM6net (rod_now p k2) e wk ph be [] [] = Some M -> rod_solves k2 (rF6net (rod_now p k2) e wk ph be [] []) M a ->
  cyl_moment (rmass (rod_now p k2)) (k_len k2) (rdia p / 2) (k_q k2) (v6hd (snd (k_ves k))) (v6tl a) (v6tl (k_v6 k2))
    = cross (centre (k_len k2) (k_q k2)) (weight (rmass (rod_now p k2)) (gr e)).
Proof.
  intros K k t ls k1 ls1 s v k2 ls2 p e wk ph be zeta M a T E1 E2 HV HD HM HS.
  destruct (cpin_acc _ _ _ _ _ _ _ _ _ _ T E1 E2) as (T2 & A2 & _).
  pose proof (pin_turns p k2 e wk ph be zeta M a HV ltac:(congruence) HM HS) as H. cbv zeta in H. rewrite A2 in H. rewrite H, HD, Rmult_0_l.
  generalize (cross (centre (k_len k2) (k_q k2)) (weight (rmass (rod_now p k2)) (gr e))) (cross (v6tl (k_v6 k2)) (k_q k2)). intros [x y z] [x1 y1 z1]. unfold vadd, vscale. cbn [vx vy vz]. apply v3eq; cbn [vx vy vz]; ring.
Qed.
Print Assumptions C107_vessel_turns_partial.
(** such a solution exists for every pinned rod in vacuum *)
Theorem C107_solvable : forall p k e wk ph be zeta, in_vacuum (rod_now p k) e wk ph be zeta -> k_type k <> RodFree ->
  exists M a, rM6net (rod_now p k) e wk ph be [] [] = Some M /\ rod_solves k (rF6net (rod_now p k) e wk ph be [] []) M a.
Proof. exact pin_solvable. Qed.
Print Assumptions C107_solvable.
(** For a rod that also spins about its axis the program leaves out the gyroscopic moment: exactly
    (w.q) m (r^2/4 - L^2/3) (w x q) is wrong, which is not zero unless the axis of rotation is along or across the rod
    (or r^2/4 = L^2/3) *)
Theorem C107_spin_refuted : forall p k e wk ph be zeta M a, in_vacuum (rod_now p k) e wk ph be zeta -> k_type k <> RodFree ->
  rM6net (rod_now p k) e wk ph be [] [] = Some M -> rod_solves k (rF6net (rod_now p k) e wk ph be [] []) M a ->
  let m := rmass (rod_now p k) in let L := k_len k in let r := rdia p / 2 in let q := k_q k in let w := v6tl (k_v6 k) in
  vsub (cyl_moment m L r q (v6hd (k_acc k)) (v6tl a) w) (cross (centre L q) (weight m (gr e)))
    = vscale (dot w q * (m * (r * r / 4 - L * L / 3))) (cross w q) /\
  (dot w q <> 0 -> cross w q <> vzero -> r * r / 4 <> L * L / 3 ->
   cyl_moment m L r q (v6hd (k_acc k)) (v6tl a) w <> cross (centre L q) (weight m (gr e))).
Proof.
  intros p k e wk ph be zeta M a HV HT HM HS m L r q w. pose proof (pin_turns p k e wk ph be zeta M a HV HT HM HS) as H. cbv zeta in H. fold m L r q w in H.
  rewrite H. assert (E : forall X Y, vsub (vadd X Y) X = Y) by vring. rewrite E. split; [reflexivity|]. intros D C R0 Z.
  assert (Z1 : vscale (dot w q * (m * (r * r / 4 - L * L / 3))) (cross w q) = vzero).
  { rewrite <- (E (cross (centre L q) (weight m (gr e))) (vscale (dot w q * (m * (r * r / 4 - L * L / 3))) (cross w q))). rewrite Z. generalize (cross (centre L q) (weight m (gr e))). intros [x y z]. unfold vsub, vzero. cbn [vx vy vz]. apply v3eq; cbn [vx vy vz]; ring. }
  assert (MP : 0 < m) by exact (rmass_pos _ (proj1 HV)).
  assert (NZ : dot w q * (m * (r * r / 4 - L * L / 3)) <> 0) by (apply Rmult_integral_contrapositive_currified; [exact D|]; apply Rmult_integral_contrapositive_currified; lra).
  apply C. revert Z1. generalize (cross w q). intros [x y z] Z1. unfold vscale, vzero in Z1. cbn [vx vy vz] in Z1. injection Z1 as Z1 Z2 Z3.
  apply Rmult_integral in Z1, Z2, Z3. apply v3eq; cbn [vx vy vz]; tauto.
Qed.
Print Assumptions C107_spin_refuted.
(** What a rod pinned to the vessel is reported to exert on it: no moment; the force is the weight less the rate of change of
    momentum, except that the centripetal part m w x (w x c) of the latter is missing *)
Theorem C107_vessel_force_refuted : forall p k e wk ph be zeta M, in_vacuum (rod_now p k) e wk ph be zeta -> k_type k = RodCpldPin ->
  rM6net (rod_now p k) e wk ph be [] [] = Some M ->
  let m := rmass (rod_now p k) in let L := k_len k in let q := k_q k in let w := v6tl (k_v6 k) in
  let F := rod_getFnet k (rF6net (rod_now p k) e wk ph be [] []) M in
  let right := vsub (weight m (gr e)) (cyl_force m L q (v6hd (k_acc k)) (v6tl (k_acc k)) w) in
  v6tl F = vzero /\ v6hd F = vadd right (vscale m (cross w (cross w (centre L q)))) /\
  (dot w q = 0 -> w <> vzero -> v6hd F <> right).
Proof.
  intros p k e wk ph be zeta M HV HT HM m L q w F right. pose proof (pin_force p k e wk ph be zeta M HV HT HM) as H. cbv zeta in H. fold m L q w in H.
  change (F = V6 (vadd right (vscale m (cross w (cross w (centre L q))))) vzero) in H. rewrite H. cbn [v6hd v6tl]. split; [reflexivity|]. split; [reflexivity|].
  intros D W Z. assert (HQ : dot q q = 1) by (destruct HV as (_ & _ & (Hh & _) & _); exact Hh).
  assert (LP : 0 < L) by (destruct HV as ((_ & _ & _ & LP & _) & _); exact LP). assert (MP : 0 < m) by exact (rmass_pos _ (proj1 HV)).
  apply (spin_extra w q L HQ D W ltac:(lra)). revert Z. unfold centre. generalize (cross w (cross w (vscale (L / 2) q))) right. intros [x y z] [x1 y1 z1] Z.
  unfold vadd, vscale in Z. cbn [vx vy vz] in Z. injection Z as Z1 Z2 Z3.
  assert (X : m * x = 0) by lra. assert (Y : m * y = 0) by lra. assert (Z : m * z = 0) by lra. apply Rmult_integral in X, Y, Z. unfold vzero. apply v3eq; cbn [vx vy vz]; destruct X, Y, Z; lra.
Qed.
Print Assumptions C107_vessel_force_refuted.
(** A rod that does not turn is reported with the right force: weight less mass times the acceleration of its centre *)
Theorem C107_vessel_force_partial : forall K k t ls k1 ls1 s v k2 ls2 p e wk ph be zeta M,
  k_type k = RodCpldPin -> rod_updateFairlead K k t ls = Ok (k1, ls1) -> rod_setState K k1 s v ls1 = Ok (k2, ls2) ->
  in_vacuum (rod_now p k2) e wk ph be zeta -> v6tl (k_v6 k2) = vzero -> rM6net (rod_now p k2) e wk ph be [] [] = Some M ->
  rod_getFnet k2 (rF6net (rod_now p k2) e wk ph be [] []) M
    = V6 (vsub (weight (rmass (rod_now p k2)) (gr e)) (cyl_force (rmass (rod_now p k2)) (k_len k2) (k_q k2) (v6hd (snd (k_ves k))) (v6tl (k_acc k)) vzero)) vzero.
Proof.
  intros K k t ls k1 ls1 s v k2 ls2 p e wk ph be zeta M T E1 E2 HV W HM. destruct (cpin_acc _ _ _ _ _ _ _ _ _ _ T E1 E2) as (T2 & A2 & A3).
  pose proof (pin_force p k2 e wk ph be zeta M HV T2 HM) as H. cbv zeta in H. rewrite A2, A3, W in H. rewrite H. f_equal.
  generalize (vsub (weight (rmass (rod_now p k2)) (gr e)) (cyl_force (rmass (rod_now p k2)) (k_len k2) (k_q k2) (v6hd (snd (k_ves k))) (v6tl (k_acc k)) vzero)) (centre (k_len k2) (k_q k2)) (rmass (rod_now p k2)).
  intros [x y z] [x1 y1 z1] m. unfold vadd, vscale, cross, vzero. cbn [vx vy vz]. apply v3eq; cbn [vx vy vz]; ring.
Qed.
Print Assumptions C107_vessel_force_partial.
(** A rod clamped to the vessel, in vacuum: what is reported is weight and its moment less the rates of change of momentum and angular momentum, except for the
    centripetal force and the gyroscopic moment *)
Theorem C107_clamped_refuted : forall p k e wk ph be zeta M, in_vacuum (rod_now p k) e wk ph be zeta -> k_type k = RodCoupled ->
  rM6net (rod_now p k) e wk ph be [] [] = Some M ->
  let m := rmass (rod_now p k) in let L := k_len k in let r := rdia p / 2 in let q := k_q k in let w := v6tl (k_v6 k) in
  rod_getFnet k (rF6net (rod_now p k) e wk ph be [] []) M
    = V6 (vadd (vsub (weight m (gr e)) (cyl_force m L q (v6hd (k_acc k)) (v6tl (k_acc k)) w)) (vscale m (cross w (cross w (centre L q)))))
         (vadd (vsub (cross (centre L q) (weight m (gr e))) (cyl_moment m L r q (v6hd (k_acc k)) (v6tl (k_acc k)) w)) (vscale (dot w q * (m * (r * r / 4 - L * L / 3))) (cross w q))).
Proof. exact clamp_force. Qed.
Print Assumptions C107_clamped_refuted.
(** What any rod, pinned or not, hands to the body that carries it (as a load on a body whose reference is the pin, and that moves with acceleration
    [a], angular acceleration [al], angular velocity [w]): weight and inertia of a cylinder clamped to the body. A pin would transmit no moment; an inclined rod pinned
    to a body at rest transmits the moment of its weight *)
Theorem C107_body_moment_refuted : forall p k e wk ph be zeta M, in_vacuum (rod_now p k) e wk ph be zeta ->
  rM6net (rod_now p k) e wk ph be [] [] = Some M ->
  let m := rmass (rod_now p k) in let L := k_len k in let r := rdia p / 2 in let q := k_q k in
  let h w := rod_handed p k (rF6net (rod_now p k) e wk ph be [] []) M (rMnet (rod_now p k) e wk ph [] []) (k_rA k) w in
  (forall a al w, v6sub (fst (h w)) (m6mulv (snd (h w)) (V6 a al)) =
    V6 (vsub (weight m (gr e)) (cyl_force m L q a al w))
       (vadd (vsub (cross (centre L q) (weight m (gr e))) (cyl_moment m L r q a al w)) (vscale (dot w q * (m * (r * r / 4 - L * L / 3))) (cross w q)))) /\
  (k_type k = RodPinned -> gr e <> 0 -> (vx q <> 0 \/ vy q <> 0) -> v6tl (fst (h vzero)) <> vzero).
Proof.
  intros p k e wk ph be zeta M HV HM m L r q h.
  assert (H : forall a al w, v6sub (fst (h w)) (m6mulv (snd (h w)) (V6 a al)) =
    V6 (vsub (weight m (gr e)) (cyl_force m L q a al w))
       (vadd (vsub (cross (centre L q) (weight m (gr e))) (cyl_moment m L r q a al w)) (vscale (dot w q * (m * (r * r / 4 - L * L / 3))) (cross w q)))).
  { intros a al w. exact (handed p k e wk ph be zeta M a al w HV HM). }
  split; [exact H|]. intros _ G HQ Z. assert (LP : 0 < L) by (destruct HV as ((_ & _ & _ & LP & _) & _); exact LP). assert (MP : 0 < m) by exact (rmass_pos _ (proj1 HV)).
  pose proof (f_equal v6tl (H vzero vzero vzero)) as E.
  assert (Z0 : forall A : m6, m6mulv A (V6 vzero vzero) = V6 vzero vzero).
  { intro A. unfold m6mulv, mmulv, dot, vadd, vzero. cbn [v6hd v6tl vx vy vz]. f_equal; apply v3eq; cbn [vx vy vz]; ring. }
  rewrite Z0 in E. unfold v6sub in E. cbn [v6hd v6tl] in E. rewrite Z in E.
  apply (lever m L (gr e) q); [apply Rmult_integral_contrapositive_currified; lra|lra|exact HQ|].
  transitivity (vsub vzero vzero); [|unfold vsub, vzero; cbn [vx vy vz]; apply v3eq; cbn [vx vy vz]; ring]. rewrite E.
  unfold cyl_moment, cyl_force, cyl_inertia, acceleration_at. generalize (cross (centre L q) (weight m (gr e))) (centre L q) q m (m * (r * r / 4 + L * L / 12)) (m * (r * r) / 2) (m * (r * r / 4 - L * L / 3)).
  intros [x y z] [x1 y1 z1] [x2 y2 z2] c1 c2 c3 c4. unfold vadd, vsub, vscale, cross, dot, vzero. cbn [vx vy vz]. apply v3eq; cbn [vx vy vz]; ring.
Qed.
Print Assumptions C107_body_moment_refuted.
(** A rod pinned to a body never feels the acceleration of the body: whatever happened to it since its set-up, the pin counts as
    unaccelerated. So an inclined rod at rest starts to turn even when the body falls freely (in which case it would not turn) *)
Theorem C107_falling_refuted : forall op K p k e wk ph be zeta M a, pinned_life op K k -> in_vacuum (rod_now p k) e wk ph be zeta ->
  rM6net (rod_now p k) e wk ph be [] [] = Some M -> rod_solves k (rF6net (rod_now p k) e wk ph be [] []) M a ->
  let m := rmass (rod_now p k) in let L := k_len k in let r := rdia p / 2 in let q := k_q k in
  v6hd (k_acc k) = vzero /\
  (v6tl (k_v6 k) = vzero -> gr e <> 0 -> (vx q <> 0 \/ vy q <> 0) ->
   v6tl a <> vzero /\ cyl_moment m L r q (V3 0 0 (- gr e)) vzero vzero = cross (centre L q) (weight m (gr e))).
Proof.
  intros op K p k e wk ph be zeta M a HL HV HM HS m L r q. destruct (pinned_rest _ _ _ HL) as [T A]. split; [exact A|]. intros W G HQ.
  split; [exact (falling op K p k e wk ph be zeta M a HL HV W G HQ HM HS)|].
  unfold cyl_moment, cyl_force, cyl_inertia, acceleration_at, weight. generalize (centre L q) q m (m * (r * r / 4 + L * L / 12)) (m * (r * r) / 2) (gr e).
  intros [x1 y1 z1] [x2 y2 z2] c1 c2 c3 g. unfold vadd, vsub, vscale, cross, dot, vzero. cbn [vx vy vz]. apply v3eq; cbn [vx vy vz]; ring.
Qed.
Print Assumptions C107_falling_refuted.

(** ** Non-vacuity: a rod of 4 m and two segments, at 3:4 to the vertical, above the water *)
Example hung_ok : forall t w acc, exists ph be, in_vacuum (rod_now props1 (hung t w acc)) env_air (pool (-500)) ph be (-500).
Proof.
  intros t w acc. set (D := rod_now props1 (hung t w acc)).
  destruct (headed_angles D ltac:(cbn; lia) slant_headed) as (ph & be & HA). exists ph, be.
  split; [unfold sensible_rod, D; cbn; repeat split; try lra; try lia|]. split; [unfold few_segments, D; cbn; lia|]. split; [exact slant_headed|]. split; [exact HA|]. split; [reflexivity|]. split; [apply pool_calm|].
  assert (N : forall i, (i <= 2)%nat -> -1000 <= vz (rnode D i)).
  { intros i Hi. destruct i as [|[|[|i]]]; [| | |lia]; unfold rnode, D; cbn; lra. }
  exact N.
Qed.
(** hypotheses of C107_vessel_turns_partial, C107_vessel_force_partial, C107_spin_refuted, C107_clamped_refuted *)
Example C107_vessel_case : forall K ls, let k := hung RodCpldPin vzero v6zero in exists k1 ls1 k2 ls2 ph be M a,
  rod_updateFairlead K k 0 ls = Ok (k1, ls1) /\ rod_setState K k1 (XQ vzero qident) (V6 vzero (V3 0 1 0)) ls1 = Ok (k2, ls2) /\
  in_vacuum (rod_now props1 k2) env_air (pool (-500)) ph be (-500) /\ dot (v6tl (k_v6 k2)) (k_q k2) = 0 /\ v6tl (k_v6 k2) = V3 0 1 0 /\
  rM6net (rod_now props1 k2) env_air (pool (-500)) ph be [] [] = Some M /\ rod_solves k2 (rF6net (rod_now props1 k2) env_air (pool (-500)) ph be [] []) M a.
Proof.
  intros K ls k. set (k1 := with_motion k (XQ (vadd vzero (vscale 0 vzero)) qident) (V6 vzero vzero) (V6 vzero vzero)).
  set (k0 := with_motion k1 (XQ (xq_pos (k_r7 k1)) qident) (V6 (v6hd (k_v6 k1)) (V3 0 1 0)) (k_acc k1)).
  destruct (dep_total K k0 ls) as (k2 & ls2 & E & Ek & _ & _); [split; [intros i ep []|constructor]|cbn; lia|].
  assert (D0 : rod_dir k0 = V3 0.6 0 0.8) by apply qident_dir.
  assert (Z0 : vadd vzero (vscale 0 vzero) = vzero) by (unfold vadd, vscale, vzero; cbn [vx vy vz]; apply v3eq; cbn [vx vy vz]; ring).
  assert (Ek2 : with_q k2 (rod_dir k2) = Rodk RodCpldPin 2 4 (V3 0.6 0 0.8) (V3 0.6 0 0.8) (XQ vzero qident) (V6 vzero (V3 0 1 0)) (V6 vzero vzero) (v6zero, v6zero, v6zero) vzero vzero
     (vadd vzero (vscale 4 (V3 0.6 0 0.8))) (vadd vzero (cross (V3 0 1 0) (vscale 4 (V3 0.6 0 0.8)))) [] []).
  { rewrite Ek. change (rod_dir (with_ends k0 _ _ _ _ _)) with (rod_dir k0). rewrite D0. unfold k0, k1. cbn. rewrite Z0. reflexivity. }
  set (kk := with_q k2 (rod_dir k2)) in *.
  assert (V : exists ph be, in_vacuum (rod_now props1 kk) env_air (pool (-500)) ph be (-500)).
  { destruct (hung_ok RodCpldPin (V3 0 1 0) v6zero) as (ph & be & V). exists ph, be. rewrite Ek2. exact V. }
  destruct V as (ph & be & V).
  assert (TT : k_type kk = RodCpldPin) by (rewrite Ek2; reflexivity).
  destruct (pin_solvable _ _ _ _ _ _ _ V ltac:(congruence)) as (M & a & HM & HS).
  exists k1, ls, kk, ls2, ph, be, M, a. split; [reflexivity|]. split.
  { unfold rod_setState. change (k_type k1) with RodCpldPin. cbn [obind]. change (with_motion k1 _ _ _) with k0. rewrite E. cbn [obind fst snd].
    assert (N2 : k_n k2 = 2%nat) by (rewrite Ek; reflexivity). rewrite N2. reflexivity. }
  split; [exact V|]. split; [rewrite Ek2; unfold dot; cbn; lra|]. split; [rewrite Ek2; reflexivity|]. split; assumption.
Qed.
(** hypotheses of C107_spin_refuted, with a wrong moment: the rod spins about its axis and turns *)
Example C107_spin_case : let k := hung RodCpldPin (V3 0 0 1) v6zero in exists ph be M a,
  in_vacuum (rod_now props1 k) env_air (pool (-500)) ph be (-500) /\
  rM6net (rod_now props1 k) env_air (pool (-500)) ph be [] [] = Some M /\ rod_solves k (rF6net (rod_now props1 k) env_air (pool (-500)) ph be [] []) M a /\
  dot (v6tl (k_v6 k)) (k_q k) <> 0 /\ cross (v6tl (k_v6 k)) (k_q k) <> vzero /\ rdia props1 / 2 * (rdia props1 / 2) / 4 <> k_len k * k_len k / 3.
Proof.
  intro k. destruct (hung_ok RodCpldPin (V3 0 0 1) v6zero) as (ph & be & V). destruct (pin_solvable _ _ _ _ _ _ _ V ltac:(discriminate)) as (M & a & HM & HS).
  exists ph, be, M, a. split; [exact V|]. split; [exact HM|]. split; [exact HS|]. cbn. unfold dot, cross. cbn. split; [lra|]. split; [|lra].
  intro E. injection E as E1 E2. lra.
Qed.
(** hypotheses of C107_body_moment_refuted and C107_falling_refuted: a rod pinned to a body, just set up *)
Example C107_body_case : forall op K, let k := rod_setup op RodPinned 2 (V3 0 0 0) (V3 2.4 0 3.2) [] [] (XQ vzero qident) v6zero in exists ph be M a,
  pinned_life op K k /\ in_vacuum (rod_now props1 k) env_air (pool (-500)) ph be (-500) /\
  rM6net (rod_now props1 k) env_air (pool (-500)) ph be [] [] = Some M /\ rod_solves k (rF6net (rod_now props1 k) env_air (pool (-500)) ph be [] []) M a /\
  v6tl (k_v6 k) = vzero /\ gr env_air <> 0 /\ vx (k_q k) <> 0.
Proof.
  intros op K k.
  assert (DD : dist3 (V3 2.4 0 3.2) (V3 0 0 0) = 4).
  { unfold dist3, norm, dot, vsub. cbn [vx vy vz]. replace ((2.4 - 0) * (2.4 - 0) + (0 - 0) * (0 - 0) + (3.2 - 0) * (3.2 - 0)) with (4 * 4) by lra. apply sqrt_square. lra. }
  assert (HT : tol < dist3 (V3 2.4 0 3.2) (V3 0 0 0)) by (rewrite DD; pose proof tol_small; lra).
  destruct (setup_facts op RodPinned 2 (V3 0 0 0) (V3 2.4 0 3.2) [] [] (XQ vzero qident) v6zero ltac:(lia) HT) as (T & N0 & L0 & Q0 & _).
  assert (HQ : heading (V3 0 0 0) (V3 2.4 0 3.2) = V3 0.6 0 0.8) by (unfold heading; rewrite DD; unfold vscale, vsub; cbn [vx vy vz]; apply v3eq; cbn [vx vy vz]; lra).
  fold k in T, N0, L0, Q0. assert (QQ : k_q k = V3 0.6 0 0.8) by (change (k_q k) with (k_q0 k); rewrite Q0; exact HQ).
  assert (EN : rod_now props1 k = rod_now props1 (hung RodPinned vzero v6zero)).
  { unfold rod_now. rewrite N0, L0, QQ, DD. reflexivity. }
  destruct (hung_ok RodPinned vzero v6zero) as (ph & be & V). rewrite <- EN in V.
  destruct (pin_solvable _ _ _ _ _ _ _ V ltac:(congruence)) as (M & a & HM & HS).
  exists ph, be, M, a. split; [apply life_setup|]. split; [exact V|]. split; [exact HM|]. split; [exact HS|]. split; [reflexivity|]. split; [cbn; lra|]. rewrite QQ. cbn. lra.
Qed.
