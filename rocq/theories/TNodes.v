(** C54 and C84: the water kinematics at the nodes *)
From Coq Require Import List Arith ZArith Bool Reals Lia Lra.
From Verif Require Import MErr MVec MStateOps MNodes SNodes PNodes.
Import ListNotations.
Local Open Scope nat_scope.

(** C54: there is a numbering of all the nodes such that the coordinates query reports the node
    with number i in position i, and the set call gives it the i-th velocity and acceleration.
    Without currents these are the kinematics of the node right away. *)
Theorem C54_same_order : forall s, exists n idx, numbering s n idx /\
  (forall t, fits s t -> exists ps, node_points s t = Ok ps /\ length ps = n /\ forall a p, position s a = Some p -> nth_error ps (idx a) = Some p) /\
  (forall w u ud, fits s (nodeKin w) -> currK w = None -> length u = n -> length ud = n ->
    exists w', set_kinematics s u ud w = (w', Ok tt) /\ fits s (nodeKin w') /\
      forall a p k, position s a = Some p -> water (nodeKin w) a = Some k ->
        water (nodeKin w') a = Some (Wk (w_zeta k) (nth (idx a) u vzero) (nth (idx a) ud vzero) (w_pdyn k))).
Proof.
  intro s. exists (length (flat s)), (index s). split; [apply index_numbering|]. split.
  - intros t F. exists (flat s). split; [now apply node_points_ok|]. split; [reflexivity|]. apply index_flat.
  - intros w u ud F Hc Lu Lud. unfold set_kinematics. rewrite Lu, Lud, Nat.eqb_refl, Hc.
    destruct (set_nodes_ok u ud s (nodeKin w)) as (t' & i & -> & F' & I); [congruence|lia|exact F|]. eexists. split; [reflexivity|]. cbn [nodeKin set_nodeKin]. auto.
Qed.
Print Assumptions C54_same_order.

(** ... and with currents, after the update, the given ones plus the current at the position of
    the node *)
Theorem C54_with_currents : forall s, exists n idx, numbering s n idx /\
  (forall t, fits s t -> exists ps, node_points s t = Ok ps /\ length ps = n /\ forall a p, position s a = Some p -> nth_error ps (idx a) = Some p) /\
  (forall w c u ud tm, fits s (nodeKin w) -> fits s (waveKin w) -> external w = true -> currK w = Some c -> length u = n -> length ud = n ->
    exists w1 w2, set_kinematics s u ud w = (w1, Ok tt) /\ nodeKin w1 = nodeKin w /\ update_waves s tm w1 = Ok w2 /\
      forall a p, position s a = Some p -> exists k, water (nodeKin w2) a = Some k /\
        w_u k = vadd (nth (idx a) u vzero) (fst (c p tm)) /\ w_ud k = vadd (nth (idx a) ud vzero) (snd (c p tm))).
Proof.
  intro s. exists (length (flat s)), (index s). split; [apply index_numbering|]. split.
  - intros t F. exists (flat s). split; [now apply node_points_ok|]. split; [reflexivity|]. apply index_flat.
  - intros w c u ud tm Fn Fw He Hc Lu Lud. unfold set_kinematics. rewrite Lu, Lud, Nat.eqb_refl, Hc.
    destruct (set_nodes_ok u ud s (waveKin w)) as (t' & i & -> & F' & I); [congruence|lia|exact Fw|].
    destruct (update_external s tm (set_waveKin w t') c He Hc F' Fn) as (w2 & E2 & F2 & _ & I2).
    exists (set_waveKin w t'), w2. split; [reflexivity|]. split; [reflexivity|]. split; [exact E2|]. intros a p Hp.
    destruct (fits_water _ _ _ _ Fw Hp) as (v & Hv). destruct (fits_water _ _ _ _ Fn Hp) as (k & Hk).
    pose proof (I2 a p _ k Hp (I a p v Hp Hv) Hk) as R. eexists. split; [exact R|]. split; reflexivity.
Qed.
Print Assumptions C54_with_currents.

(** too few entries are an error, though the first nodes are changed already *)
Theorem C54_too_few : forall s t w u ud n, fits s t -> node_points s t = Ok n -> fits s (nodeKin w) -> fits s (waveKin w) ->
  length u = length ud -> length u < length n -> snd (set_kinematics s u ud w) = Throw ExInvalidValue /\ fits s (nodeKin (fst (set_kinematics s u ud w))).
Proof.
  intros s t w u ud n Ft Hn Fn Fw L Lt. rewrite (node_points_ok s t Ft) in Hn. injection Hn as <-. unfold set_kinematics. rewrite L, Nat.eqb_refl.
  destruct (currK w); [destruct (set_nodes_short u ud s (waveKin w) Lt Fw) as (t' & i & -> & F')|destruct (set_nodes_short u ud s (nodeKin w) Lt Fn) as (t' & i & -> & F')]; cbn; auto.
Qed.
Print Assumptions C54_too_few.

Theorem C54_different_numbers : forall s w u ud, length u <> length ud -> set_kinematics s u ud w = (w, Throw ExInvalidValue).
Proof. intros s w u ud H. unfold set_kinematics. apply Nat.eqb_neq in H. now rewrite H. Qed.
Print Assumptions C54_different_numbers.

(** the documentation says that a number of entries other than the number of nodes is an error;
    more of them are accepted and the rest is ignored *)
Definition C54_statement := forall s w u ud n, fits s (nodeKin w) -> node_points s (nodeKin w) = Ok n ->
  length u = length ud -> length u <> length n -> snd (set_kinematics s u ud w) <> Ok tt.
Theorem C54_too_many_refuted : ~ C54_statement.
Proof.
  intro H. pose (s := Nodes [] [] [] [vzero]). pose (w := Waves (Wtab [] [] [] [[wzero]]) (Wtab [] [] [] [[wzero]]) true None None).
  assert (F : fits s (nodeKin w)) by (repeat split; reflexivity).
  exact (H s w [vzero; vzero] [vzero; vzero] [vzero] F eq_refl eq_refl ltac:(discriminate) eq_refl).
Qed.
Print Assumptions C54_too_many_refuted.

(** through the C interface: the number of nodes is that of the initialisation call; without it
    the set call is refused, and with it and arrays of that size it succeeds *)
Theorem C54_interface : forall s w npW, fits s (nodeKin w) -> fits s (waveKin w) -> kin_init s w = Ok npW ->
  (forall u ud, kin_set 0 s u ud w = (w, Ok MOORDYN_INVALID_VALUE)) /\
  (npW <> 0 -> forall u ud, npW <= length u -> npW <= length ud ->
    snd (kin_set npW s u ud w) = Ok MOORDYN_SUCCESS /\ fst (kin_set npW s u ud w) = fst (set_kinematics s (firstn npW u) (firstn npW ud) w)).
Proof.
  intros s w npW Fn Fw. unfold kin_init. rewrite (node_points_ok _ _ Fn). cbn [obind]. intro H. injection H as <-. split; [reflexivity|].
  intros N u ud Lu Lud. unfold kin_set. apply Nat.eqb_neq in N. rewrite N. assert (A : (length (flat s) <=? length u) && (length (flat s) <=? length ud) = true) by (apply andb_true_intro; split; apply Nat.leb_le; assumption).
  rewrite A. unfold set_kinematics. rewrite !firstn_length_le by assumption. rewrite Nat.eqb_refl.
  destruct (currK w).
  - destruct (set_nodes_ok (firstn (length (flat s)) u) (firstn (length (flat s)) ud) s (waveKin w)) as (t' & i & -> & F' & I); rewrite ?firstn_length_le by assumption; auto.
  - destruct (set_nodes_ok (firstn (length (flat s)) u) (firstn (length (flat s)) ud) s (nodeKin w)) as (t' & i & -> & F' & I); rewrite ?firstn_length_le by assumption; auto.
Qed.
Print Assumptions C54_interface.

(** the tables made while reading the input file have one entry for each node *)
Theorem C54_tables : forall s, exists t, make_table s = Ok t /\ fits s t.
Proof. exact make_table_fits. Qed.
Print Assumptions C54_tables.

Example C54_case : let s := Nodes [[vzero; V3 1 0 0]] [[V3 2 0 0]] [V3 3 0 0] [V3 4 0 0; V3 5 0 0] in
  node_points s (Wtab [[wzero; wzero]] [[wzero]] [[wzero]] [[wzero]; [wzero]]) = Ok [vzero; V3 1 0 0; V3 2 0 0; V3 3 0 0; V3 4 0 0; V3 5 0 0].
Proof. reflexivity. Qed.

(** C84: without external kinematics, after the update each node has the velocity and the
    acceleration of the waves plus those of the currents, at its own position and the current
    time, and the elevation and pressure of the waves *)
Theorem C84_sum : forall s w wk c tm, external w = false -> waveK w = Some wk -> currK w = Some c -> fits s (nodeKin w) ->
  exists w', update_waves s tm w = Ok w' /\ fits s (nodeKin w') /\ forall a p, position s a = Some p ->
    water (nodeKin w') a = Some (Wk (w_zeta (wk p tm)) (vadd (w_u (wk p tm)) (fst (c p tm))) (vadd (w_ud (wk p tm)) (snd (c p tm))) (w_pdyn (wk p tm))).
Proof.
  intros s w wk c tm He Hw Hc F. unfold update_waves. rewrite He, Hw, Hc.
  destruct (unit_nodes (node_wave wk c tm) (fun p _ => Wk (w_zeta (wk p tm)) (vadd (w_u (wk p tm)) (fst (c p tm))) (vadd (w_ud (wk p tm)) (snd (c p tm))) (w_pdyn (wk p tm))) s (nodeKin w)) as (t' & -> & F' & I); [reflexivity|exact F|].
  eexists. split; [reflexivity|]. split; [exact F'|]. intros a p Hp. destruct (fits_water _ _ _ _ F Hp) as (v & Hv). exact (I a p v Hp Hv).
Qed.
Print Assumptions C84_sum.

Theorem C84_waves_only : forall s w wk tm, external w = false -> waveK w = Some wk -> currK w = None -> fits s (nodeKin w) ->
  exists w', update_waves s tm w = Ok w' /\ fits s (nodeKin w') /\ forall a p, position s a = Some p -> water (nodeKin w') a = Some (wk p tm).
Proof.
  intros s w wk tm He Hw Hc F. unfold update_waves. rewrite He, Hw, Hc.
  destruct (unit_nodes (node_wave_only wk tm) (fun p _ => wk p tm) s (nodeKin w)) as (t' & -> & F' & I); [reflexivity|exact F|].
  eexists. split; [reflexivity|]. split; [exact F'|]. intros a p Hp. destruct (fits_water _ _ _ _ F Hp) as (v & Hv). exact (I a p v Hp Hv).
Qed.
Print Assumptions C84_waves_only.

Theorem C84_currents_only : forall s w c tm, external w = false -> waveK w = None -> currK w = Some c -> fits s (nodeKin w) ->
  exists w', update_waves s tm w = Ok w' /\ fits s (nodeKin w') /\ forall a p v, position s a = Some p -> water (nodeKin w) a = Some v ->
    water (nodeKin w') a = Some (Wk (w_zeta v) (fst (c p tm)) (snd (c p tm)) (w_pdyn v)).
Proof.
  intros s w c tm He Hw Hc F. unfold update_waves. rewrite He, Hw, Hc.
  destruct (unit_nodes (node_curr_only c tm) (fun p v => Wk (w_zeta v) (fst (c p tm)) (snd (c p tm)) (w_pdyn v)) s (nodeKin w)) as (t' & -> & F' & I); [reflexivity|exact F|].
  eexists. split; [reflexivity|]. split; [exact F'|]. exact I.
Qed.
Print Assumptions C84_currents_only.

(** nothing changes without waves and currents, also not what the caller has set *)
Theorem C84_none : forall s w tm, waveK w = None -> currK w = None -> update_waves s tm w = Ok w.
Proof. intros s w tm Hw Hc. unfold update_waves. rewrite Hw, Hc. now destruct (external w). Qed.
Print Assumptions C84_none.

Example C84_case : let s := Nodes [[vzero; V3 1 0 0]] [] [] [vzero] in
  exists w', update_waves s 2 (Waves (Wtab [[wzero; wzero]] [] [] [[wzero]]) (Wtab [] [] [] []) false (Some (fun p t => Wk t p vzero 0)) (Some (fun p _ => (V3 1 0 0, vzero)))) = Ok w' /\
    exists k, water (nodeKin w') (ALine 0 1) = Some k /\ w_u k = V3 2 0 0 /\ w_zeta k = 2%R.
Proof. eexists. split; [reflexivity|]. eexists. split; [reflexivity|]. split; [|reflexivity]. unfold vadd. cbn. f_equal; lra. Qed.
