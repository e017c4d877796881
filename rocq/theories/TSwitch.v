(** C55: change of the time scheme; C30: the point created by a failure is not integrated. *)
From Coq Require Import String Ascii List Arith ZArith Bool Reals Lra Lia.
From Verif Require Import MErr MStr MVec MStateOps MScheme MTime STime MSwitch SSwitch PSwitch.
Import ListNotations.
Local Open Scope nat_scope.

(** C55: if no object fails to initialise, the change succeeds, all the objects are kept and
    integrated by the new scheme, and the integrated state and the CFL factor are kept. The
    next update of the objects, with which every step begins, shows that state. *)
Theorem C55_state_partial : forall KB KR KP KL name c y st,
  create_time_scheme name = Ok c -> get_state y = Ok st -> sound y -> no_repeats y -> all_start KB KR KP KL y ->
  exists y' y2, switch KB KR KP KL name y = Ok (y', Returns MOORDYN_SUCCESS) /\ y_scheme y' = c /\
    get_state y' = Ok st /\ same_objects y y' /\ sound y' /\ y_icfl y' = y_cfl y /\
    update KB KR KP KL y' = Ok y2 /\ same_objects y y2 /\ shows KB KR KP KL y2 st.
Proof.
  intros KB KR KP KL name c y st Hc Hg Hs Hn Ha. destruct (switch_ok KB KR KP KL name c y st Hc Hg Hn Ha) as (y' & E & G & O & Sc & Ic & _ & _ & _ & _ & _ & _ & So & _).
  destruct (update_ok KB KR KP KL y' st (So Hs) G) as (y2 & U & Sh & O2 & _). exists y', y2.
  split; [exact E|]. split; [exact Sc|]. split; [exact G|]. split; [exact O|]. split; [exact (So Hs)|]. split; [exact Ic|]. split; [exact U|].
  split; [|exact Sh]. destruct O as (? & ? & ? & ?), O2 as (? & ? & ? & ?). unfold same_objects. repeat split; congruence.
Qed.
Print Assumptions C55_state_partial.

(** C55: a name that is not a time scheme changes nothing and gives an error code. *)
Theorem C55_unknown_name : forall KB KR KP KL name y, create_time_scheme name = Throw ExInvalidValue ->
  switch KB KR KP KL name y = Ok (y, Returns MOORDYN_INVALID_VALUE).
Proof. intros KB KR KP KL name y. exact (switch_unknown KB KR KP KL name ExInvalidValue y). Qed.
Print Assumptions C55_unknown_name.

(** C55 fails: the simulation time goes back to 0, always. *)
Theorem C55_time_refuted : forall KB KR KP KL name c y st,
  create_time_scheme name = Ok c -> get_state y = Ok st -> no_repeats y -> all_start KB KR KP KL y ->
  exists y', switch KB KR KP KL name y = Ok (y', Returns MOORDYN_SUCCESS) /\ y_time y' = 0%R.
Proof.
  intros KB KR KP KL name c y st Hc Hg Hn Ha. destruct (switch_ok KB KR KP KL name c y st Hc Hg Hn Ha) as (y' & E & _ & _ & _ & _ & _ & T & _). now exists y'.
Qed.
Print Assumptions C55_time_refuted.

(** C55 fails: until the next step, lines and free objects show their initial shape. *)
Theorem C55_shape_refuted : forall KB KR KP KL name c y st o a,
  create_time_scheme name = Ok c -> get_state y = Ok st -> no_repeats y -> all_start KB KR KP KL y ->
  In o (o_list (y_lines y)) -> k_init KL o = Some (Ok a) ->
  exists y', switch KB KR KP KL name y = Ok (y', Returns MOORDYN_SUCCESS) /\ o_show (y_lines y') o = a.
Proof.
  intros KB KR KP KL name c y st o a Hc Hg Hn Ha Ho Hk.
  destruct (switch_ok KB KR KP KL name c y st Hc Hg Hn Ha) as (y' & E & _ & _ & _ & _ & _ & _ & _ & _ & _ & _ & _ & _ & _ & _ & L & _). exists y'. split; [exact E|now apply L].
Qed.
Print Assumptions C55_shape_refuted.

(** C55 fails after a failure detached lines: the first step afterwards reads beyond the end of
    the state. *)
Theorem C55_after_failure_refuted : forall KB KR KP KL name c y st o ps,
  create_time_scheme name = Ok c -> get_state y = Ok st -> sound y -> no_repeats y -> all_start KB KR KP KL (add_loose_point o ps y) ->
  ~ In o (o_list (y_points y)) -> k_set KP o = true ->
  exists y', switch KB KR KP KL name (add_loose_point o ps y) = Ok (y', Returns MOORDYN_SUCCESS) /\ update KB KR KP KL y' = UB.
Proof. exact loose_switch. Qed.
Print Assumptions C55_after_failure_refuted.

(** C55 fails with waves or currents: afterwards their time is read from the deleted
    integrator. *)
Theorem C55_waves_refuted : forall KB KR KP KL name c y st t,
  create_time_scheme name = Ok c -> get_state y = Ok st -> no_repeats y -> all_start KB KR KP KL y -> waves_time y = Ok t ->
  exists y', switch KB KR KP KL name y = Ok (y', Returns MOORDYN_SUCCESS) /\ waves_time y' = UB.
Proof. exact switch_waves. Qed.
Print Assumptions C55_waves_refuted.

(** C30 fails: the point created by a failure does not move: whatever the integrator computes,
    the point stays where it was created, and it is never integrated. *)
Theorem C30_detached_point_frozen_refuted : forall KB KR KP KL y o st l p r b y1 y2, ~ In o (ids (o_slots (y_points y))) ->
  set_rows l p r b (add_loose_point o st y) = Ok y1 -> update KB KR KP KL y1 = Ok y2 ->
  o_show (y_points y2) o = st /\ ~ In o (ids (o_slots (y_points y2))).
Proof.
  intros KB KR KP KL y o st l p r b y1 y2 N H U. destruct (loose_untouched KB KR KP KL y o st l p r b y1 y2 N H U) as [A B]. split; [exact A|now rewrite B].
Qed.
Print Assumptions C30_detached_point_frozen_refuted.

(** one free point and one line with one inner node, at time 100, integrated by RK2 *)
Definition pz : pst := St vzero vzero.
Definition dpz : dpst := Dr vzero vzero.
Definition lz : lst := St [vzero] [vzero].
Definition dlz : dlst := Dr [vzero] [vzero].
Definition rz : rst := St xqZero v6zero.
Definition drz : drst := Dr xqZero v6zero.
Definition KB0 : kind rst drst := Kind (fun _ => rz) (fun _ => drz) (fun _ => Some (Ok rz)) (fun _ => true).
Definition KP0 : kind pst dpst := Kind (fun _ => pz) (fun _ => dpz) (fun _ => Some (Ok pz)) (fun _ => true).
Definition KL0 : kind lst dlst := Kind (fun _ => lz) (fun _ => dlz) (fun _ => Some (Ok lz)) (fun _ => true).
Definition p1 : pst := St (V3 1 2 3) vzero.
Definition l1 : lst := St [V3 4 5 6] [vzero].
Definition sys0 : system :=
  Sys (Objs [] (no_slots 2 2) (fun _ => rz)) (Objs [] (no_slots 2 2) (fun _ => rz))
      (Objs [0] (Slots [0] [[p1]; [pz]] [[dpz]; [dpz]] [true]) (fun _ => p1))
      (Objs [0] (Slots [0] [[l1]; [lz]] [[dlz]; [dlz]] [true]) (fun _ => l1)) 0.5 100 0.5 RK2 0 0.
Lemma sys0_ok : get_state sys0 = Ok (Ms [l1] [p1] [] []) /\ sound sys0 /\ no_repeats sys0 /\ all_start KB0 KB0 KP0 KL0 sys0 /\
  all_start KB0 KB0 KP0 KL0 (add_loose_point 1 p1 sys0).
Proof.
  assert (NoDup [0]) as N1 by (constructor; [intros []|constructor]).
  split; [reflexivity|]. split.
  { unfold sound, integrated, aligned, sys0. cbn. repeat split; repeat constructor; intros []. }
  split; [unfold no_repeats; cbn; repeat split; try constructor; auto; constructor|].
  split; unfold all_start, starts; cbn; repeat split; intros o v _ H; injection H as <-; eauto.
Qed.
Example C55_ex : create_time_scheme (stm "rk4") = Ok RK4 /\
  exists y' y2, switch KB0 KB0 KP0 KL0 (stm "rk4") sys0 = Ok (y', Returns MOORDYN_SUCCESS) /\
  y_time sys0 = 100%R /\ waves_time sys0 = Ok 100%R /\ y_time y' = 0%R /\ o_show (y_lines sys0) 0 = l1 /\ o_show (y_lines y') 0 = lz /\
  update KB0 KB0 KP0 KL0 y' = Ok y2 /\ o_show (y_lines y2) 0 = l1.
Proof. split; [reflexivity|]. eexists. eexists. repeat split. Qed.
Example C55_shapes_differ : l1 <> lz.
Proof. intro H. injection H as H _ _. lra. Qed.
Example C55_unknown_ex : create_time_scheme (stm "rk5") = Throw ExInvalidValue.
Proof. reflexivity. Qed.
Example C55_after_failure_ex : ~ In 1 (o_list (y_points sys0)) /\ exists y', switch KB0 KB0 KP0 KL0 (stm "rk4") (add_loose_point 1 p1 sys0) = Ok (y', Returns MOORDYN_SUCCESS) /\ update KB0 KB0 KP0 KL0 y' = UB.
Proof. split; [cbn; lia|]. eexists. split; reflexivity. Qed.
Example C30_frozen_ex : exists y1 y2, set_rows [lz] [pz] [] [] (add_loose_point 1 p1 sys0) = Ok y1 /\ update KB0 KB0 KP0 KL0 y1 = Ok y2 /\
  o_show (y_points y2) 0 = pz /\ o_show (y_points y2) 1 = p1.
Proof. eexists. eexists. repeat split. Qed.
