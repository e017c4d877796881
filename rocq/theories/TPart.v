(** Property theorems C103 and C104: parts of systems, and other numbers for the same system. *)
From Coq Require Import Reals List Arith ZArith Bool Lra Lia Permutation.
From Verif Require Import MErr MVec MStateOps MMat MInterp MLine MRod MBody MScheme MSys PLineB PDemo SPart PPartE PPartF PPartG.
From Verif Require MStep MNodes PPartB PPartC PPartD.
Import ListNotations.
Open Scope R_scope.

(** *** C103.  Lines and points without any connection to the others move and pull as if they were alone: any number of
    coupling steps, any time scheme that treats the objects one by one *)
Theorem C103_part : forall q nl np sea depth ec conv fuel m m' calls calls' r', one_by_one (MStep.m_scheme _ _ _ m) -> part_instance q nl np m m' ->
  Forall2 (part_call q (point_types m) (point_types m')) calls calls' -> net_run sea depth ec conv fuel m' (map to_call calls') = Ok r' ->
  exists r, net_run sea depth ec conv fuel m (map to_call calls) = Ok r /\ part_instance q nl np (fst r) (fst r') /\ Forall2 (part_forces q (point_types m) (point_types m')) (snd r) (snd r').
Proof.
  intros q nl np sea depth ec conv fuel m m' calls calls' r' HO HM HC E. apply PPartD.inst_PI in HM. destruct (PPartD.run_part q sea depth ec nl np _ _ _ _ conv fuel calls calls' HC m m' HO HM r' E) as (r & ER & H1 & H2). exists r. split; [exact ER|]. split; [|exact H2]. exact (proj1 (PPartD.PI_inst _ _ _ _ _ _ _ _ _ H1)).
Qed.
Print Assumptions C103_part.
(** two systems in one instance return the forces of the first, then those of the second *)
Theorem C103_beside : forall nl np nl2 np2 a b sea depth ec conv fuel calls calls2 r, one_by_one (MStep.m_scheme _ _ _ a) -> well_formed nl np a -> well_formed nl2 np2 b -> same_settings a b ->
  Forall2 (fun c c' => length (fst (fst c)) = coupled_count (point_types a) /\ length (snd (fst c)) = coupled_count (point_types a) /\ snd c = snd c') calls calls2 ->
  net_run sea depth ec conv fuel (beside a b) (map to_call (map (fun x => beside_call (fst x) (snd x)) (combine calls calls2))) = Ok r ->
  exists ra rb, net_run sea depth ec conv fuel a (map to_call calls) = Ok ra /\ net_run sea depth ec conv fuel b (map to_call calls2) = Ok rb /\
    snd r = map (fun f => fst f ++ snd f) (combine (snd ra) (snd rb)) /\ length (snd ra) = length (snd rb).
Proof.
  intros nl np nl2 np2 a b sea depth ec conv fuel calls calls2 r HO HA HB HS HC E. destruct (inst_beside _ _ _ _ _ _ HA HB HS) as (I1 & I2 & I3).
  assert (LT : length (point_types a) = np) by (unfold point_types; rewrite map_length; destruct HA as (_ & _ & _ & _ & _ & _ & _ & _ & _ & _ & HY & _); destruct HY as (_ & _ & _ & _ & _ & _ & (HY & _) & _); exact HY).
  set (w := map (fun x => beside_call (fst x) (snd x)) (combine calls calls2)) in *.
  assert (W : Forall2 (part_call same_numbers (point_types a) (point_types (beside a b))) calls w /\ Forall2 (part_call (after nl np) (point_types b) (point_types (beside a b))) calls2 w /\ Forall2 (part_call same_numbers (point_types (beside a b)) (point_types (beside a b))) w w).
  { rewrite types_beside. unfold w. clear E w. induction HC as [|c c' l l' (H1 & H2 & H3) HC IH]; cbn [combine map]; [repeat split; constructor|]. destruct IH as (X & Y & Z). split; [|split]; constructor; try assumption; unfold part_call, beside_call; cbn [fst snd].
    - split; [now apply coupled_left|]. split; [now apply coupled_left|reflexivity].
    - split; [now apply coupled_right|]. split; [now apply coupled_right|congruence].
    - split; [intros k Hk; reflexivity|]. split; [intros k Hk; reflexivity|reflexivity]. }
  destruct W as (W1 & W2 & W3). assert (HOB : one_by_one (MStep.m_scheme _ _ _ b)) by (destruct HS as (<- & _); exact HO).
  destruct (C103_part _ _ _ _ _ _ _ _ _ _ _ _ _ HO I1 W1 E) as (ra & EA & _ & FA). destruct (C103_part _ _ _ _ _ _ _ _ _ _ _ _ _ HOB I2 W2 E) as (rb & EB & _ & FB). destruct (C103_part _ _ _ sea depth ec conv fuel (beside a b) _ _ _ _ HO I3 W3 E) as (rc & EC & _ & FC). rewrite EC in E. injection E as ->.
  exists ra, rb. split; [exact EA|]. split; [exact EB|]. rewrite types_beside in FA, FB, FC. clear -FA FB FC LT. revert FA FB FC. generalize (snd ra) (snd rb) (snd r). intros fa fb f FA. revert fb. induction FA as [|x z fa f HX FA IH]; intros fb FB FC; inversion FB; subst; [split; reflexivity|]. inversion FC; subst. cbn [combine map fst snd length].
  match goal with H : Forall2 _ ?l f |- _ => match l with f => fail 1 | _ => destruct (IH l) as (IH1 & IH2); [assumption|assumption|] end end. split; [|now rewrite IH2]. f_equal; [|exact IH1]. eapply forces_beside; [reflexivity|eassumption|eassumption|assumption].
Qed.
Print Assumptions C103_beside.
(** the stationary scheme is none of them: it chooses one step for all the objects from the sum of their errors, and a point
    beside its twin is moved half as far *)
Theorem C103_stationary_refuted : exists m nl np sea depth ec fuel calls, MStep.m_scheme _ _ _ m = Stationary /\ well_formed nl np m /\
  forall conv, exists r r', net_run sea depth ec conv fuel m calls = Ok r /\ net_run sea depth ec conv fuel (beside m m) calls = Ok r' /\ ~ part_instance same_numbers nl np (fst r) (fst r').
Proof.
  exists lone, 0%nat, 1%nat, calm, (fun _ _ => -20), demo_env, 2%nat, [([], [], 1)]. split; [reflexivity|]. split; [exact lone_wf|]. intro conv.
  destruct (twin_run 1 conv lone (or_introl eq_refl) eq_refl) as (m1 & F1 & v1 & E1 & S1). destruct (twin_run 2 conv (beside lone lone) (or_intror eq_refl) eq_refl) as (m2 & F2 & v2 & E2 & S2). exists (m1, F1), (m2, F2). split; [exact E1|]. split; [exact E2|]. cbn [fst].
  intros (_ & _ & _ & _ & _ & _ & _ & _ & _ & _ & _ & _ & _ & H). specialize (H _ _ S1 S2). destruct H as (_ & _ & _ & _ & _ & H). specialize (H 0%nat _ eq_refl). cbn in H. injection H as H _. lra.
Qed.
Print Assumptions C103_stationary_refuted.
(** two mooring lines with other positions and stiffness and the points in another order *)
Example C103_met_parts : well_formed 1 2 inst1 /\ well_formed 1 2 inst2 /\ same_settings inst1 inst2 /\ one_by_one (MStep.m_scheme _ _ _ inst1) /\
  Forall2 (fun c c' => length (fst (fst c)) = coupled_count (point_types inst1) /\ length (snd (fst c)) = coupled_count (point_types inst1) /\ snd c = snd c') calls1 calls2.
Proof. split; [exact wf1|]. split; [exact wf2|]. split; [exact settings12|]. split; [exact I|]. constructor; [repeat split|constructor]. Qed.
Example C103_met_run : forall conv, exists m f, net_run sea1 (fun _ _ => -20) demo_env conv 2 (beside inst1 inst2) (map to_call (map (fun x => beside_call (fst x) (snd x)) (combine calls1 calls2))) = Ok (m, [f]) /\ length f = 6%nat.
Proof. exact runs12. Qed.

(** *** C104.  The numbers of lines and points do not matter: if two systems are parts of each other, both run or neither,
    with the same motion and forces *)
Theorem C104_numbers : forall q p nl np sea depth ec conv fuel m m' calls calls', one_by_one (MStep.m_scheme _ _ _ m) -> part_instance q nl np m m' -> part_instance p nl np m' m ->
  Forall2 (part_call q (point_types m) (point_types m')) calls calls' -> Forall2 (part_call p (point_types m') (point_types m)) calls' calls ->
  (forall r, net_run sea depth ec conv fuel m (map to_call calls) = Ok r -> exists r', net_run sea depth ec conv fuel m' (map to_call calls') = Ok r' /\ part_instance q nl np (fst r) (fst r') /\ Forall2 (part_forces q (point_types m) (point_types m')) (snd r) (snd r')) /\
  (forall r', net_run sea depth ec conv fuel m' (map to_call calls') = Ok r' -> exists r, net_run sea depth ec conv fuel m (map to_call calls) = Ok r /\ part_instance q nl np (fst r) (fst r') /\ Forall2 (part_forces q (point_types m) (point_types m')) (snd r) (snd r')).
Proof.
  intros q p nl np sea depth ec conv fuel m m' calls calls' HO H1 H2 C1 C2.
  assert (G : forall r', net_run sea depth ec conv fuel m' (map to_call calls') = Ok r' -> exists r, net_run sea depth ec conv fuel m (map to_call calls) = Ok r /\ part_instance q nl np (fst r) (fst r') /\ Forall2 (part_forces q (point_types m) (point_types m')) (snd r) (snd r')) by (intros r' E; exact (C103_part _ _ _ _ _ _ _ _ _ _ _ _ _ HO H1 C1 E)).
  split; [|exact G]. intros r E. assert (HO' : one_by_one (MStep.m_scheme _ _ _ m')) by (destruct H1 as (-> & _); exact HO). destruct (C103_part _ _ _ _ _ _ _ _ _ _ _ _ _ HO' H2 C2 E) as (r' & E' & _). exists r'. split; [exact E'|]. destruct (G r' E') as (r2 & E2 & X). rewrite E in E2. injection E2 as <-. exact X.
Qed.
Print Assumptions C104_numbers.
(** the two lines in the other order *)
Example C104_met : part_instance swap_lines 2 4 (beside inst1 inst2) (beside inst2 inst1) /\ part_instance swap_lines 2 4 (beside inst2 inst1) (beside inst1 inst2) /\
  let c := ([V3 3 1 (-16); V3 3 12 (-16)], [V3 0 1 0; V3 0 2 0], 1) in let c' := ([V3 3 12 (-16); V3 3 1 (-16)], [V3 0 2 0; V3 0 1 0], 1) in
  Forall2 (part_call swap_lines (point_types (beside inst1 inst2)) (point_types (beside inst2 inst1))) [c] [c'] /\ Forall2 (part_call swap_lines (point_types (beside inst2 inst1)) (point_types (beside inst1 inst2))) [c'] [c].
Proof.
  split; [apply swapped; auto|]. split; [apply swapped; auto|]. cbv zeta. split; (constructor; [|constructor]); repeat split; cbn [fst snd]; intros [|[|[|[|k]]]] Hk; cbn in Hk |- *; try discriminate; try reflexivity; destruct k; discriminate.
Qed.
