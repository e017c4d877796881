(** C30, C82, C83: attachments of line ends and failures. *)
From Coq Require Import List Arith Bool Reals Permutation Lia Lra.
From Verif Require Import MErr MVec MDetach SDetach PDetach PDetachB.
Import ListNotations.
Local Open Scope nat_scope.

(** C30: after reading a file each end of each line is attached where the file says, and to
    nothing else. *)
Theorem C30_read : forall s ends s', bare s -> attach_lines 0 ends s = Ok s' ->
  consistent (length ends) s' /\
  forall i a b, nth_error ends i = Some (a, b) -> attached_at s' (i, EndA) a /\ attached_at s' (i, EndB) b.
Proof. intros s ends s' B H. destruct (read_consistent s ends s' B H) as (C & A & _). exact (conj C A). Qed.
Print Assumptions C30_read.

(** C30: this remains true through any motion and any sequence of failures, also after those
    that end with an error; and every failure that happened created one point. *)
Theorem C30_history : forall n s0 fs0 s fs, consistent n s0 -> Forall (readable s0) fs0 -> history s0 fs0 s fs ->
  consistent n s /\ length (points s) + happened fs0 = length (points s0) + happened fs.
Proof. intros n s0 fs0 s fs C F H. destruct (history_ok n s0 fs0 s fs C F H) as (A & _ & B). exact (conj A B). Qed.
Print Assumptions C30_history.

(** C30: a detachment moves one end of each requested line, in order, from the place of the
    failure to the new point, and nothing else. *)
Theorem C30_detach : forall s f pl s', fplace f = Some pl -> exists_at s pl -> detach s f = (s', Ok tt) ->
  let new := AtPoint (length (points s)) in
  map fst (atts s' new) = f_lines f /\
  Permutation (atts s pl) (atts s' new ++ atts s' pl) /\
  forall pl', pl' <> pl -> pl' <> new -> atts s' pl' = atts s pl'.
Proof.
  intros s f pl s' Hp Hk H new. destruct (detach_atts _ _ _ _ _ Hp Hk H) as (_ & es & k & L & _ & Lk & P & A & O & _).
  specialize (Lk eq_refl). subst k. unfold new. rewrite A. rewrite Lk, firstn_all in *. split; [|split; [exact P|exact O]].
  clear -Lk. revert es Lk. induction (f_lines f) as [|l ls IH]; intros [|e es] Lk; cbn in *; try lia; [reflexivity|]. f_equal. apply IH. lia.
Qed.
Print Assumptions C30_detach.

(** C30: a detachment either succeeds or is an error, and it succeeds exactly if all the
    requested lines are attached there. *)
Theorem C30_detach_error : forall s f pl s' r, fplace f = Some pl -> exists_at s pl -> NoDup (f_lines f) -> detach s f = (s', r) ->
  (r = Ok tt \/ r = Throw ExInvalidValue) /\ (r = Ok tt <-> forall l, In l (f_lines f) -> exists e, In (l, e) (atts s pl)).
Proof.
  intros s f pl s' r Hp Hk N H. split; [exact (proj1 (detach_atts _ _ _ _ _ Hp Hk H))|]. split; [|exact (detach_all s f pl s' r Hp Hk N H)].
  intros -> l Hl. destruct (C30_detach _ _ _ _ Hp Hk H) as (M & P & _). rewrite <- M in Hl. apply in_map_iff in Hl as ((l' & e) & E & Hi). cbn in E. subst l'.
  exists e. apply (Permutation_in _ (Permutation_sym P)), in_or_app. now left.
Qed.
Print Assumptions C30_detach_error.

(** C30: the new point is where the old attachment is, no line end jumps, and no other line
    end is touched. *)
Theorem C30_kinematics : forall s f pl s', fplace f = Some pl -> exists_at s pl -> detach s f = (s', Ok tt) ->
  let new := AtPoint (length (points s)) in
  kin_at s' new = kin_at s pl /\
  (forall l e, In (l, e) (atts s' new) -> Some (lkin s' l e) = kin_at s pl) /\
  (forall l e, ~ In (l, e) (atts s' new) -> lkin s' l e = lkin s l e) /\
  (glued s -> glued s').
Proof.
  intros s f pl s' Hp Hk H new. destruct (detach_kin s f pl s' Hp Hk H) as (A & B & C).
  exact (conj A (conj B (conj C (fun G => detach_glued s f pl s' G Hp Hk H)))).
Qed.
Print Assumptions C30_kinematics.

(** a system with two points, a rod, and three lines *)
Definition at0 (z : R) : kin := (V3 0 0 z, vzero).
Definition net0 : net :=
  Net [Pnt [] (at0 (-10)) []; Pnt [] (at0 (-20)) []] [Rdn [] [] (at0 (-1)) (at0 (-2)) []]
      (fun l e => match l, e with 0, EndA => at0 (-10) | 0, EndB => at0 (-20) | 1, EndA => at0 (-10) | 1, EndB => at0 (-1) | _, EndA => at0 (-20) | _, EndB => at0 (-20) end).
Definition ends0 : list (place * place) := [(AtPoint 0, AtPoint 1); (AtPoint 0, AtRod 0 EndA); (AtPoint 1, AtPoint 1)].
Example C30_read_ex : bare net0 /\ exists s, attach_lines 0 ends0 net0 = Ok s /\ atts s (AtPoint 0) = [(0, EndA); (1, EndA)] /\ atts s (AtRod 0 EndA) = [(1, EndB)].
Proof.
  split; [|eexists; cbv [attach_lines ends0 obind attach net0 nth_error points rods]; repeat split; reflexivity].
  intros [[|[|[|i]]]|[|[|i]] []]; reflexivity.
Qed.
Definition fail0 (ls : list nat) (t : R) : failure := Fail None EndA (Some 0) ls t false.
Definition net1 : net := match attach_lines 0 ends0 net0 with Ok s => s | _ => net0 end.
Example C30_detach_ex : exists s', detach net1 (fail0 [1] 5) = (s', Ok tt) /\
  atts s' (AtPoint 2) = [(1, EndA)] /\ atts s' (AtPoint 0) = [(0, EndA)] /\ kin_at s' (AtPoint 2) = Some (at0 (-10)).
Proof. eexists. split; [reflexivity|]. repeat split. Qed.
Example C30_history_ex : consistent 3 net1 /\ readable net1 (fail0 [1] 5).
Proof.
  split; [|exists (AtPoint 0); split; [reflexivity|discriminate]].
  destruct (read_consistent net0 ends0 net1) as (C & _); [apply C30_read_ex|reflexivity|exact C].
Qed.

(** C30 fails after an error: the lines moved before the error hang from a point that was left
    at the origin, so attached line ends are no longer where their point is. *)
Theorem C30_failed_detach_refuted : exists s f pl s', consistent 3 s /\ glued s /\ fplace f = Some pl /\ exists_at s pl /\
  detach s f = (s', Throw ExInvalidValue) /\ ~ glued s'.
Proof.
  exists net1, (fail0 [1; 2] 5), (AtPoint 0). eexists. split; [apply C30_history_ex|]. split.
  - intros [[|[|[|i]]]|[|[|i]] []] l e k; cbn; intros H E; injection E as <- || discriminate E || idtac;
      repeat (destruct H as [H|H]; [injection H as <- <-; reflexivity|]); try contradiction H.
  - split; [reflexivity|]. split; [discriminate|]. split; [reflexivity|]. intro G.
    specialize (G (AtPoint 2) 1 EndA (v00, v00) (or_introl eq_refl) eq_refl). apply (f_equal (fun k => vz (fst k))) in G. cbn in G. lra.
Qed.
Print Assumptions C30_failed_detach_refuted.

(** C82 fails: a failure planned for a later time happens at once. *)
Theorem C82_too_early_refuted : exists s f t s' f' pl, consistent 3 s /\ readable s f /\ f_status f = false /\ fplace f = Some pl /\
  (t < f_time f)%R /\ step_failures s [f] t = (s', [f'], Ok tt) /\ f_status f' = true /\ atts s' pl <> atts s pl.
Proof.
  exists net1, (fail0 [1] 100), 0.1%R. destruct (step_failures net1 [fail0 [1] 100] 0.1) as [[s' fs'] r] eqn:E.
  pose proof E as E'. cbn [step_failures] in E. assert (skipped (fail0 [1] 100) 0.1 = false) as S by (apply skipped_iff; split; [reflexivity|cbn; lra]).
  rewrite S in E. destruct C30_detach_ex as (s1 & D & A & B & _).
  assert (detach net1 (fail0 [1] 100) = detach net1 (fail0 [1] 5)) as Ed by reflexivity. rewrite Ed, D in E. injection E as <- <- <-.
  exists s1, (set_status (fail0 [1] 100)), (AtPoint 0).
  split; [apply C30_history_ex|]. split; [exists (AtPoint 0); split; [reflexivity|discriminate]|]. split; [reflexivity|]. split; [reflexivity|].
  split; [cbn; lra|]. split; [reflexivity|]. split; [reflexivity|]. rewrite B. discriminate.
Qed.
Print Assumptions C82_too_early_refuted.

(** C82 fails: a failure whose time is over never happens, however long the simulation runs. *)
Theorem C82_never_refuted : forall s fs t s' fs' r i f, step_failures s fs t = (s', fs', r) -> nth_error fs i = Some f ->
  f_status f = false -> (f_time f < t)%R -> exists g, nth_error fs' i = Some g /\ f_status g = false /\ f_time g = f_time f.
Proof.
  intros s fs t s' fs' r i f H Hn St Ht. destruct (step_failures_status _ _ _ _ _ _ H) as [_ I].
  destruct (I _ _ Hn) as (g & G1 & (_ & _ & _ & _ & G2) & G3 & _). exists g. split; [exact G1|]. split; [|now symmetry].
  rewrite G3; [exact St|]. destruct (skipped f t) eqn:E; [reflexivity|]. apply skipped_iff in E. lra.
Qed.
Print Assumptions C82_never_refuted.

(** C82: what does hold: in a step that ends without error, the failures that happen are
    those that have not happened yet and whose time is not before the end of the step; each
    failure happens at most once, and the failure data are otherwise unchanged. *)
Theorem C82_when_partial : forall s fs t s' fs', step_failures s fs t = (s', fs', Ok tt) -> forall i f, nth_error fs i = Some f ->
  exists g, nth_error fs' i = Some g /\ f_time g = f_time f /\ f_lines g = f_lines f /\
    (f_status g = true <-> f_status f = true \/ (t <= f_time f)%R).
Proof.
  intros s fs t s' fs' H i f Hn. destruct (step_failures_status _ _ _ _ _ _ H) as [_ I].
  destruct (I _ _ Hn) as (g & G1 & (_ & _ & _ & G2 & G3) & G4 & G5 & G6). exists g. split; [exact G1|]. split; [now symmetry|]. split; [now symmetry|].
  split.
  - intro St. destruct (skipped f t) eqn:E; [left; now rewrite <- G4|right; now apply skipped_iff].
  - intros [St|Ht]; [now apply G6|]. destruct (f_status f) eqn:E; [now apply G6|]. apply G5; [reflexivity|]. now apply skipped_iff.
Qed.
Print Assumptions C82_when_partial.
Theorem C82_once : forall s fs t s' fs' r i f, step_failures s fs t = (s', fs', r) -> nth_error fs i = Some f -> f_status f = true ->
  exists g, nth_error fs' i = Some g /\ f_status g = true.
Proof.
  intros s fs t s' fs' r i f H Hn St. destruct (step_failures_status _ _ _ _ _ _ H) as [_ I].
  destruct (I _ _ Hn) as (g & G1 & _ & _ & _ & G6). exists g. auto.
Qed.
Print Assumptions C82_once.
Example C82_ex : exists s' fs', step_failures net1 [fail0 [1] 100; fail0 [0] (-1)] 0.1 = (s', fs', Ok tt) /\ map f_status fs' = [true; false].
Proof.
  cbn [step_failures]. assert (skipped (fail0 [1] 100) 0.1 = false) as S by (apply skipped_iff; split; [reflexivity|cbn; lra]). rewrite S.
  assert (skipped (fail0 [0] (-1)) 0.1 = true) as S2.
  { destruct (skipped (fail0 [0] (-1)) 0.1) eqn:E; [reflexivity|]. apply skipped_iff in E as [_ E]. cbn in E. lra. }
  rewrite S2. eexists. eexists. split; reflexivity.
Qed.

(** C83 fails: a line with both ends at one point no longer limits the time step of that point
    after one of the ends is detached. *)
Theorem C83_both_ends_refuted : exists s f pl s', consistent 3 s /\ restricts s /\ fplace f = Some pl /\ exists_at s pl /\
  detach s f = (s', Ok tt) /\ ~ restricts s'.
Proof.
  exists net1, (Fail None EndA (Some 1) [2] 0 false), (AtPoint 1). eexists. split; [apply C30_history_ex|]. split.
  - intros [[|[|[|i]]]|[|[|i]] []] l e; cbn; intros H; repeat (destruct H as [H|H]; [injection H as <- <-; tauto|]); contradiction H.
  - split; [reflexivity|]. split; [discriminate|]. split; [reflexivity|]. intro G.
    specialize (G (AtPoint 1) 2 EndB). cbn in G. destruct G as [G|G]; [tauto|lia|exact G].
Qed.
Print Assumptions C83_both_ends_refuted.
(** C83: the other lines keep limiting the time step of the objects they are attached to, and
    the detached lines limit the time step of the new point. *)
Theorem C83_other_lines_partial : forall s f pl s', fplace f = Some pl -> exists_at s pl -> detach s f = (s', Ok tt) ->
  (forall pl' l, ~ In l (f_lines f) -> In l (kids_at s pl') -> In l (kids_at s' pl')) /\
  (forall l, In l (f_lines f) -> In l (kids_at s' (AtPoint (length (points s))))).
Proof. exact detach_kids. Qed.
Print Assumptions C83_other_lines_partial.
