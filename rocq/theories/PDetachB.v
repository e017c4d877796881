(** Proofs about attachments and failures: consistency, histories, kinematics. *)
From Coq Require Import List Arith Bool Reals Permutation Lia Lra.
From Verif Require Import MErr MVec MStateOps MDetach SDetach PDetach.
Import ListNotations.
Local Open Scope nat_scope.

Definition place_dec (a b : place) : {a = b} + {a <> b}.
Proof. decide equality; try apply Nat.eq_dec. decide equality. Defined.

Lemma attach_effect s l e pl s' : attach s l e pl = Ok s' ->
  atts s' pl = atts s pl ++ [(l, e)] /\ (forall pl', pl' <> pl -> atts s' pl' = atts s pl') /\ (forall pl', kin_at s' pl' = kin_at s pl').
Proof.
  unfold attach. destruct pl as [i|i re].
  - destruct (nth_error (points s) i) as [p|] eqn:E; [|discriminate]. pose proof (nth_lt _ _ _ E) as L. intro H. injection H as <-.
    repeat split; cbn [atts points rods].
    + now rewrite upd_same, E by exact L.
    + intros [j|j []] D; cbn [atts points rods]; try reflexivity. rewrite upd_other; [reflexivity|exact L|congruence].
    + intros [j|j []]; cbn [kin_at points rods]; try reflexivity. destruct (Nat.eq_dec i j) as [<-|]; [now rewrite upd_same, E by exact L|now rewrite upd_other].
  - destruct (nth_error (rods s) i) as [p|] eqn:E; [|discriminate]. pose proof (nth_lt _ _ _ E) as L. intro H. injection H as <-.
    repeat split.
    + destruct re; cbn [atts points rods]; now rewrite upd_same, E by exact L.
    + intros [j|j []] D; cbn [atts points rods]; try reflexivity; destruct (Nat.eq_dec i j) as [<-|];
        try (now rewrite upd_other); destruct re; try (now contradiction D); now rewrite upd_same, E by exact L.
    + intros [j|j []]; cbn [kin_at points rods]; try reflexivity; destruct (Nat.eq_dec i j) as [<-|];
        try (now rewrite upd_other); destruct re; now rewrite upd_same, E by exact L.
Qed.
Lemma attach_other s l e pl s' a pl0 : attach s l e pl = Ok s' -> a <> (l, e) -> times s' pl0 a = times s pl0 a.
Proof.
  intros H D. destruct (attach_effect _ _ _ _ _ H) as (A & O & _). unfold times. destruct (place_dec pl0 pl) as [->|N]; [|now rewrite O].
  rewrite A, count_occ_app. cbn [count_occ]. destruct (att_dec (l, e) a); [congruence|lia].
Qed.
Lemma attach_this s l e pl s' : attach s l e pl = Ok s' -> (forall pl', times s pl' (l, e) = 0) -> attached_at s' (l, e) pl.
Proof.
  intros H Z. destruct (attach_effect _ _ _ _ _ H) as (A & O & _). unfold attached_at, times in *. split.
  - rewrite A, count_occ_app, Z. cbn [count_occ]. destruct (att_dec (l, e) (l, e)); [reflexivity|congruence].
  - intros pl' D. rewrite (O _ D). apply Z.
Qed.
Lemma attached_keep s s' a pl : (forall pl0, times s' pl0 a = times s pl0 a) -> attached_at s a pl -> attached_at s' a pl.
Proof. intros E [H K]. split; [now rewrite E|]. intros pl' D. rewrite E. now apply K. Qed.
Lemma attach_lines_ok ends : forall l s s', attach_lines l ends s = Ok s' ->
  (forall l' e, l <= l' -> forall pl, times s pl (l', e) = 0) ->
  (forall i a b, nth_error ends i = Some (a, b) -> attached_at s' (l + i, EndA) a /\ attached_at s' (l + i, EndB) b) /\
  (forall l' e, l' < l \/ l + length ends <= l' -> forall pl, times s' pl (l', e) = times s pl (l', e)) /\
  (forall pl, kin_at s' pl = kin_at s pl).
Proof.
  induction ends as [|[a b] ends IH]; intros l s s'; cbn [attach_lines].
  - intro H. injection H as <-. intros _. repeat split; auto; destruct i; discriminate.
  - destruct (attach s l EndA a) as [s1| | |] eqn:E1; cbn [obind]; try discriminate.
    destruct (attach s1 l EndB b) as [s2| | |] eqn:E2; cbn [obind]; try discriminate. intros H Z.
    assert (attached_at s2 (l, EndA) a) as A1.
    { apply (attached_keep s1); [intro; apply (attach_other _ _ _ _ _ _ _ E2); congruence|]. apply (attach_this _ _ _ _ _ E1). intro. apply Z. lia. }
    assert (attached_at s2 (l, EndB) b) as A2.
    { apply (attach_this _ _ _ _ _ E2). intro pl. rewrite (attach_other _ _ _ _ _ _ _ E1) by congruence. apply Z. lia. }
    assert (forall l' e, l' <> l -> forall pl, times s2 pl (l', e) = times s pl (l', e)) as T.
    { intros l' e D pl. rewrite (attach_other _ _ _ _ _ _ _ E2) by congruence. apply (attach_other _ _ _ _ _ _ _ E1). congruence. }
    destruct (IH _ _ _ H) as (I1 & I2 & I3).
    { intros l' e L pl. rewrite T by lia. apply Z. lia. }
    split; [|split].
    + intros [|i] a0 b0; cbn [nth_error].
      * intro K. injection K as <- <-. rewrite Nat.add_0_r. split; (eapply attached_keep; [|eassumption]); intro; apply I2; left; lia.
      * intro K. replace (l + S i) with (S l + i) by lia. now apply I1.
    + intros l' e K pl. cbn [length] in K. rewrite I2 by (destruct K; [left|right]; lia). apply T. lia.
    + intro pl. rewrite I3. destruct (attach_effect _ _ _ _ _ E1) as (_ & _ & X1). destruct (attach_effect _ _ _ _ _ E2) as (_ & _ & X2). now rewrite X2, X1.
Qed.
Lemma bare_times s a pl : bare s -> times s pl a = 0.
Proof. intro B. unfold times. now rewrite B. Qed.
Lemma read_consistent s ends s' : bare s -> attach_lines 0 ends s = Ok s' ->
  consistent (length ends) s' /\
  (forall i a b, nth_error ends i = Some (a, b) -> attached_at s' (i, EndA) a /\ attached_at s' (i, EndB) b) /\
  (forall pl, kin_at s' pl = kin_at s pl).
Proof.
  intros B H. destruct (attach_lines_ok _ _ _ _ H (fun l e _ pl => bare_times s (l, e) pl B)) as (I1 & I2 & I3).
  split; [|split; [exact I1|exact I3]]. intros l e. destruct (Nat.ltb_spec l (length ends)) as [L|L].
  - destruct (nth_error ends l) as [[a b]|] eqn:E; [|apply nth_error_None in E; lia]. destruct (I1 _ _ _ E) as [A1 A2]. destruct e; eauto.
  - intro pl. rewrite I2 by (right; lia). now apply bare_times.
Qed.

(** detaching *)
Lemma perm_count (l l' : list att) a : Permutation l l' -> count_occ att_dec l a = count_occ att_dec l' a.
Proof. intro H. exact (proj1 (Permutation_count_occ att_dec l l') H a). Qed.
Lemma detach_consistent n s f pl s' r : consistent n s -> fplace f = Some pl -> exists_at s pl -> detach s f = (s', r) -> consistent n s'.
Proof.
  intros C Hp Hk H. pose proof (place_old _ _ Hk) as Ho.
  destruct (detach_atts _ _ _ _ _ Hp Hk H) as (_ & es & k & _ & _ & _ & P & A & O & _).
  set (new := AtPoint (length (points s))) in *. set (M := combine (firstn k (f_lines f)) es) in *.
  assert (forall a, times s pl a = count_occ att_dec M a + times s' pl a) as T1.
  { intro a. unfold times. rewrite (perm_count _ _ a P). apply count_occ_app. }
  assert (forall a, times s' new a = count_occ att_dec M a) as T2 by (intro a; unfold times; now rewrite A).
  assert (forall a, times s new a = 0) as T3 by (intro a; unfold times, new; now rewrite none_new).
  assert (forall pl' a, pl' <> pl -> pl' <> new -> times s' pl' a = times s pl' a) as T4 by (intros pl' a D1 D2; unfold times; now rewrite O).
  intros l e. specialize (C l e). destruct (l <? n).
  - destruct C as (pl0 & C1 & C2). destruct (place_dec pl0 pl) as [->|D].
    + specialize (T1 (l, e)). rewrite C1 in T1. destruct (count_occ att_dec M (l, e)) as [|[|m]] eqn:E; [| |lia].
      * exists pl. split; [lia|]. intros pl' D. destruct (place_dec pl' new) as [->|N]; [rewrite T2; exact E|]. rewrite T4 by assumption. now apply C2.
      * exists new. split; [rewrite T2; exact E|]. intros pl' D. destruct (place_dec pl' pl) as [->|N]; [lia|]. rewrite T4 by assumption. now apply C2.
    + assert (times s pl (l, e) = 0) as Z by (apply C2; congruence). specialize (T1 (l, e)).
      exists pl0. destruct (place_dec pl0 new) as [->|N]; [rewrite T3 in C1; discriminate|]. split; [now rewrite T4|].
      intros pl' D'. destruct (place_dec pl' pl) as [->|]; [lia|]. destruct (place_dec pl' new) as [->|]; [rewrite T2; lia|]. rewrite T4 by assumption. now apply C2.
  - intro pl0. specialize (T1 (l, e)). rewrite C in T1. destruct (place_dec pl0 pl) as [->|]; [lia|]. destruct (place_dec pl0 new) as [->|]; [rewrite T2; lia|].
    rewrite T4 by assumption. apply C.
Qed.
Lemma detach_points s f pl s' r : fplace f = Some pl -> exists_at s pl -> detach s f = (s', r) -> length (points s') = S (length (points s)).
Proof.
  intros Hp Hk. pose proof (place_old _ _ Hk) as Ho. destruct (with_point_effect s) as (W1 & W2 & W3).
  assert (exists_at (with_point s) pl) as Hk1 by (unfold exists_at; rewrite W3; assumption).
  rewrite (detach_readable _ _ _ Hp). cbv zeta. destruct (old_kin_at _ _ _ Hp Hk1) as (k0 & -> & E0).
  destruct (move_lines (with_point s) f (length (points s)) (f_lines f)) as [s2 r2] eqn:E2.
  assert (length (points (with_point s)) = S (length (points s))) as L1 by (unfold with_point; cbn [points]; rewrite app_length; cbn; lia).
  destruct (move_lines_effect f _ _ pl Hp Ho _ _ _ E2) as (es & k & _ & _ & _ & _ & _ & _ & K1 & _).
  pose proof (move_lines_total f _ pl Hp Ho _ _ _ _ Hk1 ltac:(lia) E2) as [-> | ->]; intro H; injection H as <- <-; [|lia].
  destruct (point_set_effect s2 (length (points s)) k0 ltac:(lia)) as (_ & _ & _ & S4 & _). lia.
Qed.
Lemma detach_keeps_places s f pl s' r pl' : fplace f = Some pl -> exists_at s pl -> detach s f = (s', r) -> exists_at s pl' -> exists_at s' pl'.
Proof.
  intros Hp Hk H H'. destruct (detach_atts _ _ _ _ _ Hp Hk H) as (_ & es & k & _ & _ & _ & _ & _ & _ & K).
  unfold exists_at. rewrite K; [exact H'|now apply place_old].
Qed.
(** kinematics after a successful detachment *)
Lemma detach_kin s f pl s' : fplace f = Some pl -> exists_at s pl -> detach s f = (s', Ok tt) ->
  kin_at s' (AtPoint (length (points s))) = kin_at s pl /\
  (forall l e, In (l, e) (atts s' (AtPoint (length (points s)))) -> Some (lkin s' l e) = kin_at s pl) /\
  (forall l e, ~ In (l, e) (atts s' (AtPoint (length (points s)))) -> lkin s' l e = lkin s l e).
Proof.
  intros Hp Hk. pose proof (place_old _ _ Hk) as Ho. destruct (with_point_effect s) as (W1 & W2 & W3).
  assert (exists_at (with_point s) pl) as Hk1 by (unfold exists_at; rewrite W3; assumption).
  rewrite (detach_readable _ _ _ Hp). cbv zeta. destruct (old_kin_at _ _ _ Hp Hk1) as (k0 & -> & E0). rewrite W3 in E0 by assumption.
  destruct (move_lines (with_point s) f (length (points s)) (f_lines f)) as [s2 r2] eqn:E2.
  assert (length (points (with_point s)) = S (length (points s))) as L1 by (unfold with_point; cbn [points]; rewrite app_length; cbn; lia).
  destruct (move_lines_effect f _ _ pl Hp Ho _ _ _ E2) as (es & k & _ & _ & _ & _ & _ & _ & K1 & K2 & K3).
  pose proof (move_lines_total f _ pl Hp Ho _ _ _ _ Hk1 ltac:(lia) E2) as [-> | ->]; intro H; [|discriminate]. injection H as <-.
  destruct (point_set_effect s2 (length (points s)) k0 ltac:(lia)) as (S1 & S2 & _ & _ & S5). rewrite S2, S1, S5, K3. split; [now rewrite E0|].
  split; intros l e Hi; [rewrite pass_kin_in by exact Hi; now rewrite E0|now rewrite pass_kin_out].
Qed.
Lemma detach_glued s f pl s' : glued s -> fplace f = Some pl -> exists_at s pl -> detach s f = (s', Ok tt) -> glued s'.
Proof.
  intros G Hp Hk H. destruct (detach_atts _ _ _ _ _ Hp Hk H) as (_ & es & k & _ & _ & _ & P & A & O & K).
  destruct (detach_kin _ _ _ _ Hp Hk H) as (K1 & K2 & K3). set (new := AtPoint (length (points s))) in *.
  assert (forall l e, In (l, e) (atts s' new) -> In (l, e) (atts s pl)) as Hin.
  { intros l e Hi. apply (Permutation_in _ (Permutation_sym P)). apply in_or_app. left. now rewrite <- A. }
  assert (forall l e, lkin s' l e = lkin s l e) as E.
  { intros l e. destruct (in_dec att_dec (l, e) (atts s' new)) as [Hi|Hi]; [|now apply K3].
    specialize (K2 _ _ Hi). symmetry in K2. symmetry. exact (G _ _ _ _ (Hin _ _ Hi) K2). }
  intros pl' l e k1 Hi Hk'. rewrite E. destruct (place_dec pl' new) as [->|D].
  - rewrite K1 in Hk'. exact (G _ _ _ _ (Hin _ _ Hi) Hk').
  - rewrite (K _ D) in Hk'. apply (G pl'); [|exact Hk']. destruct (place_dec pl' pl) as [->|D2]; [|now rewrite <- (O _ D2 D)].
    apply (Permutation_in _ (Permutation_sym P)). apply in_or_app. now right.
Qed.

(** the failures of a step *)
Definition grows (s s' : net) := forall pl, exists_at s pl -> exists_at s' pl.
Lemma readable_grows s s' f : grows s s' -> readable s f -> readable s' f.
Proof. intros G (pl & H & K). exists pl. split; [exact H|now apply G]. Qed.
Lemma readable_all s s' fs : grows s s' -> Forall (readable s) fs -> Forall (readable s') fs.
Proof. intros G. apply Forall_impl. intro. now apply readable_grows. Qed.
Lemma readable_status s f : readable s f -> readable s (set_status f).
Proof. intros (pl & H & K). exists pl. now split. Qed.
Lemma step_failures_ok n fs : forall s t s' fs' r, consistent n s -> Forall (readable s) fs -> step_failures s fs t = (s', fs', r) ->
  consistent n s' /\ Forall (readable s') fs' /\ grows s s' /\ (r = Ok tt \/ r = Throw ExInvalidValue) /\
  length (points s') + happened fs = length (points s) + happened fs' /\ (r = Ok tt -> glued s -> glued s').
Proof.
  induction fs as [|f fs IH]; intros s t s' fs' r C F; cbn [step_failures].
  - intro H. injection H as <- <- <-. repeat split; auto. now intros pl.
  - apply Forall_inv in F as Ff. apply Forall_inv_tail in F as Fs. destruct (skipped f t) eqn:Es.
    + destruct (step_failures s fs t) as [[s1 gs] r1] eqn:E1. intro H. injection H as <- <- <-.
      destruct (IH _ _ _ _ _ C Fs E1) as (I1 & I2 & I3 & I4 & I5 & I6). split; [exact I1|]. split; [constructor; [now apply (readable_grows s)|exact I2]|].
      split; [exact I3|]. split; [exact I4|]. split; [|exact I6]. unfold happened in *. cbn [filter]. destruct (f_status f); cbn [length]; lia.
    + destruct Ff as (pl & Hp & Hk). destruct (detach s f) as [s1 r1] eqn:E1.
      assert (f_status f = false) as St by (unfold skipped in Es; now apply orb_false_elim in Es as [? _]).
      pose proof (detach_consistent _ _ _ _ _ _ C Hp Hk E1) as C1. pose proof (detach_points _ _ _ _ _ Hp Hk E1) as L1.
      assert (grows s s1) as G1 by (intros pl' H'; apply (detach_keeps_places _ _ _ _ _ _ Hp Hk E1 H')).
      assert (readable s1 (set_status f)) as R1 by (apply readable_status, (readable_grows s _ _ G1); now exists pl).
      destruct (detach_atts _ _ _ _ _ Hp Hk E1) as ([-> | ->] & _).
      * destruct (step_failures s1 fs t) as [[s2 gs] r2] eqn:E2. intro H. injection H as <- <- <-.
        destruct (IH _ _ _ _ _ C1 (readable_all _ _ _ G1 Fs) E2) as (I1 & I2 & I3 & I4 & I5 & I6).
        split; [exact I1|]. split; [constructor; [now apply (readable_grows s1)|exact I2]|]. split; [intros pl' H'; now apply I3, G1|].
        split; [exact I4|]. split.
        -- unfold happened in *. cbn [filter]. rewrite St. cbn [set_status f_status length]. lia.
        -- intros R0 Gl. apply (I6 R0). exact (detach_glued _ _ _ _ Gl Hp Hk E1).
      * intro H. injection H as <- <- <-. split; [exact C1|]. split; [constructor; [exact R1|now apply (readable_all s)]|].
        split; [exact G1|]. split; [now right|]. split; [|discriminate]. unfold happened in *. cbn [filter]. rewrite St. cbn [set_status f_status length]. lia.
Qed.
Lemma moved_points s s' : moved s s' -> length (points s') = length (points s).
Proof.
  intros [_ M]. assert (forall a, exists_at a (AtPoint (length (points a))) -> False) as N.
  { intros a H. apply H. cbn [kin_at]. now rewrite (proj2 (nth_error_None _ _) (Nat.le_refl _)). }
  assert (forall a i, i < length (points a) -> exists_at a (AtPoint i)) as Y.
  { intros a i H. unfold exists_at. cbn [kin_at]. destruct (nth_error (points a) i) eqn:E; [discriminate|]. apply nth_error_None in E. lia. }
  destruct (Nat.lt_trichotomy (length (points s')) (length (points s))) as [L|[L|L]]; [|exact L|].
  - exfalso. apply (N s'). apply M. now apply Y.
  - exfalso. apply (N s). apply M. now apply Y.
Qed.
Lemma moved_times s s' pl a : moved s s' -> times s' pl a = times s pl a.
Proof. intros [M _]. unfold times. now rewrite M. Qed.
Lemma history_ok n s0 fs0 s fs : consistent n s0 -> Forall (readable s0) fs0 -> history s0 fs0 s fs ->
  consistent n s /\ Forall (readable s) fs /\ length (points s) + happened fs0 = length (points s0) + happened fs.
Proof.
  intros C F. induction 1 as [|s s' fs H IH M|s fs t s' fs' r H IH E]; [auto| |].
  - destruct IH as (I1 & I2 & I3). split; [|split].
    + intros l e. specialize (I1 l e). destruct (l <? n).
      * destruct I1 as (pl & A). exists pl. exact (attached_keep _ _ _ _ (fun pl0 => moved_times _ _ _ _ M) A).
      * intro pl. now rewrite (moved_times _ _ _ _ M).
    + apply (readable_all s); [|exact I2]. intros pl K. now apply M.
    + now rewrite (moved_points _ _ M).
  - destruct IH as (I1 & I2 & I3). destruct (step_failures_ok n _ _ _ _ _ _ I1 I2 E) as (K1 & K2 & _ & _ & K5 & _). split; [exact K1|]. split; [exact K2|lia].
Qed.

(** when failures happen *)
Lemma skipped_iff f t : skipped f t = false <-> f_status f = false /\ (t <= f_time f)%R.
Proof.
  unfold skipped. destruct (Rlt_dec (f_time f) t); rewrite orb_false_iff; split; intros [H1 H2]; split; try exact H1; try discriminate; try reflexivity; lra.
Qed.
Definition same_failure (f g : failure) := f_rod f = f_rod g /\ f_rend f = f_rend g /\ f_point f = f_point g /\ f_lines f = f_lines g /\ f_time f = f_time g.
Lemma step_failures_status fs : forall s t s' fs' r, step_failures s fs t = (s', fs', r) ->
  length fs' = length fs /\
  forall i f, nth_error fs i = Some f -> exists g, nth_error fs' i = Some g /\ same_failure f g /\
    (skipped f t = true -> f_status g = f_status f) /\ (r = Ok tt -> skipped f t = false -> f_status g = true) /\ (f_status f = true -> f_status g = true).
Proof.
  induction fs as [|f fs IH]; intros s t s' fs' r; cbn [step_failures].
  - intro H. injection H as <- <- <-. split; [reflexivity|]. intros [|i]; discriminate.
  - destruct (skipped f t) eqn:Es.
    + destruct (step_failures s fs t) as [[s1 gs] r1] eqn:E1. intro H. injection H as <- <- <-. destruct (IH _ _ _ _ _ E1) as [L I]. split; [cbn; now rewrite L|].
      intros [|i] f0; cbn [nth_error]; [|apply I]. intro H. injection H as <-. exists f. repeat split; congruence.
    + assert (forall f0, Some f = Some f0 -> exists g, Some (set_status f) = Some g /\ same_failure f0 g /\
        (skipped f0 t = true -> f_status g = f_status f0) /\ (forall b, b = Ok tt -> skipped f0 t = false -> f_status g = true) /\ (f_status f0 = true -> f_status g = true)) as Hd.
      { intros f0 H. injection H as <-. exists (set_status f). repeat split; congruence. }
      destruct (detach s f) as [s1 [u|e| |]] eqn:E1.
      * destruct (step_failures s1 fs t) as [[s2 gs] r2] eqn:E2. intro H. injection H as <- <- <-. destruct (IH _ _ _ _ _ E2) as [L I]. split; [cbn; now rewrite L|].
        intros [|i] f0; cbn [nth_error]; [|apply I]. intro H. destruct (Hd _ H) as (g & G1 & G2 & G3 & G4 & G5). exists g. repeat split; try apply G2; auto. now apply G4.
      * intro H. injection H as <- <- <-. split; [reflexivity|]. intros [|i] f0; cbn [nth_error].
        -- intro H. destruct (Hd _ H) as (g & G1 & G2 & G3 & G4 & G5). exists g. repeat split; try apply G2; auto. discriminate.
        -- intro H. exists f0. repeat split; auto; discriminate.
      * intro H. injection H as <- <- <-. split; [reflexivity|]. intros [|i] f0; cbn [nth_error].
        -- intro H. destruct (Hd _ H) as (g & G1 & G2 & G3 & G4 & G5). exists g. repeat split; try apply G2; auto. discriminate.
        -- intro H. exists f0. repeat split; auto; discriminate.
      * intro H. injection H as <- <- <-. split; [reflexivity|]. intros [|i] f0; cbn [nth_error].
        -- intro H. destruct (Hd _ H) as (g & G1 & G2 & G3 & G4 & G5). exists g. repeat split; try apply G2; auto. discriminate.
        -- intro H. exists f0. repeat split; auto; discriminate.
Qed.

(** children of the time step restriction *)
Lemma remove_child_in l l' k : l' <> l -> In l' k -> In l' (remove_child l k).
Proof. intros D H. unfold remove_child. apply filter_In. split; [exact H|]. destruct (Nat.eqb_spec l' l); [contradiction|reflexivity]. Qed.
Lemma move_line_kids s f o l s' pl : fplace f = Some pl -> pl <> AtPoint o -> move_line s f o l = Ok s' ->
  (forall pl' l', l' <> l -> In l' (kids_at s pl') -> In l' (kids_at s' pl')) /\ In l (kids_at s' (AtPoint o)) /\
  (forall l', In l' (kids_at s (AtPoint o)) -> In l' (kids_at s' (AtPoint o))).
Proof.
  unfold fplace, move_line. intros Hp Ho. destruct (nth_error (points s) o) as [q|] eqn:Eo; [|discriminate].
  pose proof (nth_lt _ _ _ Eo) as Lo.
  assert (forall p' l0 e0, nth_error (points s) o = Some p' -> forall l', In l' (p_kids p') -> In l' (p_kids (point_add p' l0 e0))) as Hq
    by (intros; cbn; apply in_or_app; now left).
  destruct (f_rod f) as [i|] eqn:Er.
  - destruct (f_point f); [discriminate|]. injection Hp as <-. destruct (nth_error (rods s) i) as [d|] eqn:Ei; [|discriminate].
    pose proof (nth_lt _ _ _ Ei) as Li.
    assert (forall e d', rod_remove d (f_rend f) l = Ok (e, d') -> forall l', l' <> l -> In l' (r_kids d) -> In l' (r_kids d')) as Hr.
    { intros e d'. unfold rod_remove. destruct (f_rend f).
      - destruct (take_line l (r_attA d)) as [[e1 r1]|]; [|discriminate]. intro H. injection H as <- <-. intros. now apply remove_child_in.
      - destruct (take_line l (r_attB d)) as [[e1 r1]|]; [|discriminate]. intro H. injection H as <- <-. intros. now apply remove_child_in. }
    destruct (rod_remove d (f_rend f) l) as [[e d']| | |] eqn:Ed; cbn [obind fst snd]; try discriminate. intro H. injection H as <-.
    repeat split.
    + intros [j|j re] l' D; cbn [kids_at points rods].
      * destruct (Nat.eq_dec o j) as [<-|]; [rewrite upd_same, Eo by exact Lo; now apply (Hq q)|now rewrite upd_other].
      * destruct (Nat.eq_dec i j) as [<-|]; [rewrite upd_same, Ei by exact Li; now apply (Hr e d' eq_refl)|now rewrite upd_other].
    + cbn [kids_at points]. rewrite upd_same by exact Lo. cbn. apply in_or_app. right. now left.
    + intro l'. cbn [kids_at points]. rewrite upd_same, Eo by exact Lo. now apply (Hq q).
  - destruct (f_point f) as [i|]; [|discriminate]. injection Hp as <-. destruct (nth_error (points s) i) as [p|] eqn:Ei; [|discriminate].
    pose proof (nth_lt _ _ _ Ei) as Li. unfold point_remove. destruct (take_line l (p_att p)) as [[e r]|] eqn:Et; [|discriminate].
    cbn [obind fst snd]. assert (i <> o) as D by congruence. rewrite upd_other, Eo by assumption. intro H. injection H as <-.
    repeat split.
    + intros [j|j re] l' D'; cbn [kids_at points rods]; [|auto].
      destruct (Nat.eq_dec o j) as [<-|]; [rewrite upd_same, Eo by (rewrite ?upd_length by exact Li; auto); now apply (Hq q)|].
      rewrite upd_other by (rewrite ?upd_length by exact Li; auto).
      destruct (Nat.eq_dec i j) as [<-|]; [rewrite upd_same, Ei by exact Li; now apply remove_child_in|now rewrite upd_other].
    + cbn [kids_at points]. rewrite upd_same by (rewrite ?upd_length by exact Li; auto). cbn. apply in_or_app. right. now left.
    + intro l'. cbn [kids_at points]. rewrite upd_same, Eo by (rewrite ?upd_length by exact Li; auto). now apply (Hq q).
Qed.
Lemma move_lines_kids f o ls pl : fplace f = Some pl -> pl <> AtPoint o -> forall s s', move_lines s f o ls = (s', Ok tt) ->
  (forall pl' l', ~ In l' ls -> In l' (kids_at s pl') -> In l' (kids_at s' pl')) /\
  (forall l', In l' (kids_at s (AtPoint o)) \/ In l' ls -> In l' (kids_at s' (AtPoint o))).
Proof.
  intros Hp Ho. induction ls as [|l ls IH]; intros s s'; cbn [move_lines].
  - intro H. injection H as <-. split; auto. intros l' [H|[]]; exact H.
  - destruct (move_line s f o l) as [s1|e| |] eqn:E1; intro H; try discriminate.
    destruct (move_line_kids _ _ _ _ _ _ Hp Ho E1) as (K1 & K2 & K3). destruct (IH _ _ H) as (I1 & I2). split.
    + intros pl' l' N Hi. apply I1; [intro; apply N; now right|]. apply K1; [|exact Hi]. intros ->. apply N. now left.
    + intros l' [Hi|[<-|Hi]]; apply I2; auto.
Qed.
Lemma detach_kids s f pl s' : fplace f = Some pl -> exists_at s pl -> detach s f = (s', Ok tt) ->
  (forall pl' l', ~ In l' (f_lines f) -> In l' (kids_at s pl') -> In l' (kids_at s' pl')) /\
  (forall l', In l' (f_lines f) -> In l' (kids_at s' (AtPoint (length (points s))))).
Proof.
  intros Hp Hk. pose proof (place_old _ _ Hk) as Ho. destruct (with_point_effect s) as (W1 & W2 & W3).
  assert (exists_at (with_point s) pl) as Hk1 by (unfold exists_at; rewrite W3; assumption).
  rewrite (detach_readable _ _ _ Hp). cbv zeta. destruct (old_kin_at _ _ _ Hp Hk1) as (k0 & -> & E0).
  destruct (move_lines (with_point s) f (length (points s)) (f_lines f)) as [s2 r2] eqn:E2.
  assert (length (points (with_point s)) = S (length (points s))) as L1 by (unfold with_point; cbn [points]; rewrite app_length; cbn; lia).
  destruct (move_lines_effect f _ _ pl Hp Ho _ _ _ E2) as (es & k & _ & _ & _ & _ & _ & _ & KL & _).
  pose proof (move_lines_total f _ pl Hp Ho _ _ _ _ Hk1 ltac:(lia) E2) as [-> | ->]; intro H; [|discriminate]. injection H as <-.
  destruct (move_lines_kids f _ _ pl Hp Ho _ _ E2) as (M1 & M2).
  assert (forall pl', kids_at (point_set s2 (length (points s)) k0) pl' = kids_at s2 pl') as Es.
  { intro pl'. unfold point_set. destruct (nth_error (points s2) (length (points s))) as [p|] eqn:E; [|reflexivity].
    destruct pl' as [j|j re]; cbn [kids_at points rods]; [|reflexivity]. pose proof (nth_lt _ _ _ E) as L.
    destruct (Nat.eq_dec (length (points s)) j) as [<-|]; [now rewrite upd_same, E by exact L|now rewrite upd_other]. }
  assert (forall pl' l', In l' (kids_at s pl') -> In l' (kids_at (with_point s) pl')) as Ew.
  { intros [j|j re] l'; cbn [kids_at points rods with_point]; [|auto]. destruct (nth_error (points s) j) eqn:E; [|intros []].
    rewrite nth_error_app1 by (now apply nth_lt in E). now rewrite E. }
  split; [intros pl' l' N Hi; rewrite Es; apply M1; auto|intros l' Hi; rewrite Es; apply M2; now right].
Qed.
Lemma move_lines_all f o pl : fplace f = Some pl -> pl <> AtPoint o -> forall ls s s' r, exists_at s pl -> o < length (points s) -> NoDup ls ->
  (forall l, In l ls -> exists e, In (l, e) (atts s pl)) -> move_lines s f o ls = (s', r) -> r = Ok tt.
Proof.
  intros Hp Ho. induction ls as [|l ls IH]; intros s s' r Hk Lo N Hi; cbn [move_lines].
  - intro H. now injection H as <- <-.
  - destruct (move_line_total s f o l pl Hp Hk Ho Lo) as [[s1 E1]|[_ E1]].
    + rewrite E1. destruct (move_line_effect _ _ _ _ _ _ Hp Ho E1) as (e & P & _ & _ & K1 & K2 & _). inversion N as [|? ? N1 N2]. subst.
      apply IH; [unfold exists_at; now rewrite K2|lia|exact N2|]. intros l' Hl. destruct (Hi l' (or_intror Hl)) as (e' & He).
      apply (Permutation_in _ P) in He as [He|He]; [injection He as -> _; contradiction|eauto].
    + destruct (Hi l (or_introl eq_refl)) as (e & He). now apply E1 in He.
Qed.
Lemma detach_all s f pl s' r : fplace f = Some pl -> exists_at s pl -> NoDup (f_lines f) -> detach s f = (s', r) ->
  (forall l, In l (f_lines f) -> exists e, In (l, e) (atts s pl)) -> r = Ok tt.
Proof.
  intros Hp Hk N E Hi. pose proof (place_old _ _ Hk) as Ho. destruct (with_point_effect s) as (W1 & W2 & W3).
  assert (exists_at (with_point s) pl) as Hk1 by (unfold exists_at; rewrite W3; assumption).
  rewrite (detach_readable _ _ _ Hp) in E. cbv zeta in E. destruct (old_kin_at _ _ _ Hp Hk1) as (k0 & E0 & _). rewrite E0 in E.
  destruct (move_lines (with_point s) f (length (points s)) (f_lines f)) as [s2 r2] eqn:E2.
  assert (length (points (with_point s)) = S (length (points s))) as L1 by (unfold with_point; cbn [points]; rewrite app_length; cbn; lia).
  assert (r2 = Ok tt) as ->.
  { apply (move_lines_all f _ pl Hp Ho _ _ _ _ Hk1 ltac:(lia) N) with (2 := E2). intros l Hl. rewrite W1. auto. }
  now injection E.
Qed.
