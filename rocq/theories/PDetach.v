(** Proofs about attachments and failures. *)
From Coq Require Import List Arith Bool Reals Permutation Lia Lra.
From Verif Require Import MErr MVec MStateOps MDetach SDetach.
Import ListNotations.
Local Open Scope nat_scope.

Lemma upd_same {A} (l : list A) i a : i < length l -> nth_error (upd l i a) i = Some a.
Proof.
  intro H. unfold upd. rewrite nth_error_app2; rewrite firstn_length_le by lia; [|lia]. now rewrite Nat.sub_diag.
Qed.
Lemma upd_other {A} (l : list A) i j a : i < length l -> i <> j -> nth_error (upd l i a) j = nth_error l j.
Proof.
  intros H D. unfold upd. destruct (Nat.lt_ge_cases j i).
  - rewrite nth_error_app1 by (rewrite firstn_length_le; lia). rewrite <- (firstn_skipn i l) at 2.
    rewrite nth_error_app1; [reflexivity|rewrite firstn_length_le; lia].
  - rewrite nth_error_app2; rewrite firstn_length_le by lia; [|lia]. rewrite <- (firstn_skipn (S i) l) at 2.
    rewrite nth_error_app2; rewrite firstn_length_le by lia; [|lia]. replace (j - i) with (S (j - S i)) by lia. reflexivity.
Qed.
Lemma upd_length {A} (l : list A) i a : i < length l -> length (upd l i a) = length l.
Proof. intro H. unfold upd. rewrite app_length. cbn [length]. rewrite firstn_length_le, skipn_length by lia. lia. Qed.
Lemma nth_lt {A} (l : list A) i a : nth_error l i = Some a -> i < length l.
Proof. intro H. apply nth_error_Some. congruence. Qed.

Lemma take_line_perm l as_ e r : take_line l as_ = Some (e, r) -> Permutation as_ ((l, e) :: r).
Proof.
  revert e r. induction as_ as [|[l' e'] as_ IH]; intros e r; cbn [take_line]; [discriminate|].
  destruct (Nat.eqb_spec l' l) as [->|].
  - intro H. injection H as <- <-. apply Permutation_refl.
  - destruct (take_line l as_) as [[e1 r1]|]; [|discriminate]. intro H. injection H as <- <-.
    rewrite (IH _ _ eq_refl). apply perm_swap.
Qed.
Lemma take_line_none l as_ : take_line l as_ = None <-> forall e, ~ In (l, e) as_.
Proof.
  induction as_ as [|[l' e'] as_ IH]; cbn [take_line]; [split; [intros _ e []|reflexivity]|].
  destruct (Nat.eqb_spec l' l) as [->|D].
  - split; [discriminate|]. intro H. exfalso. apply (H e'). now left.
  - destruct (take_line l as_) as [[e1 r1]|].
    + split; [discriminate|]. intro H. assert (forall e, ~ In (l, e) as_) as K by (intros e K; apply (H e); now right).
      apply IH in K. discriminate.
    + split; [|reflexivity]. intros _ e [K|K]; [congruence|]. now apply (proj1 IH eq_refl e).
Qed.

(** the same objects with the same kinematics *)
Definition same_kin (s s' : net) :=
  length (points s') = length (points s) /\ (forall pl, kin_at s' pl = kin_at s pl) /\ lkin s' = lkin s.
Lemma move_line_effect s f o l s' pl : fplace f = Some pl -> pl <> AtPoint o -> move_line s f o l = Ok s' ->
  exists e, Permutation (atts s pl) ((l, e) :: atts s' pl) /\ atts s' (AtPoint o) = atts s (AtPoint o) ++ [(l, e)] /\
    (forall pl', pl' <> pl -> pl' <> AtPoint o -> atts s' pl' = atts s pl') /\ same_kin s s'.
Proof.
  unfold fplace, move_line. intros Hp Ho. destruct (nth_error (points s) o) as [q|] eqn:Eo; [|discriminate].
  pose proof (nth_lt _ _ _ Eo) as Lo.
  destruct (f_rod f) as [i|] eqn:Er.
  - destruct (f_point f); [discriminate|]. injection Hp as <-. destruct (nth_error (rods s) i) as [d|] eqn:Ei; [|discriminate].
    pose proof (nth_lt _ _ _ Ei) as Li. unfold rod_remove. destruct (f_rend f); cbn [obind].
    + destruct (take_line l (r_attA d)) as [[e r]|] eqn:Et; [|discriminate]. cbn [obind fst snd]. intro H. injection H as <-.
      exists e. apply take_line_perm in Et. repeat split; cbn [points rods lkin atts kin_at].
      * rewrite upd_same, Ei by exact Li. exact Et.
      * rewrite upd_same, Eo by exact Lo. reflexivity.
      * intros pl' D1 D2. destruct pl' as [j|j []]; cbn [atts points rods].
        -- rewrite upd_other; [reflexivity|exact Lo|congruence].
        -- rewrite upd_other; [reflexivity|exact Li|congruence].
        -- destruct (Nat.eq_dec i j) as [<-|]; [rewrite upd_same, Ei by exact Li; reflexivity|now rewrite upd_other].
      * now rewrite upd_length.
      * intros [j|j []]; cbn [kin_at points rods].
        -- destruct (Nat.eq_dec o j) as [<-|]; [rewrite upd_same, Eo by exact Lo; reflexivity|now rewrite upd_other].
        -- destruct (Nat.eq_dec i j) as [<-|]; [rewrite upd_same, Ei by exact Li; reflexivity|now rewrite upd_other].
        -- destruct (Nat.eq_dec i j) as [<-|]; [rewrite upd_same, Ei by exact Li; reflexivity|now rewrite upd_other].
    + destruct (take_line l (r_attB d)) as [[e r]|] eqn:Et; [|discriminate]. cbn [obind fst snd]. intro H. injection H as <-.
      exists e. apply take_line_perm in Et. repeat split; cbn [points rods lkin atts kin_at].
      * rewrite upd_same, Ei by exact Li. exact Et.
      * rewrite upd_same, Eo by exact Lo. reflexivity.
      * intros pl' D1 D2. destruct pl' as [j|j []]; cbn [atts points rods].
        -- rewrite upd_other; [reflexivity|exact Lo|congruence].
        -- destruct (Nat.eq_dec i j) as [<-|]; [rewrite upd_same, Ei by exact Li; reflexivity|now rewrite upd_other].
        -- rewrite upd_other; [reflexivity|exact Li|congruence].
      * now rewrite upd_length.
      * intros [j|j []]; cbn [kin_at points rods].
        -- destruct (Nat.eq_dec o j) as [<-|]; [rewrite upd_same, Eo by exact Lo; reflexivity|now rewrite upd_other].
        -- destruct (Nat.eq_dec i j) as [<-|]; [rewrite upd_same, Ei by exact Li; reflexivity|now rewrite upd_other].
        -- destruct (Nat.eq_dec i j) as [<-|]; [rewrite upd_same, Ei by exact Li; reflexivity|now rewrite upd_other].
  - destruct (f_point f) as [i|]; [|discriminate]. injection Hp as <-. destruct (nth_error (points s) i) as [p|] eqn:Ei; [|discriminate].
    pose proof (nth_lt _ _ _ Ei) as Li. unfold point_remove. destruct (take_line l (p_att p)) as [[e r]|] eqn:Et; [|discriminate].
    cbn [obind fst snd]. assert (i <> o) as D by congruence. rewrite upd_other, Eo by assumption. intro H. injection H as <-.
    exists e. apply take_line_perm in Et. repeat split; cbn [points rods lkin atts kin_at].
    + rewrite upd_other by (rewrite ?upd_length by exact Li; auto). rewrite upd_same, Ei by exact Li. exact Et.
    + rewrite upd_same by (rewrite ?upd_length by exact Li; auto). now rewrite Eo.
    + intros pl' D1 D2. destruct pl' as [j|j []]; cbn [atts points rods]; try reflexivity.
      rewrite upd_other; [|rewrite upd_length; auto|congruence]. rewrite upd_other; [reflexivity|exact Li|congruence].
    + rewrite !upd_length; auto. now rewrite upd_length.
    + intros [j|j []]; cbn [kin_at points rods]; try reflexivity.
      destruct (Nat.eq_dec o j) as [<-|]; [rewrite upd_same, Eo by (rewrite ?upd_length by exact Li; auto); reflexivity|].
      rewrite upd_other by (rewrite ?upd_length by exact Li; auto).
      destruct (Nat.eq_dec i j) as [<-|]; [rewrite upd_same, Ei by exact Li; reflexivity|now rewrite upd_other].
Qed.
(** the line is moved if and only if it is attached there; otherwise it is an error *)
Lemma move_line_total s f o l pl : fplace f = Some pl -> exists_at s pl -> pl <> AtPoint o -> o < length (points s) ->
  (exists s', move_line s f o l = Ok s') \/ (move_line s f o l = Throw ExInvalidValue /\ forall e, ~ In (l, e) (atts s pl)).
Proof.
  unfold fplace, move_line, exists_at. intros Hp Hk Ho Lo. destruct (nth_error (points s) o) as [q|] eqn:Eo; [|apply nth_error_None in Eo; lia].
  destruct (f_rod f) as [i|] eqn:Er.
  - destruct (f_point f); [discriminate|]. injection Hp as <-. cbn [kin_at atts] in *. unfold rod_remove.
    destruct (f_rend f); (destruct (nth_error (rods s) i) as [d|] eqn:Ei; [|now contradiction Hk]).
    + destruct (take_line l (r_attA d)) as [[e r]|] eqn:Et; cbn [obind]; [left; eauto|right; split; [reflexivity|now apply take_line_none]].
    + destruct (take_line l (r_attB d)) as [[e r]|] eqn:Et; cbn [obind]; [left; eauto|right; split; [reflexivity|now apply take_line_none]].
  - destruct (f_point f) as [i|]; [|discriminate]. injection Hp as <-. cbn [kin_at atts] in *.
    destruct (nth_error (points s) i) as [p|] eqn:Ei; [|now contradiction Hk]. pose proof (nth_lt _ _ _ Ei) as Li.
    unfold point_remove. destruct (take_line l (p_att p)) as [[e r]|] eqn:Et; cbn [obind fst snd].
    + left. rewrite upd_other, Eo by (congruence || exact Li). eauto.
    + right. split; [reflexivity|now apply take_line_none].
Qed.

Lemma same_kin_refl s : same_kin s s. Proof. repeat split. Qed.
Lemma same_kin_trans a b c : same_kin a b -> same_kin b c -> same_kin a c.
Proof. intros (H1 & H2 & H3) (K1 & K2 & K3). repeat split; congruence. Qed.
(** the effect of moving a list of lines; on an error, of its part before the error *)
Lemma move_lines_effect f o ls pl : fplace f = Some pl -> pl <> AtPoint o -> forall s s' r, move_lines s f o ls = (s', r) ->
  exists es k, length es = k /\ k <= length ls /\ (r = Ok tt -> k = length ls) /\
    Permutation (atts s pl) (combine (firstn k ls) es ++ atts s' pl) /\
    atts s' (AtPoint o) = atts s (AtPoint o) ++ combine (firstn k ls) es /\
    (forall pl', pl' <> pl -> pl' <> AtPoint o -> atts s' pl' = atts s pl') /\ same_kin s s'.
Proof.
  intros Hp Ho. induction ls as [|l ls IH]; intros s s' r; cbn [move_lines].
  - intro H. injection H as <- <-. exists [], 0. rewrite app_nil_r. repeat split; auto.
  - destruct (move_line s f o l) as [s1|e| |] eqn:E1; intro H;
      try (injection H as <- <-; exists [], 0; cbn [firstn combine app length]; rewrite app_nil_r; repeat split; auto with arith; discriminate).
    destruct (move_line_effect _ _ _ _ _ _ Hp Ho E1) as (e & P1 & A1 & O1 & K1).
    destruct (IH _ _ _ H) as (es & k & L & Lk & Hr & P2 & A2 & O2 & K2).
    exists (e :: es), (S k). cbn [length firstn combine app]. repeat split.
    + now rewrite L.
    + lia.
    + intro R0. now rewrite (Hr R0).
    + rewrite P1. now apply perm_skip.
    + rewrite A2, A1, <- app_assoc. reflexivity.
    + intros pl' D1 D2. rewrite (O2 _ D1 D2). now apply O1.
    + apply (same_kin_trans _ _ _ K1 K2).
    + apply (same_kin_trans _ _ _ K1 K2).
    + apply (same_kin_trans _ _ _ K1 K2).
Qed.
Lemma move_lines_total f o pl : fplace f = Some pl -> pl <> AtPoint o -> forall ls s s' r, exists_at s pl -> o < length (points s) ->
  move_lines s f o ls = (s', r) -> r = Ok tt \/ r = Throw ExInvalidValue.
Proof.
  intros Hp Ho. induction ls as [|l ls IH]; intros s s' r Hk Lo; cbn [move_lines].
  - intro H. injection H as <- <-. now left.
  - destruct (move_line_total s f o l pl Hp Hk Ho Lo) as [[s1 E1]|[E1 _]]; rewrite E1.
    + destruct (move_line_effect _ _ _ _ _ _ Hp Ho E1) as (e & _ & _ & _ & K1 & K2 & _). apply IH; [|lia].
      unfold exists_at. now rewrite K2.
    + intro H. injection H as <- <-. now right.
Qed.

(** setting the new point *)
Lemma lend_eqb_spec a b : lend_eqb a b = true <-> a = b.
Proof. destruct a, b; cbn; split; congruence. Qed.
Lemma pass_kin_in as_ k : forall m l e, In (l, e) as_ -> pass_kin as_ k m l e = k.
Proof.
  unfold pass_kin. induction as_ as [|[l' e'] as_ IH] using rev_ind; intros m l e; [intros []|].
  intro H. rewrite fold_left_app. cbn [fold_left fst snd].
  destruct ((l =? l')%nat && lend_eqb e e')%bool eqn:E; [reflexivity|]. apply IH. apply in_app_or in H as [H|[H|[]]]; [exact H|].
  injection H as -> ->. rewrite Nat.eqb_refl in E. cbn in E. destruct e; discriminate.
Qed.
Lemma pass_kin_out as_ k : forall m l e, ~ In (l, e) as_ -> pass_kin as_ k m l e = m l e.
Proof.
  unfold pass_kin. induction as_ as [|[l' e'] as_ IH] using rev_ind; intros m l e; [reflexivity|].
  intro H. rewrite fold_left_app. cbn [fold_left fst snd].
  destruct ((l =? l')%nat && lend_eqb e e')%bool eqn:E.
  - apply andb_prop in E as [E1 E2]. apply Nat.eqb_eq in E1. apply lend_eqb_spec in E2. subst. exfalso. apply H. apply in_or_app. right. now left.
  - apply IH. intro K. apply H. apply in_or_app. now left.
Qed.
Lemma point_set_effect s o k : o < length (points s) ->
  (forall pl, atts (point_set s o k) pl = atts s pl) /\ kin_at (point_set s o k) (AtPoint o) = Some k /\
  (forall pl, pl <> AtPoint o -> kin_at (point_set s o k) pl = kin_at s pl) /\
  length (points (point_set s o k)) = length (points s) /\
  lkin (point_set s o k) = pass_kin (atts s (AtPoint o)) k (lkin s).
Proof.
  intro L. unfold point_set. destruct (nth_error (points s) o) as [p|] eqn:E; [|apply nth_error_None in E; lia].
  repeat split; cbn [points rods lkin].
  - intros [j|j []]; cbn [atts points rods]; try reflexivity. destruct (Nat.eq_dec o j) as [<-|]; [now rewrite upd_same, E by exact L|now rewrite upd_other].
  - cbn [kin_at points]. now rewrite upd_same.
  - intros [j|j []] D; cbn [kin_at points rods]; try reflexivity. rewrite upd_other; [reflexivity|exact L|congruence].
  - now rewrite upd_length.
  - cbn [atts]. now rewrite E.
Qed.
(** the new empty point *)
Definition with_point (s : net) := Net (points s ++ [Pnt [] (v00, v00) []]) (rods s) (lkin s).
Lemma with_point_effect s :
  (forall pl, atts (with_point s) pl = atts s pl) /\ kin_at (with_point s) (AtPoint (length (points s))) = Some (v00, v00) /\
  (forall pl, pl <> AtPoint (length (points s)) -> kin_at (with_point s) pl = kin_at s pl).
Proof.
  unfold with_point. repeat split.
  - intros [j|j []]; cbn [atts points rods]; try reflexivity. destruct (Nat.lt_ge_cases j (length (points s))).
    + now rewrite nth_error_app1.
    + rewrite nth_error_app2 by lia. rewrite (proj2 (nth_error_None (points s) j)) by lia.
      destruct (j - length (points s)) as [|[]]; reflexivity.
  - cbn [kin_at points]. rewrite nth_error_app2, Nat.sub_diag by lia. reflexivity.
  - intros [j|j []] D; cbn [kin_at points rods]; try reflexivity. destruct (Nat.lt_ge_cases j (length (points s))).
    + now rewrite nth_error_app1.
    + assert (j <> length (points s)) by congruence. rewrite nth_error_app2 by lia. rewrite (proj2 (nth_error_None (points s) j)) by lia.
      destruct (j - length (points s)) as [|[]] eqn:E; [lia|reflexivity|reflexivity].
Qed.
Lemma place_old s pl : exists_at s pl -> pl <> AtPoint (length (points s)).
Proof. intros H ->. apply H. cbn [kin_at]. now rewrite (proj2 (nth_error_None _ _) (Nat.le_refl _)). Qed.
Lemma none_new s : atts s (AtPoint (length (points s))) = [].
Proof. cbn [atts]. now rewrite (proj2 (nth_error_None _ _) (Nat.le_refl _)). Qed.
Lemma old_kin_at s f pl : fplace f = Some pl -> exists_at s pl -> exists k, old_kin s f = Ok k /\ kin_at s pl = Some k.
Proof.
  unfold fplace, exists_at, old_kin. intros Hp Hk. destruct (f_rod f) as [i|].
  - destruct (f_point f); [discriminate|]. injection Hp as <-. cbn [kin_at] in *. destruct (f_rend f), (nth_error (rods s) i); cbn in *; eauto; now contradiction Hk.
  - destruct (f_point f) as [i|]; [|discriminate]. injection Hp as <-. cbn [kin_at] in *. destruct (nth_error (points s) i); cbn in *; eauto; now contradiction Hk.
Qed.
Lemma detach_readable s f pl : fplace f = Some pl ->
  detach s f = (let o := length (points s) in let s1 := with_point s in
    match old_kin s1 f with
    | Ok k => match move_lines s1 f o (f_lines f) with
              | (s2, Ok _) => (point_set s2 o k, Ok tt)
              | r => r end
    | Throw e => (s1, Throw e) | UB => (s1, UB) | Diverges => (s1, Diverges) end).
Proof. unfold detach, fplace, with_point. destruct (f_rod f), (f_point f); try discriminate; reflexivity. Qed.

(** what any detachment does to the attachments, with or without an error *)
Lemma detach_atts s f pl s' r : fplace f = Some pl -> exists_at s pl -> detach s f = (s', r) ->
  (r = Ok tt \/ r = Throw ExInvalidValue) /\
  exists es k, length es = k /\ k <= length (f_lines f) /\ (r = Ok tt -> k = length (f_lines f)) /\
    Permutation (atts s pl) (combine (firstn k (f_lines f)) es ++ atts s' pl) /\
    atts s' (AtPoint (length (points s))) = combine (firstn k (f_lines f)) es /\
    (forall pl', pl' <> pl -> pl' <> AtPoint (length (points s)) -> atts s' pl' = atts s pl') /\
    (forall pl', pl' <> AtPoint (length (points s)) -> kin_at s' pl' = kin_at s pl').
Proof.
  intros Hp Hk. pose proof (place_old _ _ Hk) as Ho. destruct (with_point_effect s) as (W1 & W2 & W3).
  assert (exists_at (with_point s) pl) as Hk1 by (unfold exists_at; rewrite W3; assumption).
  rewrite (detach_readable _ _ _ Hp). cbv zeta. destruct (old_kin_at _ _ _ Hp Hk1) as (k0 & -> & E0).
  destruct (move_lines (with_point s) f (length (points s)) (f_lines f)) as [s2 r2] eqn:E2.
  assert (length (points s) < length (points (with_point s))) as L1 by (unfold with_point; cbn [points]; rewrite app_length; cbn; lia).
  pose proof (move_lines_total f _ pl Hp Ho _ _ _ _ Hk1 L1 E2) as T.
  destruct (move_lines_effect f _ _ pl Hp Ho _ _ _ E2) as (es & k & L & Lk & Hr & P2 & A2 & O2 & K1 & K2 & K3).
  rewrite W1 in P2, A2. rewrite none_new in A2. cbn [app] in A2.
  destruct T as [-> | ->].
  - destruct (point_set_effect s2 (length (points s)) k0 ltac:(lia)) as (S1 & S2 & S3 & S4 & S5).
    intro H. injection H as <- <-. split; [now left|]. exists es, k. rewrite !S1. repeat split; auto.
    + intros pl' D1 D2. rewrite S1, O2, W1; auto.
    + intros pl' D. rewrite S3, K2, W3; auto.
  - intro H. injection H as <- <-. split; [now right|]. exists es, k. repeat split; auto.
    + intros pl' D1 D2. rewrite O2, W1; auto.
    + intros pl' D. rewrite K2, W3; auto.
Qed.
