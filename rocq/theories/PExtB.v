(** Removal of an object from the time integrators: which entries are left. *)
From Coq Require Import String Ascii List Arith ZArith Bool Reals Lia.
From Verif Require Import MErr MStr MStateOps MScheme MTime STime PTime.
Import ListNotations.
Local Open Scope nat_scope.

Lemma erase_nth {X} (l : list X) i r : erase l i = Ok r -> forall j, nth_error r j = nth_error l (if j <? i then j else S j).
Proof.
  revert i r; induction l as [|x l IH]; intros i r H; [discriminate H|]. destruct i as [|i]; cbn in H.
  - injection H as <-. intro j. reflexivity.
  - destruct (erase l i) as [q| | |] eqn:E; try discriminate H. cbn in H. injection H as <-. intros [|j]; [reflexivity|]. cbn [nth_error]. rewrite (IH i q E j).
    change (S j <? S i) with (j <? i). destruct (j <? i); reflexivity.
Qed.
Lemma diag_nth {X} (rs : list (list X)) i q : erase_diag rs i = Ok q -> forall k l, nth_error rs k = Some l -> exists r, nth_error q k = Some r /\ erase l (i + k) = Ok r.
Proof.
  revert i q; induction rs as [|x rs IH]; intros i q H k l K; [destruct k; discriminate K|]. cbn in H. destruct (erase x i) as [y| | |] eqn:E; try discriminate H. cbn in H.
  destruct (erase_diag rs (S i)) as [ys| | |] eqn:F; try discriminate H. cbn in H. injection H as <-. destruct k as [|k]; cbn in K.
  - injection K as <-. exists y. rewrite Nat.add_0_r. split; [reflexivity|exact E].
  - destruct (IH (S i) ys F k l K) as (r & R & S'). exists r. split; [exact R|]. rewrite <- S'. f_equal. lia.
Qed.
Lemma same_index {X} (l : list X) i j a : NoDup l -> nth_error l i = Some a -> nth_error l j = Some a -> i = j.
Proof. intros N I J. apply (proj1 (NoDup_nth_error l) N); [apply nth_error_Some; rewrite I; discriminate|congruence]. Qed.
Lemma remove_entries A B o (s s' : slots A B) i : aligned s -> remove_obj o s = Ok (s', i) -> nth_error (ids s) i = Some o /\
  forall k l, nth_error (ss s) k = Some l ->
    (i = k -> forall o' a, o' <> o -> entry_of s k o' a -> entry_of s' k o' a) /\
    (i <> k -> NoDup l -> exists o' a, o' <> o /\ In o' (ids s') /\ entry_of s k o' a /\ ~ entry_of s' k o' a).
Proof.
  intros (HN & HS & HD & HM) H. unfold remove_obj in H. destruct (find_at o (ids s)) as [i0|] eqn:E; [|discriminate H]. apply find_some in E as [Ei Li].
  destruct (erase (ids s) i0) as [is| | |] eqn:Eis; try discriminate H. cbn [obind] in H. destruct (erase_diag (ss s) 0) as [rs| | |] eqn:Ers; try discriminate H. cbn [obind] in H.
  destruct (erase_diag (sd s) 0) as [ds| | |] eqn:Eds; try discriminate H. cbn [obind] in H. destruct (erase (msk s) i0) as [ms| | |] eqn:Ems; try discriminate H. cbn [obind] in H.
  injection H as <- <-. split; [exact Ei|]. intros k l K. destruct (diag_nth _ _ _ Ers k l K) as (r & R & Er). cbn [Nat.add] in Er.
  pose proof (erase_nth _ _ _ Eis) as NI. pose proof (erase_nth _ _ _ Er) as NR.
  assert (Ll : length l = length (ids s)) by (rewrite Forall_forall in HS; apply HS; apply nth_error_In with k; exact K). split.
  - intros <- o' a D (j & l' & J & K' & V). assert (l' = l) by congruence. subst l'. assert (j <> i0) by (intros ->; congruence).
    exists (if j <? i0 then j else j - 1)%nat, r. cbn [ids ss]. destruct (Nat.ltb_spec j i0) as [C|C].
    + rewrite NI, NR. apply Nat.ltb_lt in C. rewrite C. repeat split; assumption.
    + rewrite NI, NR. destruct (Nat.ltb_spec (j - 1) i0); [lia|]. replace (S (j - 1)) with j by lia. repeat split; assumption.
  - intros D N. assert (Lk : (k < length l)%nat) by (destruct (Nat.lt_ge_cases k (length l)) as [G|G]; [exact G|]; rewrite (erase_ub l k G) in Er; discriminate Er).
    destruct (nth_error (ids s) k) as [o'|] eqn:O; [|apply nth_error_None in O; lia]. destruct (nth_error l k) as [a|] eqn:A0; [|apply nth_error_None in A0; lia].
    exists o', a. split; [intros ->; apply D; exact (same_index _ _ _ _ HN Ei O)|]. split; [|split].
    + cbn [ids]. apply nth_error_In with (if k <? i0 then k else k - 1)%nat. rewrite NI. destruct (Nat.ltb_spec k i0) as [C|C]; [apply Nat.ltb_lt in C; rewrite C; exact O|].
      destruct (Nat.ltb_spec (k - 1) i0); [lia|]. replace (S (k - 1)) with k by lia. exact O.
    + exists k, l. repeat split; assumption.
    + intros (j & l' & J & K' & V). cbn [ids ss] in J, K'. assert (l' = r) by congruence. subst l'. rewrite NI in J. rewrite NR in V.
      pose proof (same_index _ _ _ _ HN J O) as P. pose proof (same_index _ _ _ _ N V A0) as Q. destruct (Nat.ltb_spec j i0), (Nat.ltb_spec j k); lia.
Qed.
Lemma remove_two A B o (s s' : slots A B) i : aligned s -> 2 <= length (ss s) -> Forall (@NoDup A) (ss s) -> remove_obj o s = Ok (s', i) ->
  exists k o' a, o' <> o /\ In o' (ids s') /\ entry_of s k o' a /\ ~ entry_of s' k o' a.
Proof.
  intros H L N E. destruct (remove_entries A B o s s' i H E) as [_ P]. set (k := if i =? 0 then 1 else 0).
  assert (D : i <> k) by (unfold k; destruct (Nat.eqb_spec i 0); lia). assert (K : k < length (ss s)) by (unfold k; destruct (i =? 0); lia).
  destruct (nth_error (ss s) k) as [l|] eqn:F; [|apply nth_error_None in F; lia]. exists k. apply (proj2 (P k l F) D). rewrite Forall_forall in N. apply N. apply nth_error_In with k. exact F.
Qed.
