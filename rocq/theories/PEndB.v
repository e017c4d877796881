(** Proofs about rods passing their state to lines, and about joints. *)
From Coq Require Import Reals List Arith ZArith Bool Lra Lia Psatz.
From Verif Require Import MErr MVec MStateOps MMat MInterp MLine MRod MBody MEnd SMat SLine SBody SEnd PMat PLine PLineB PLineE PBody PEnd.
Import ListNotations.
Open Scope R_scope.

Lemma pass_dir a re : an_end re -> forall q ls, good a ls -> exists ls', pass_orientation a q re ls = Ok ls' /\ (forall i, inner_same (ls i) (ls' i)) /\
  (forall i ep, an_end ep -> end_pos (ls' i) ep = end_pos (ls i) ep /\ end_vel (ls' i) ep = end_vel (ls i) ep) /\
  (forall i ep, In (i, ep) a -> end_clamped (ls' i) ep = true /\ end_dir (ls' i) ep = vscale (travel ep re) q) /\
  (forall i ep, an_end ep -> ~ In (i, ep) a -> end_same (ls i) (ls' i) ep).
Proof.
  intros HR. induction a as [|[i0 e0] t IH]; intros q ls G.
  - exists ls. split; [reflexivity|]. split; [intro; apply inner_refl|]. split; [repeat split|]. split; [contradiction|]. repeat split.
  - destruct (G i0 e0 (or_introl eq_refl)) as [A0 N0]. destruct (set_dir (ls i0) q e0 re A0 HR) as (L & E & I & P1 & P2 & P3 & P4 & P5).
    assert (I' : forall i, inner_same (ls i) (write ls i0 L i)). { intro i. destruct (Nat.eq_dec i i0) as [->|Hi]; [now rewrite write_same|rewrite write_other by exact Hi; apply inner_refl]. }
    destruct (IH q (write ls i0 L)) as (ls' & E' & J1 & J2 & J3 & J4). { intros i ep Hi. destruct (G i ep (or_intror Hi)) as [H1 H2]. split; [exact H1|]. destruct (I' i) as (HN & _). now rewrite HN. }
    exists ls'. cbn [pass_orientation]. rewrite E. cbn [obind]. split; [exact E'|]. split; [intro i; exact (inner_trans _ _ _ (I' i) (J1 i))|].
    assert (W : forall i ep, an_end ep -> (i, ep) <> (i0, e0) -> end_same (ls i) (write ls i0 L i) ep).
    { intros i ep He Hn. destruct (Nat.eq_dec i i0) as [->|Hi]; [rewrite write_same; apply P5; [exact He|congruence]|rewrite write_other by exact Hi; repeat split]. }
    split; [|split].
    + intros i ep He. destruct (J2 i ep He) as [-> ->]. destruct (prod_eq_dec (i, ep) (i0, e0)) as [Hh|Hh]; [assert (i = i0) by congruence; assert (ep = e0) by congruence; subst; rewrite write_same; now split|]. destruct (W i ep He Hh) as (W1 & W2 & _). now split.
    + intros i ep Hin. destruct (in_dec (prod_eq_dec) (i, ep) t) as [Ht|Ht]; [now apply J3|]. destruct Hin as [Hh|Hh]; [|contradiction].
      assert (i = i0) by congruence. assert (ep = e0) by congruence. subst. destruct (J4 i0 e0 A0 Ht) as (_ & _ & -> & ->). rewrite write_same. now split.
    + intros i ep He Hn. assert (H1 : (i, ep) <> (i0, e0)) by (intro H; apply Hn; left; congruence). assert (H2 : ~ In (i, ep) t) by (intro H; apply Hn; now right).
      destruct (W i ep He H1) as (W1 & W2 & W3 & W4). destruct (J4 i ep He H2) as (X1 & X2 & X3 & X4). repeat split; congruence.
Qed.
Lemma nodup_disjoint {A} (l m : list A) x : NoDup (l ++ m) -> In x l -> ~ In x m.
Proof.
  induction l as [|y l IH]; intros H Hl Hm; [contradiction|]. cbn in H. apply NoDup_cons_iff in H as [H1 H2]. destruct Hl as [->|Hl]; [apply H1; apply in_or_app; now right|exact (IH H2 Hl Hm)].
Qed.
Lemma good_inner a ls ls' : (forall i, inner_same (ls i) (ls' i)) -> good a ls -> good a ls'.
Proof. intros I G i ep H. destruct (G i ep H) as [H1 H2]. split; [exact H1|]. destruct (I i) as (-> & _). exact H2. Qed.
Definition at_B (d : rodend) : v3 * v3 := if Nat.eqb (re_N d) 0 then (re_posA d, re_velA d) else (re_posB d, re_velB d).
(** the lines between the two passes *)
Lemma passed K d ls : proper (re_A d) (re_B d) ls -> exists ls2, (forall i, inner_same (ls i) (ls2 i)) /\
  (forall i ep, an_end ep -> end_pos (ls2 i) ep = (if in_dec prod_eq_dec (i, ep) (re_A d) then re_posA d else if in_dec prod_eq_dec (i, ep) (re_B d) then fst (at_B d) else end_pos (ls i) ep) /\
                             end_vel (ls2 i) ep = (if in_dec prod_eq_dec (i, ep) (re_A d) then re_velA d else if in_dec prod_eq_dec (i, ep) (re_B d) then snd (at_B d) else end_vel (ls i) ep)) /\
  (forall i ep, an_end ep -> ~ In (i, ep) (re_A d ++ re_B d) -> end_same (ls i) (ls2 i) ep) /\
  (forall q, exists ls4, (forall i, inner_same (ls2 i) (ls4 i)) /\ (forall i ep, an_end ep -> end_pos (ls4 i) ep = end_pos (ls2 i) ep /\ end_vel (ls4 i) ep = end_vel (ls2 i) ep) /\
     (forall i ep, In (i, ep) (re_A d) -> end_clamped (ls4 i) ep = true /\ end_dir (ls4 i) ep = vscale (travel ep 0) q) /\
     (forall i ep, In (i, ep) (re_B d) -> end_clamped (ls4 i) ep = true /\ end_dir (ls4 i) ep = vscale (travel ep 1) q) /\
     (forall i ep, an_end ep -> ~ In (i, ep) (re_A d ++ re_B d) -> end_same (ls2 i) (ls4 i) ep) /\
     (setDependentStates K d ls = (q' <- (if Nat.eqb (re_N d) 0 then m <- moment_sum K (re_A d) ENDPOINT_A ls2 vzero ;; m' <- moment_sum K (re_B d) ENDPOINT_B ls2 m ;; Ok (vnormalized m') else Ok (re_q d)) ;;
        ls3 <- pass_orientation (re_A d) q' ENDPOINT_A ls2 ;; ls4 <- pass_orientation (re_B d) q' ENDPOINT_B ls3 ;; Ok (q', ls4)) /\
      (ls3 <- pass_orientation (re_A d) q ENDPOINT_A ls2 ;; ls4 <- pass_orientation (re_B d) q ENDPOINT_B ls3 ;; Ok (q, ls4)) = Ok (q, ls4))).
Proof.
  intros [HP HD]. assert (GA : good (re_A d) ls) by (intros i ep H; apply HP; apply in_or_app; now left). assert (GB : good (re_B d) ls) by (intros i ep H; apply HP; apply in_or_app; now right).
  destruct (pass_kin (re_A d) (re_posA d) (re_velA d) ls GA) as (ls1 & E1 & I1 & A1 & D1 & S1).
  destruct (pass_kin (re_B d) (fst (at_B d)) (snd (at_B d)) ls1 (good_inner _ _ _ I1 GB)) as (ls2 & E2 & I2 & A2 & D2 & S2).
  exists ls2. assert (I12 : forall i, inner_same (ls i) (ls2 i)) by (intro i; exact (inner_trans _ _ _ (I1 i) (I2 i))). split; [exact I12|]. split; [|split].
  - intros i ep He. destruct (in_dec prod_eq_dec (i, ep) (re_A d)) as [Ha|Ha]; [|destruct (in_dec prod_eq_dec (i, ep) (re_B d)) as [Hb|Hb]].
    + destruct (S2 i ep He (nodup_disjoint _ _ _ HD Ha)) as (-> & -> & _). now apply A1.
    + now apply A2.
    + destruct (S2 i ep He Hb) as (-> & -> & _). destruct (S1 i ep He Ha) as (-> & -> & _). now split.
  - intros i ep He Hn. assert (Ha : ~ In (i, ep) (re_A d)) by (intro; apply Hn; apply in_or_app; now left). assert (Hb : ~ In (i, ep) (re_B d)) by (intro; apply Hn; apply in_or_app; now right).
    destruct (S2 i ep He Hb) as (X1 & X2 & X3 & X4). destruct (S1 i ep He Ha) as (Y1 & Y2 & Y3 & Y4). repeat split; congruence.
  - intro q. assert (EA : an_end 0) by now left. assert (EB : an_end 1) by now right.
    destruct (pass_dir (re_A d) 0 EA q ls2 (good_inner _ _ _ I12 GA)) as (ls3 & E3 & I3 & P3 & A3 & S3).
    destruct (pass_dir (re_B d) 1 EB q ls3 (good_inner _ _ _ I3 (good_inner _ _ _ I12 GB))) as (ls4 & E4 & I4 & P4 & A4 & S4).
    exists ls4. split; [intro i; exact (inner_trans _ _ _ (I3 i) (I4 i))|]. split; [|split; [|split; [|split; [|split]]]].
    + intros i ep He. destruct (P4 i ep He) as [-> ->]. now apply P3.
    + intros i ep Ha. assert (He : an_end ep) by exact (proj1 (GA i ep Ha)). destruct (S4 i ep He (nodup_disjoint _ _ _ HD Ha)) as (_ & _ & -> & ->). now apply A3.
    + intros i ep Hb. now apply A4.
    + intros i ep He Hn. assert (Ha : ~ In (i, ep) (re_A d)) by (intro; apply Hn; apply in_or_app; now left). assert (Hb : ~ In (i, ep) (re_B d)) by (intro; apply Hn; apply in_or_app; now right).
      destruct (S4 i ep He Hb) as (X1 & X2 & X3 & X4). destruct (S3 i ep He Ha) as (Y1 & Y2 & Y3 & Y4). repeat split; congruence.
    + unfold setDependentStates. cbv zeta. rewrite E1. cbn [obind]. fold (at_B d). rewrite E2. reflexivity.
    + change ENDPOINT_A with 0%Z. rewrite E3. cbn [obind]. change ENDPOINT_B with 1%Z. now rewrite E4.
Qed.
(** in all cases *)
Lemma attached K d ls q ls' : proper (re_A d) (re_B d) ls -> setDependentStates K d ls = Ok (q, ls') ->
  (forall i ep, In (i, ep) (re_A d) -> end_pos (ls' i) ep = re_posA d /\ end_vel (ls' i) ep = re_velA d /\ end_clamped (ls' i) ep = true /\ end_dir (ls' i) ep = vscale (travel ep 0) q) /\
  (forall i ep, In (i, ep) (re_B d) -> end_pos (ls' i) ep = fst (at_B d) /\ end_vel (ls' i) ep = snd (at_B d) /\ end_clamped (ls' i) ep = true /\ end_dir (ls' i) ep = vscale (travel ep 1) q) /\
  (forall i ep, an_end ep -> ~ In (i, ep) (re_A d ++ re_B d) -> end_same (ls i) (ls' i) ep) /\ (forall i, inner_same (ls i) (ls' i)) /\ ((0 < re_N d)%nat -> q = re_q d).
Proof.
  intros HP H. destruct (passed K d ls HP) as (ls2 & I & P & S & HQ). assert (EH : exists q0, (if Nat.eqb (re_N d) 0 then m <- moment_sum K (re_A d) ENDPOINT_A ls2 vzero ;; m' <- moment_sum K (re_B d) ENDPOINT_B ls2 m ;; Ok (vnormalized m') else Ok (re_q d)) = Ok q0 /\ q0 = q).
  { destruct (HQ vzero) as (_ & _ & _ & _ & _ & _ & E & _). rewrite E in H. match type of H with obind ?o _ = _ => destruct o as [q0|e| |] eqn:EO end; cbn [obind] in H; try discriminate. exists q0. split; [reflexivity|].
    destruct (HQ q0) as (l4 & _ & _ & _ & _ & _ & _ & E4). rewrite E4 in H. congruence. }
  destruct EH as (q0 & EO & ->). destruct (HQ q) as (l4 & I4 & P4 & A4 & B4 & S4 & E & E4). rewrite E, EO in H. cbn [obind] in H. rewrite E4 in H. assert (l4 = ls') by congruence. subst l4.
  destruct HP as [HP HD]. split; [|split; [|split; [|split]]].
  - intros i ep Ha. assert (He : an_end ep) by (apply (HP i ep); apply in_or_app; now left). destruct (P4 i ep He) as [-> ->]. destruct (P i ep He) as [-> ->]. destruct (in_dec _ _ _); [|contradiction]. split; [reflexivity|]. split; [reflexivity|]. now apply A4.
  - intros i ep Hb. assert (He : an_end ep) by (apply (HP i ep); apply in_or_app; now right). destruct (P4 i ep He) as [-> ->]. destruct (P i ep He) as [-> ->]. destruct (in_dec _ _ _) as [Ha|_]; [exfalso; exact (nodup_disjoint _ _ _ HD Ha Hb)|]. destruct (in_dec _ _ _); [|contradiction]. split; [reflexivity|]. split; [reflexivity|]. now apply B4.
  - intros i ep He Hn. destruct (S i ep He Hn) as (X1 & X2 & X3 & X4). destruct (S4 i ep He Hn) as (Y1 & Y2 & Y3 & Y4). repeat split; congruence.
  - intro i. exact (inner_trans _ _ _ (I i) (I4 i)).
  - intro HN. destruct (Nat.eqb_spec (re_N d) 0); [lia|]. congruence.
Qed.
Lemma long_rod K d ls : proper (re_A d) (re_B d) ls -> (0 < re_N d)%nat -> exists ls', setDependentStates K d ls = Ok (re_q d, ls').
Proof.
  intros HP HN. destruct (passed K d ls HP) as (ls2 & _ & _ & _ & HQ). destruct (HQ (re_q d)) as (l4 & _ & _ & _ & _ & _ & E & E4). rewrite E. destruct (Nat.eqb_spec (re_N d) 0); [lia|]. cbn [obind]. rewrite E4. eauto.
Qed.
(* ----- joints ----- *)
Lemma end_seg_same L L' ep : inner_same L L' -> an_end ep -> (0 < lN L)%nat -> end_pos L' 0 = end_pos L 0 -> end_pos L' 1 = end_pos L 1 -> end_seg L' ep = end_seg L ep.
Proof.
  intros (HN & _ & _ & _ & HI) He H0 HA HB. unfold end_seg, seg. rewrite HN. unfold end_pos, end_node in HA, HB. cbn [is_B Z.eqb Pos.eqb] in *. rewrite HN in HB.
  assert (G : forall j, (j <= lN L)%nat -> lr L' j = lr L j). { intros j Hj. destruct (Nat.eq_dec j 0) as [->|]; [exact HA|]. destruct (Nat.eq_dec j (lN L)) as [->|]; [exact HB|]. apply HI. lia. }
  destruct He as [-> | ->]; cbn [is_B Z.eqb Pos.eqb]; rewrite !G by lia; reflexivity.
Qed.
Lemma segment_moment L K ep re : an_end ep -> an_end re -> lbx L = [] -> tol < end_length L ep ->
  getEndSegmentMoment L K ep re = Ok (vscale (end_stiff L ep) (in_rod_sense L ep re)).
Proof.
  intros He Hr HB HT. unfold getEndSegmentMoment. rewrite (linear_EI _ _ HB). pose proof tol_pos.
  assert (U : forall i, tol < norm (seg L i) -> unitvector (lr L i) (lr L (S i)) = (vscale (/ norm (seg L i)) (seg L i), norm (seg L i))).
  { intros i Hi. unfold unitvector. fold (seg L i). now rewrite eq0_false by exact Hi. }
  unfold end_stiff, in_rod_sense, end_unit, travel. unfold end_length, end_seg in *.
  destruct He as [-> | ->], Hr as [-> | ->]; cbn [Z.eqb Pos.eqb ENDPOINT_A ENDPOINT_B negb andb orb Bool.eqb is_B] in *; rewrite U by exact HT; cbn [fst snd]; unfold fdiv; (destruct (Req_EM_T _ 0); [lra|]);
    f_equal; match goal with |- context [norm ?s] => generalize s (norm s) end; intros [x y z] nn; unfold vscale; cbn; f_equal; unfold Rdiv; ring.
Qed.
Lemma sum_moments K re ls : an_end re -> forall a acc, (forall i ep, In (i, ep) a -> an_end ep /\ lbx (ls i) = [] /\ tol < end_length (ls i) ep) ->
  moment_sum K a re ls acc = Ok (vadd acc (vtotal (fun x => vscale (end_stiff (ls (fst x)) (snd x)) (in_rod_sense (ls (fst x)) (snd x) re)) a)).
Proof.
  intros Hr. induction a as [|[i ep] t IH]; intros acc H; cbn [moment_sum vtotal fold_right].
  - now rewrite vadd_0_r.
  - destruct (H i ep (or_introl eq_refl)) as (H1 & H2 & H3). rewrite (segment_moment (ls i) (K i ep) ep re H1 Hr H2 H3). cbn [obind]. rewrite IH by (intros j e Hj; apply H; now right). f_equal. cbn [fst snd]. apply vadd_assoc.
Qed.
Definition pull (ls : lines) (re : Z) (x : nat * Z) : v3 := vscale (end_stiff (ls (fst x)) (snd x)) (in_rod_sense (ls (fst x)) (snd x) re).
Lemma same_ends (ls ls' : lines) i ep : (forall i, inner_same (ls i) (ls' i)) -> (forall i ep, an_end ep -> end_pos (ls' i) ep = end_pos (ls i) ep /\ end_vel (ls' i) ep = end_vel (ls i) ep) -> an_end ep -> (0 < lN (ls i))%nat ->
  end_seg (ls' i) ep = end_seg (ls i) ep /\ end_stiff (ls' i) ep = end_stiff (ls i) ep /\ forall re, in_rod_sense (ls' i) ep re = in_rod_sense (ls i) ep re.
Proof.
  intros I P He HN. assert (E : end_seg (ls' i) ep = end_seg (ls i) ep). { apply (end_seg_same (ls i) (ls' i) ep (I i) He HN); apply P; [now left|now right]. }
  split; [exact E|]. unfold end_stiff, in_rod_sense, end_unit, end_length. rewrite E. destruct (I i) as (_ & -> & _). now split.
Qed.
(** the direction of a joint *)
Lemma joint K d ls : proper (re_A d) (re_B d) ls -> re_N d = 0%nat -> forall q ls', setDependentStates K d ls = Ok (q, ls') ->
  (forall i ep, In (i, ep) (re_A d ++ re_B d) -> lbx (ls i) = [] /\ tol < end_length (ls' i) ep) ->
  q = vnormalized (vadd (vtotal (pull ls' 0) (re_A d)) (vtotal (pull ls' 1) (re_B d))).
Proof.
  intros HP HN q ls' H HL. destruct (passed K d ls HP) as (ls2 & I & P & S & HQ). destruct (HQ q) as (l4 & I4 & P4 & A4 & B4 & S4 & E & E4). rewrite E in H. rewrite HN in H. cbn [Nat.eqb] in H.
  assert (KEY : forall l5 q5, (forall i, inner_same (ls2 i) (l5 i)) -> (forall i ep, an_end ep -> end_pos (l5 i) ep = end_pos (ls2 i) ep /\ end_vel (l5 i) ep = end_vel (ls2 i) ep) -> l5 = ls' -> q5 = q ->
    forall i ep, In (i, ep) (re_A d ++ re_B d) -> an_end ep /\ lbx (ls2 i) = [] /\ tol < end_length (ls2 i) ep /\ end_stiff (ls' i) ep = end_stiff (ls2 i) ep /\ forall re, in_rod_sense (ls' i) ep re = in_rod_sense (ls2 i) ep re).
  { intros l5 q5 J1 J2 -> _ i ep Hi. destruct (proj1 HP i ep Hi) as [He H0]. assert (H2 : (0 < lN (ls2 i))%nat) by (destruct (I i) as (-> & _); exact H0). destruct (same_ends ls2 ls' i ep J1 J2 He H2) as (X1 & X2 & X3). destruct (HL i ep Hi) as [Y1 Y2].
    split; [exact He|]. split; [destruct (I i) as (_ & _ & -> & _); exact Y1|]. split; [unfold end_length in *; rewrite <- X1; exact Y2|]. now split. }
  match type of H with obind ?o _ = _ => destruct o as [q0|e| |] eqn:EO end; cbn [obind] in H; try discriminate.
  destruct (HQ q0) as (l5 & J1 & J2 & _ & _ & _ & _ & E5). rewrite E5 in H. assert (l5 = ls') by congruence. assert (q0 = q) by congruence. specialize (KEY l5 q0 J1 J2 H0 H1). subst l5 q0.
  assert (KA : forall i ep, In (i, ep) (re_A d) -> an_end ep /\ lbx (ls2 i) = [] /\ tol < end_length (ls2 i) ep) by (intros i ep Ha; destruct (KEY i ep (in_or_app _ _ _ (or_introl Ha))) as (? & ? & ? & _); auto).
  assert (KB : forall i ep, In (i, ep) (re_B d) -> an_end ep /\ lbx (ls2 i) = [] /\ tol < end_length (ls2 i) ep) by (intros i ep Ha; destruct (KEY i ep (in_or_app _ _ _ (or_intror Ha))) as (? & ? & ? & _); auto).
  rewrite (sum_moments K ENDPOINT_A ls2 (or_introl eq_refl) _ _ KA) in EO. cbn [obind] in EO. rewrite (sum_moments K ENDPOINT_B ls2 (or_intror eq_refl) _ _ KB) in EO. cbn [obind] in EO.
  assert (TA : forall (l : list (nat * Z)) re, (forall x, In x l -> In x (re_A d ++ re_B d)) -> vtotal (fun x => vscale (end_stiff (ls2 (fst x)) (snd x)) (in_rod_sense (ls2 (fst x)) (snd x) re)) l = vtotal (pull ls' re) l).
  { intros l re. induction l as [|[i ep] t IH]; intro Hin; [reflexivity|]. change (vadd (vscale (end_stiff (ls2 i) ep) (in_rod_sense (ls2 i) ep re)) (vtotal (fun x => vscale (end_stiff (ls2 (fst x)) (snd x)) (in_rod_sense (ls2 (fst x)) (snd x) re)) t) = vadd (pull ls' re (i, ep)) (vtotal (pull ls' re) t)).
    rewrite IH by (intros x Hx; apply Hin; now right). change (pull ls' re (i, ep)) with (vscale (end_stiff (ls' i) ep) (in_rod_sense (ls' i) ep re)). destruct (KEY i ep (Hin _ (or_introl eq_refl))) as (_ & _ & _ & -> & ->). reflexivity. }
  rewrite !TA in EO by (intros x Hx; apply in_or_app; auto). rewrite vadd_0_l in EO. change ENDPOINT_A with 0%Z in EO. change ENDPOINT_B with 1%Z in EO. congruence.
Qed.
