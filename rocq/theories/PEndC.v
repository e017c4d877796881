(** Proofs about the moments at joints. *)
From Coq Require Import Reals List Arith ZArith Bool Lra Lia Psatz.
From Verif Require Import MErr MVec MStateOps MMat MInterp MLine MRod MBody MEnd SMat SLine SBody SEnd PMat PLine PLineB PLineE PBody PEnd PEndB.
Import ListNotations.
Open Scope R_scope.

Lemma lagrange a b : dot (cross a b) (cross a b) = dot a a * dot b b - dot a b * dot a b.
Proof. destruct a, b. unfold dot, cross. cbn. ring. Qed.
Lemma dot_unit_of v : 0 < norm v -> dot (vscale (/ norm v) v) (vscale (/ norm v) v) = 1.
Proof. intro H. replace (dot (vscale (/ norm v) v) (vscale (/ norm v) v)) with (/ norm v * / norm v * dot v v) by (destruct v; unfold dot, vscale; cbn; ring). rewrite <- norm_sq. field. lra. Qed.
Lemma travel_sq ep re : travel ep re * travel ep re = 1. Proof. unfold travel. destruct (Bool.eqb _ _); ring. Qed.
Lemma travel_abs ep re : travel ep re = 1 \/ travel ep re = -1. Proof. unfold travel. destruct (Bool.eqb _ _); auto. Qed.
Lemma sense_unit L ep re : tol < end_length L ep -> dot (in_rod_sense L ep re) (in_rod_sense L ep re) = 1.
Proof.
  intro H. pose proof tol_pos. unfold in_rod_sense. transitivity (travel ep re * travel ep re * dot (end_unit L ep) (end_unit L ep)); [generalize (end_unit L ep); intros []; unfold dot, vscale; cbn; ring|].
  rewrite travel_sq. unfold end_unit, end_length in *. rewrite dot_unit_of by lra. ring.
Qed.
Lemma norm_neg a : norm (vscale (-1) a) = norm a.
Proof. unfold norm. f_equal. destruct a. unfold dot, vscale. cbn. ring. Qed.
(** the moment in the sense of the rod *)
Lemma bends_rod L ep re q : an_end ep -> end_dir L ep = vscale (travel ep re) q ->
  dot (bend_from L ep) (bend_to L ep) = dot q (in_rod_sense L ep re) /\ norm (cross (bend_from L ep) (bend_to L ep)) = norm (cross q (in_rod_sense L ep re)) /\
  on_holder ep (cross (bend_from L ep) (bend_to L ep)) = cross q (in_rod_sense L ep re).
Proof.
  intros He HD. unfold bend_from, bend_to. rewrite HD. unfold in_rod_sense, on_holder.
  set (t := travel ep re). set (u := end_unit L ep).
  assert (X : cross u (vscale t q) = vscale (-1) (cross q (vscale t u))) by (generalize q u t; vring).
  assert (Y : cross (vscale t q) u = cross q (vscale t u)) by (generalize q u t; vring).
  destruct He as [-> | ->]; cbn [is_B Z.eqb Pos.eqb].
  - rewrite Y. split; [|now split]. destruct q, u. unfold dot, vscale. cbn. ring.
  - rewrite X, norm_neg. split; [destruct q, u; unfold dot, vscale; cbn; ring|]. split; [reflexivity|]. generalize (cross q (vscale t u)). vring.
Qed.
Lemma on_scale ep k v : on_holder ep (vscale k v) = vscale k (on_holder ep v).
Proof. unfold on_holder. destruct (is_B ep); [generalize v; vring|reflexivity]. Qed.
Lemma clear_moment L ep re q : an_end ep -> end_dir L ep = vscale (travel ep re) q -> tol < end_length L ep -> dot q q = 1 -> clear (end_length L ep) (bend_from L ep) (bend_to L ep) ->
  on_holder ep (bending_moment (lEI L) (end_length L ep) (bend_from L ep) (bend_to L ep)) =
  vscale (end_stiff L ep * (2 / sqrt ((1 + dot q (in_rod_sense L ep re)) / 2))) (cross q (in_rod_sense L ep re)).
Proof.
  intros He HD HT HQ (C1 & C2 & C3). destruct (bends_rod L ep re q He HD) as (B1 & B2 & B3). unfold bending_moment. rewrite on_scale, B3, B2, B1. rewrite B2 in C3. rewrite B1 in C1, C2.
  pose proof (sense_unit L ep re HT) as HU. set (t := in_rod_sense L ep re) in *. set (c := dot q t) in *. pose proof tol_pos. pose proof tol_pos as TP. f_equal.
  assert (N2 : norm (cross q t) * norm (cross q t) = (1 - c) * (1 + c)) by (rewrite norm_sq, lagrange, HQ, HU; fold c; ring).
  assert (E : 0 < eps64) by (unfold eps64; apply Rinv_0_lt_compat, pow_lt; lra). assert (P1 : 0 < 1 - c) by lra. assert (P2 : 0 < 1 + c) by nra.
  assert (NE : norm (cross q t) = 2 * (sqrt ((1 - c) / 2) * sqrt ((1 + c) / 2))).
  { rewrite <- sqrt_mult by lra. replace 2 with (sqrt (2 * 2)) at 1 by (apply sqrt_square; lra). rewrite <- sqrt_mult by nra. unfold norm. f_equal. rewrite lagrange, HQ, HU. fold c. field. }
  rewrite NE. unfold end_stiff. assert (S1 : 0 < sqrt ((1 - c) / 2)) by (apply sqrt_lt_R0; lra). assert (S2 : 0 < sqrt ((1 + c) / 2)) by (apply sqrt_lt_R0; lra). field. lra.
Qed.
(** the direction of a joint is zero or of length one *)
Lemma normalized_cases s : vnormalized s = s /\ s = vzero \/ 0 < dot s s /\ vnormalized s = vscale (/ norm s) s.
Proof.
  unfold vnormalized. destruct (Rlt_dec 0 (dot s s)) as [H|H]; [now right|left]. split; [reflexivity|]. destruct s as [x y z]. unfold dot in H. cbn in H. assert (x = 0) by nra. assert (y = 0) by nra. assert (z = 0) by nra. now subst.
Qed.
Lemma norm_positive s : 0 < dot s s -> 0 < norm s. Proof. intro H. unfold norm. now apply sqrt_lt_R0. Qed.
Lemma cross_normalized s : cross (vnormalized s) s = vzero.
Proof. destruct (normalized_cases s) as [(-> & ->)|(_ & ->)]; [vring|generalize (/ norm s) s; vring]. Qed.
Lemma vtotal_cross {A} q (f : A -> v3) l : vtotal (fun x => cross q (f x)) l = cross q (vtotal f l).
Proof. induction l as [|x l IH]; [cbn; vring|]. change (vadd (cross q (f x)) (vtotal (fun x => cross q (f x)) l) = cross q (vadd (f x) (vtotal f l))). rewrite IH. generalize (f x) (vtotal f l). vring. Qed.
Lemma vtotal_ext {A} (f g : A -> v3) l : (forall x, In x l -> f x = g x) -> vtotal f l = vtotal g l.
Proof. induction l as [|x l IH]; intro H; [reflexivity|]. change (vadd (f x) (vtotal f l) = vadd (g x) (vtotal g l)). rewrite (H x (or_introl eq_refl)), IH; [reflexivity|]. intros y Hy. apply H. now right. Qed.
Lemma vtotal_scale {A} k (f : A -> v3) l : vtotal (fun x => vscale k (f x)) l = vscale k (vtotal f l).
Proof. induction l as [|x l IH]; [cbn; vring|]. change (vadd (vscale k (f x)) (vtotal (fun x => vscale k (f x)) l) = vscale k (vadd (f x) (vtotal f l))). rewrite IH. generalize (f x) (vtotal f l). vring. Qed.
Lemma scale_cross k t q : vscale k (cross q t) = cross q (vscale k t). Proof. revert k t q. vring. Qed.
Lemma cross_add q a b : vadd (cross q a) (cross q b) = cross q (vadd a b). Proof. revert q a b. vring. Qed.
Lemma scale_swap k f v : vscale (k * f) v = vscale f (vscale k v). Proof. revert k f v. vring. Qed.
Lemma scale_add f a b : vadd (vscale f a) (vscale f b) = vscale f (vadd a b). Proof. revert f a b. vring. Qed.
Lemma zero_cross v : cross vzero v = vzero. Proof. revert v. vring. Qed.
Lemma hold_zero ep : on_holder ep vzero = vzero. Proof. unfold on_holder. destruct (is_B ep); [vring|reflexivity]. Qed.
Section J.
Variables (K : nat -> Z -> R) (d : rodend) (ls : lines) (q : v3) (ls' : lines).
Hypothesis HP : proper (re_A d) (re_B d) ls.
Hypothesis HN : re_N d = 0%nat.
Hypothesis HS : setDependentStates K d ls = Ok (q, ls').
Hypothesis HL : forall i ep, In (i, ep) (re_A d ++ re_B d) -> lbx (ls i) = [] /\ tol < end_length (ls' i) ep.
Notation SA := (vtotal (pull ls' 0) (re_A d)).
Notation SB := (vtotal (pull ls' 1) (re_B d)).
Lemma linear_balance : vadd (vtotal (fun x => vscale (end_stiff (ls' (fst x)) (snd x)) (cross q (in_rod_sense (ls' (fst x)) (snd x) 0))) (re_A d))
    (vtotal (fun x => vscale (end_stiff (ls' (fst x)) (snd x)) (cross q (in_rod_sense (ls' (fst x)) (snd x) 1))) (re_B d)) = vzero.
Proof.
  assert (C : forall re l, vtotal (fun x => vscale (end_stiff (ls' (fst x)) (snd x)) (cross q (in_rod_sense (ls' (fst x)) (snd x) re))) l = cross q (vtotal (pull ls' re) l)).
  { intros re l. rewrite <- vtotal_cross. apply vtotal_ext. intros x _. apply scale_cross. }
  rewrite !C. pose proof (joint K d ls HP HN q ls' HS HL) as E. rewrite cross_add, E. apply cross_normalized.
Qed.
Lemma joint_unit : (q = vzero /\ vadd SA SB = vzero) \/ dot q q = 1.
Proof.
  pose proof (joint K d ls HP HN q ls' HS HL) as E. destruct (normalized_cases (vadd SA SB)) as [(E1 & E2)|(E1 & E2)].
  - left. split; [|exact E2]. rewrite E, E1. exact E2.
  - right. rewrite E, E2. apply dot_unit_of. now apply norm_positive.
Qed.
Definition rod_end_of (x : nat * Z) : Z := if in_dec prod_eq_dec x (re_A d) then 0%Z else 1%Z.
Lemma of_A x : In x (re_A d) -> rod_end_of x = 0%Z. Proof. intro H. unfold rod_end_of. now destruct (in_dec _ _ _). Qed.
Lemma of_B x : In x (re_B d) -> rod_end_of x = 1%Z. Proof. intro H. unfold rod_end_of. destruct (in_dec _ _ _) as [Ha|_]; [|reflexivity]. exfalso. exact (nodup_disjoint _ _ _ (proj2 HP) Ha H). Qed.
Lemma end_of i ep : In (i, ep) (re_A d ++ re_B d) -> an_end ep /\ end_clamped (ls' i) ep = true /\ end_dir (ls' i) ep = vscale (travel ep (rod_end_of (i, ep))) q.
Proof.
  intro H. destruct (proj1 HP i ep H) as [He _]. destruct (attached K d ls q ls' HP HS) as (A & B & _). apply in_app_or in H as [H|H].
  - rewrite (of_A _ H). destruct (A i ep H) as (_ & _ & ? & ?). auto.
  - rewrite (of_B _ H). destruct (B i ep H) as (_ & _ & ? & ?). auto.
Qed.
Lemma clear_unit i ep : In (i, ep) (re_A d ++ re_B d) -> clear (end_length (ls' i) ep) (bend_from (ls' i) ep) (bend_to (ls' i) ep) -> dot q q = 1.
Proof.
  intros H (_ & _ & C). destruct joint_unit as [(Z & _)|]; [|trivial]. exfalso. destruct (end_of i ep H) as (He & _ & HD). destruct (bends_rod _ _ _ _ He HD) as (_ & B & _). rewrite B, Z in C.
  replace (cross vzero (in_rod_sense (ls' i) ep (rod_end_of (i, ep)))) with vzero in C by (symmetry; apply zero_cross). unfold norm in C. replace (dot vzero vzero) with 0 in C by (unfold dot, vzero; cbn; ring). rewrite sqrt_0 in C. pose proof tol_pos. lra.
Qed.
(** the moment of one line on the joint *)
Lemma line_moment i ep m : In (i, ep) (re_A d ++ re_B d) -> bends (ls' i) ep m ->
  straight (bend_from (ls' i) ep) (bend_to (ls' i) ep) /\ m = vzero \/
  clear (end_length (ls' i) ep) (bend_from (ls' i) ep) (bend_to (ls' i) ep) /\
  on_holder ep m = vscale (end_stiff (ls' i) ep * (2 / sqrt ((1 + dot q (in_rod_sense (ls' i) ep (rod_end_of (i, ep)))) / 2))) (cross q (in_rod_sense (ls' i) ep (rod_end_of (i, ep)))).
Proof.
  intros H HB. destruct (end_of i ep H) as (He & HC & HD). destruct HB as [(C & _)|[(_ & S & ->)|(_ & S & ->)]]; [congruence|left; now split|right]. split; [exact S|].
  apply clear_moment; try assumption; [apply (HL i ep H)|exact (clear_unit i ep H S)].
Qed.
(** equal angles: balance *)
Lemma equal_angles c (m : nat * Z -> v3) : (forall i ep, In (i, ep) (re_A d ++ re_B d) -> bends (ls' i) ep (m (i, ep)) /\
    clear (end_length (ls' i) ep) (bend_from (ls' i) ep) (bend_to (ls' i) ep) /\ dot q (in_rod_sense (ls' i) ep (rod_end_of (i, ep))) = c) ->
  vtotal (fun x => on_holder (snd x) (m x)) (re_A d ++ re_B d) = vzero.
Proof.
  intro H. rewrite vtotal_app. set (f := 2 / sqrt ((1 + c) / 2)).
  assert (G : forall i ep, In (i, ep) (re_A d ++ re_B d) -> on_holder ep (m (i, ep)) = vscale f (vscale (end_stiff (ls' i) ep) (cross q (in_rod_sense (ls' i) ep (rod_end_of (i, ep)))))).
  { intros i ep Hi. destruct (H i ep Hi) as (H1 & H2 & H3). destruct (line_moment i ep _ Hi H1) as [(S & _)|(_ & ->)]; [destruct H2 as (H2 & _); unfold straight in S; lra|]. rewrite H3. fold f. apply scale_swap. }
  rewrite (vtotal_ext (fun x => on_holder (snd x) (m x)) (fun x => vscale f (vscale (end_stiff (ls' (fst x)) (snd x)) (cross q (in_rod_sense (ls' (fst x)) (snd x) 0)))) (re_A d)).
  2:{ intros [i ep] Hi. cbn [fst snd]. rewrite (G i ep) by (apply in_or_app; now left). now rewrite (of_A _ Hi). }
  rewrite (vtotal_ext (fun x => on_holder (snd x) (m x)) (fun x => vscale f (vscale (end_stiff (ls' (fst x)) (snd x)) (cross q (in_rod_sense (ls' (fst x)) (snd x) 1)))) (re_B d)).
  2:{ intros [i ep] Hi. cbn [fst snd]. rewrite (G i ep) by (apply in_or_app; now right). now rewrite (of_B _ Hi). }
  rewrite !vtotal_scale, scale_add, linear_balance. apply scale_vzero.
Qed.
Lemma all_pull : vadd SA SB = vtotal (fun x => pull ls' (rod_end_of x) x) (re_A d ++ re_B d).
Proof. rewrite vtotal_app. f_equal; apply vtotal_ext; intros x Hx; [now rewrite (of_A _ Hx)|now rewrite (of_B _ Hx)]. Qed.
(** one line *)
Lemma one_line i ep m : re_A d ++ re_B d = [(i, ep)] -> 0 < lEI (ls i) -> bends (ls' i) ep m -> m = vzero.
Proof.
  intros E HE HB. assert (Hin : In (i, ep) (re_A d ++ re_B d)) by (rewrite E; now left). destruct (line_moment i ep m Hin HB) as [(_ & Z)|(C & _)]; [exact Z|exfalso].
  destruct (end_of i ep Hin) as (He & _ & HD). destruct (bends_rod _ _ _ _ He HD) as (B & _). destruct (HL i ep Hin) as [_ HT]. pose proof tol_pos.
  pose proof (joint K d ls HP HN q ls' HS HL) as EQ. rewrite all_pull, E in EQ. unfold pull in EQ. cbn [vtotal fold_right fst snd] in EQ. rewrite vadd_0_r in EQ.
  pose proof (sense_unit (ls' i) ep (rod_end_of (i, ep)) HT) as HU. set (t := in_rod_sense (ls' i) ep (rod_end_of (i, ep))) in *.
  assert (EI' : lEI (ls' i) = lEI (ls i)) by (destruct (attached K d ls q ls' HP HS) as (_ & _ & _ & I & _); apply (I i)).
  assert (KP : 0 < end_stiff (ls' i) ep) by (unfold end_stiff; rewrite EI'; apply Rdiv_lt_0_compat; lra). set (k := end_stiff (ls' i) ep) in *.
  assert (DD : dot (vscale k t) (vscale k t) = k * k) by (transitivity (k * k * dot t t); [destruct t; unfold dot, vscale; cbn; ring|rewrite HU; ring]).
  assert (NN : norm (vscale k t) = k) by (unfold norm; rewrite DD; apply sqrt_square; lra).
  destruct (normalized_cases (vscale k t)) as [(_ & Z)|(_ & EN)]; [rewrite Z in DD; unfold dot, vzero in DD; cbn in DD; nra|].
  rewrite EN, NN in EQ. assert (Q : q = t) by (rewrite EQ; destruct t; unfold vscale; cbn; f_equal; field; lra).
  destruct C as (C & _). rewrite B, Q, HU in C. assert (0 < eps64) by (unfold eps64; apply Rinv_0_lt_compat, pow_lt; lra). lra.
Qed.
(** two lines of the same stiffness *)
Lemma two_lines i ep j ej m n : re_A d ++ re_B d = [(i, ep); (j, ej)] -> end_stiff (ls' i) ep = end_stiff (ls' j) ej -> bends (ls' i) ep m -> bends (ls' j) ej n ->
  vadd (on_holder ep m) (on_holder ej n) = vzero.
Proof.
  intros E HK Hm Hn. assert (Hi : In (i, ep) (re_A d ++ re_B d)) by (rewrite E; now left). assert (Hj : In (j, ej) (re_A d ++ re_B d)) by (rewrite E; right; now left).
  destruct (end_of i ep Hi) as (Hei & _ & HDi). destruct (bends_rod _ _ _ _ Hei HDi) as (Bi & _). destruct (end_of j ej Hj) as (Hej & _ & HDj). destruct (bends_rod _ _ _ _ Hej HDj) as (Bj & _).
  destruct (HL i ep Hi) as [_ HTi]. destruct (HL j ej Hj) as [_ HTj].
  pose proof (joint K d ls HP HN q ls' HS HL) as EQ. rewrite all_pull, E in EQ. unfold pull in EQ. cbn [vtotal fold_right fst snd] in EQ. rewrite vadd_0_r in EQ.
  pose proof (sense_unit (ls' i) ep (rod_end_of (i, ep)) HTi) as HUi. pose proof (sense_unit (ls' j) ej (rod_end_of (j, ej)) HTj) as HUj.
  assert (SAME : dot q (in_rod_sense (ls' i) ep (rod_end_of (i, ep))) = dot q (in_rod_sense (ls' j) ej (rod_end_of (j, ej)))).
  { set (t := in_rod_sense (ls' i) ep (rod_end_of (i, ep))) in *. set (u := in_rod_sense (ls' j) ej (rod_end_of (j, ej))) in *. rewrite <- HK in EQ. set (k := end_stiff (ls' i) ep) in *.
    assert (G : forall s, dot (vscale s (vadd (vscale k t) (vscale k u))) t = dot (vscale s (vadd (vscale k t) (vscale k u))) u).
    { intro s. transitivity (s * k * (dot t t + dot t u)); [destruct t, u; unfold dot, vscale, vadd; cbn; ring|]. transitivity (s * k * (dot u u + dot t u)); [rewrite HUi, HUj; ring|destruct t, u; unfold dot, vscale, vadd; cbn; ring]. }
    destruct (normalized_cases (vadd (vscale k t) (vscale k u))) as [(E1 & E2)|(_ & E1)]; [|rewrite EQ, E1; apply G].
    rewrite EQ, E1, E2. destruct t, u. unfold dot, vzero. cbn. ring. }
  destruct (line_moment i ep m Hi Hm) as [(Si & ->)|(Ci & Ei)]; destruct (line_moment j ej n Hj Hn) as [(Sj & ->)|(Cj & Ej)].
  - rewrite !hold_zero. apply vadd_0_l.
  - exfalso. destruct Cj as (Cj & _). unfold straight in Si. rewrite Bi in Si. rewrite Bj in Cj. lra.
  - exfalso. destruct Ci as (Ci & _). unfold straight in Sj. rewrite Bj in Sj. rewrite Bi in Ci. lra.
  - pose proof (equal_angles (dot q (in_rod_sense (ls' i) ep (rod_end_of (i, ep)))) (fun x => if prod_eq_dec x (i, ep) then m else n)) as Z. rewrite E in Z. cbn [vtotal fold_right snd] in Z. rewrite vadd_0_r in Z.
    destruct (prod_eq_dec (i, ep) (i, ep)) as [_|]; [|contradiction]. destruct (prod_eq_dec (j, ej) (i, ep)) as [X|_]; [destruct HP as [_ ND]; rewrite E, X in ND; apply NoDup_cons_iff in ND as [ND _]; exfalso; apply ND; now left|]. apply Z.
    intros a b [H|[H|[]]]; injection H as <- <-; (destruct (prod_eq_dec _ _) as [X|X]; [|]); try contradiction; try (split; [assumption|split; [assumption|congruence]]).
    destruct HP as [_ ND]; rewrite E, X in ND; apply NoDup_cons_iff in ND as [ND _]; exfalso; apply ND; now left.
Qed.
End J.
(** joints of lines with a curve *)
Lemma curve_joint K d ls i ep : proper (re_A d) (re_B d) ls -> re_N d = 0%nat -> In (i, ep) (re_A d ++ re_B d) -> lbx (ls i) <> [] -> K i ep = 0 -> forall r, setDependentStates K d ls <> Ok r.
Proof.
  intros HP HN Hi Hb HK r H. destruct (passed K d ls HP) as (ls2 & I & _ & _ & HQ). destruct (HQ vzero) as (_ & _ & _ & _ & _ & _ & E & _). rewrite E, HN in H. cbn [Nat.eqb] in H.
  assert (Z : forall re l acc v, In (i, ep) l -> moment_sum K l re ls2 acc = Ok v -> False).
  { intros re. induction l as [|[j ej] t IH]; intros acc v Hin EM; [contradiction|]. cbn [moment_sum] in EM. destruct Hin as [Hh|Ht].
    - injection Hh as -> ->. rewrite HK in EM. assert (N : lEIat (ls2 i) 0 = None).
      { unfold lEIat, getNonlinearEI. destruct (I i) as (_ & _ & -> & _). destruct (lbx (ls i)) as [|x l]; [congruence|]. cbn [length Nat.eqb negb]. destruct (oval _); [|reflexivity]. cbn [obnd]. unfold fdiv. destruct (Req_EM_T 0 0); [reflexivity|lra]. }
      unfold getEndSegmentMoment in EM. rewrite N in EM. destruct (andb _ _); [discriminate|]. destruct (orb _ _); discriminate.
    - destruct (getEndSegmentMoment _ _ _ _); cbn [obind] in EM; try discriminate. exact (IH _ _ Ht EM). }
  destruct (moment_sum K (re_A d) ENDPOINT_A ls2 vzero) as [m|e| |] eqn:EA; cbn [obind] in H; try discriminate. destruct (moment_sum K (re_B d) ENDPOINT_B ls2 m) as [m'|e| |] eqn:EB; cbn [obind] in H; try discriminate.
  apply in_app_or in Hi as [Hi|Hi]; [exact (Z _ _ _ _ Hi EA)|exact (Z _ _ _ _ Hi EB)].
Qed.
