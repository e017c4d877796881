(** Proofs about bending. *)
From Coq Require Import Reals List Lra Lia Psatz Arith.
From Verif Require Import MErr MVec MStateOps MMat MInterp MLine SMat SLine SBend PMat PEuler PLine PLineB PLineE.
Import ListNotations.
Open Scope R_scope.

(* ----- circles ----- *)
Lemma chord c e1 e2 rad a b : vsub (arc c e1 e2 rad b) (arc c e1 e2 rad a) = vscale (2 * rad * sin ((b - a) / 2)) (heading e1 e2 ((a + b) / 2)).
Proof.
  assert (A : a = (a + b) / 2 - (b - a) / 2) by field. assert (B : b = (a + b) / 2 + (b - a) / 2) by field.
  set (m := (a + b) / 2) in *. set (h := (b - a) / 2) in *. rewrite A, B. unfold arc, heading. rewrite cos_minus, sin_minus, cos_plus, sin_plus.
  destruct c, e1, e2. unfold vsub, vadd, vscale. cbn. f_equal; ring.
Qed.
Lemma heading_dot e1 e2 a b : frame e1 e2 -> dot (heading e1 e2 a) (heading e1 e2 b) = cos (b - a).
Proof.
  intros (H1 & H2 & H3). rewrite cos_minus. unfold heading. transitivity (sin a * sin b * dot e1 e1 + cos a * cos b * dot e2 e2 - (sin a * cos b + cos a * sin b) * dot e1 e2).
  - destruct e1, e2. unfold dot, vadd, vscale. cbn. ring.
  - rewrite H1, H2, H3. ring.
Qed.
Lemma heading_cross e1 e2 a b : cross (heading e1 e2 a) (heading e1 e2 b) = vscale (sin (b - a)) (cross e1 e2).
Proof. rewrite sin_minus. unfold heading. destruct e1, e2. unfold cross, vadd, vscale. cbn. f_equal; ring. Qed.
Lemma heading_norm e1 e2 a : frame e1 e2 -> norm (heading e1 e2 a) = 1.
Proof. intro F. unfold norm. rewrite heading_dot by exact F. replace (a - a) with 0 by ring. rewrite cos_0. apply sqrt_1. Qed.
Lemma axis_norm e1 e2 : frame e1 e2 -> norm (cross e1 e2) = 1.
Proof.
  intros (H1 & H2 & H3). unfold norm. replace (dot (cross e1 e2) (cross e1 e2)) with (dot e1 e1 * dot e2 e2 - dot e1 e2 * dot e1 e2) by (destruct e1, e2; unfold dot, cross; cbn; ring).
  rewrite H1, H2, H3. replace (1 * 1 - 0 * 0) with 1 by ring. apply sqrt_1.
Qed.
Lemma arc_unit c e1 e2 rad a b : frame e1 e2 -> 0 < rad -> tol < 2 * rad * sin ((b - a) / 2) ->
  unitvector (arc c e1 e2 rad a) (arc c e1 e2 rad b) = (heading e1 e2 ((a + b) / 2), 2 * rad * sin ((b - a) / 2)).
Proof.
  intros F Hr Ht. pose proof tol_pos. unfold unitvector. cbv zeta. rewrite chord, norm_scale by (apply Rlt_le; eapply Rlt_trans; [exact tol_pos|exact Ht]). rewrite heading_norm by exact F. rewrite Rmult_1_r. rewrite eq0_false by exact Ht. f_equal.
  assert (Z : sin ((b - a) / 2) <> 0) by (intro Z; rewrite Z in Ht; lra). generalize (heading e1 e2 ((a + b) / 2)). intros [x y z]. unfold vscale. cbn. f_equal; (field; split; [exact Z|lra]).
Qed.
Lemma half_angle th : 0 <= th <= 2 * PI -> sqrt (0.5 * (1 - cos th)) = sin (th / 2).
Proof.
  intro H. replace (0.5 * (1 - cos th)) with (sin (th / 2) * sin (th / 2)).
  - apply sqrt_square. apply sin_ge_0; lra.
  - assert (E : cos th = 1 - 2 * sin (th / 2) * sin (th / 2)) by (rewrite <- cos_2a_sin; f_equal; field). rewrite E. lra.
Qed.
Lemma node_before L c e1 e2 rad phi th i : laid L c e1 e2 rad phi th -> (0 < i < lN L)%nat ->
  lr L (i - 1) = arc c e1 e2 rad (phi + INR i * th - th) /\ lr L i = arc c e1 e2 rad (phi + INR i * th) /\ lr L (i + 1) = arc c e1 e2 rad (phi + INR i * th + th).
Proof.
  intros H Hi. rewrite (H (i - 1)%nat), (H i), (H (i + 1)%nat) by lia. rewrite plus_INR, minus_INR by lia. cbn [INR]. repeat split; f_equal; ring.
Qed.
Lemma laid_seg L c e1 e2 rad phi th j : frame e1 e2 -> laid L c e1 e2 rad phi th -> resolved rad th -> (j < lN L)%nat ->
  lqs L j = heading e1 e2 (phi + INR j * th + th / 2) /\ llstr L j = 2 * rad * sin (th / 2).
Proof.
  intros F H (R1 & R2 & R3 & R4 & R5 & R6 & R7) Hj. unfold lqs, llstr. rewrite (H j), (H (S j)) by lia. rewrite S_INR.
  assert (E : (phi + (INR j + 1) * th - (phi + INR j * th)) / 2 = th / 2) by field.
  rewrite arc_unit by (auto; rewrite E; exact R6). rewrite E. cbn [fst snd]. split; [f_equal; field|reflexivity].
Qed.
Lemma circle_tangent L c e1 e2 rad phi th i : frame e1 e2 -> laid L c e1 e2 rad phi th -> resolved rad th -> (0 < i < lN L)%nat ->
  lq L i = heading e1 e2 (phi + INR i * th).
Proof.
  intros F H (R1 & R2 & R3 & R4 & R5 & R6 & R7) Hi. destruct (node_before _ _ _ _ _ _ _ _ H Hi) as (A & B & C). unfold lq. cbv zeta.
  destruct (Nat.eqb_spec i 0); [lia|]. destruct (Nat.eqb_spec i (lN L)); [lia|]. rewrite A, C.
  assert (E : (phi + INR i * th + th - (phi + INR i * th - th)) / 2 = th) by field.
  rewrite arc_unit by (auto; rewrite E; exact R7). cbn [fst]. f_equal. field.
Qed.
Lemma circle_curvature L c e1 e2 rad phi th i : frame e1 e2 -> laid L c e1 e2 rad phi th -> resolved rad th -> (0 < i < lN L)%nat -> lKurv L i = / rad.
Proof.
  intros F H R Hi. pose proof R as (R1 & R2 & R3 & R4 & R5 & R6 & R7). unfold lKurv. cbv zeta. destruct (Nat.eqb_spec i 0); [lia|]. destruct (Nat.eqb_spec i (lN L)); [lia|].
  destruct (laid_seg L c e1 e2 rad phi th (i - 1) F H R ltac:(lia)) as (A1 & A2). destruct (laid_seg L c e1 e2 rad phi th i F H R ltac:(lia)) as (B1 & B2).
  rewrite A1, A2, B1, B2. unfold getCurvature. rewrite heading_dot by exact F. rewrite minus_INR by lia. cbn [INR].
  match goal with |- context [cos ?x] => replace x with th by field end.
  destruct (Rlt_dec _ _); [lra|]. rewrite half_angle by lra. pose proof tol_pos. assert (0 < sin (th / 2)) by (apply sin_gt_0; lra). field. split; lra.
Qed.
Lemma circle_axis L c e1 e2 rad phi th i : frame e1 e2 -> laid L c e1 e2 rad phi th -> resolved rad th -> (0 < i < lN L)%nat -> lpvec L i = cross e1 e2.
Proof.
  intros F H R Hi. pose proof R as (R1 & R2 & R3 & R4 & R5 & R6 & R7). unfold lpvec. cbv zeta. rewrite (circle_curvature L c e1 e2 rad phi th i F H R Hi). rewrite eq0_false by exact R4.
  destruct (Nat.eqb_spec i 0); [lia|]. destruct (Nat.eqb_spec i (lN L)); [lia|].
  destruct (laid_seg L c e1 e2 rad phi th (i - 1) F H R ltac:(lia)) as (A1 & A2). destruct (laid_seg L c e1 e2 rad phi th i F H R ltac:(lia)) as (B1 & B2).
  rewrite A1, B1, heading_cross, minus_INR by lia. cbn [INR].
  match goal with |- context [sin ?x] => replace x with th by field end.
  pose proof tol_pos. rewrite norm_scale by lra. rewrite axis_norm by exact F. rewrite Rmult_1_r, eq0_false by exact R5.
  generalize (cross e1 e2). intros [x y z]. unfold vscale. cbn. f_equal; field; lra.
Qed.
(* a clamped end along the circle *)
Lemma circle_clamped L c e1 e2 rad phi th : frame e1 e2 -> laid L c e1 e2 rad phi th -> resolved rad th -> cos (th / 2) + eps64 <= 1 -> (0 < lN L)%nat -> lcantA L = true -> lisEI L = true ->
  lqA L = heading e1 e2 phi -> lKurv L 0 * (rad * cos (th / 4)) = 1.
Proof.
  intros F H R Hc HN HA HE HQ. pose proof R as (R1 & R2 & R3 & R4 & R5 & R6 & R7). unfold lKurv. cbv zeta. cbn [Nat.eqb]. rewrite HA.
  destruct (laid_seg L c e1 e2 rad phi th 0 F H R ltac:(lia)) as (B1 & B2). rewrite B1, B2. unfold lq. cbv zeta. cbn [Nat.eqb]. rewrite HA, HE. cbn [negb orb]. rewrite HQ.
  unfold getCurvature. rewrite heading_dot by exact F. cbn [INR].
  match goal with |- context [cos (?x - _)] => replace (x - phi) with (th / 2) by field end.
  destruct (Rlt_dec _ _); [lra|]. rewrite half_angle by lra. replace (th / 2 / 2) with (th / 4) by field. replace (th / 2) with (2 * (th / 4)) by field. rewrite sin_2a.
  assert (0 < sin (th / 4)) by (apply sin_gt_0; lra). assert (0 < cos (th / 4)) by (apply cos_gt_0; lra). field. repeat split; lra.
Qed.

(* ----- the bending force node by node ----- *)
Definition part (L : line) (i : nat) (EI : R) (j : nat) : v3 :=
  let Mim1 := vscale (lKurv L i * EI / llstr L (i - 1)) (cross (lqs L (i - 1)) (lpvec L i)) in
  let Mip1 := vscale (lKurv L i * EI / llstr L i) (cross (lqs L i) (lpvec L i)) in
  if Nat.eqb j (i - 1) then Mim1 else if Nat.eqb j i then vsub (vscale (-1) Mim1) Mip1 else if Nat.eqb j (i + 1) then Mip1 else vzero.
Definition inner (L : line) (i : nat) : bool := andb (negb (Nat.eqb i 0)) (negb (Nat.eqb i (lN L))).
Lemma bend1_part L i Bs Bs' : lbx L = [] -> lcantA L = false -> lcantB L = false -> bend1 L i Bs = Some Bs' ->
  forall j, Bs' j = vadd (Bs j) (if andb (inner L i) (negb (equalRealNos (lKurv L i) 0)) then part L i (lEI L) j else vzero).
Proof.
  intros HB HA HB' H j. unfold bend1 in H. cbv zeta in H. rewrite HA, HB' in H. unfold inner.
  destruct (equalRealNos _ _). { injection H as <-. rewrite Bool.andb_false_r. symmetry. apply vadd_0_r. }
  destruct (Nat.eqb_spec i 0) as [E|E]; [injection H as <-; symmetry; apply vadd_0_r|].
  destruct (Nat.eqb_spec i (lN L)) as [E'|E']; [injection H as <-; symmetry; apply vadd_0_r|].
  unfold lEIat in H. rewrite HB in H. cbn [length Nat.eqb negb obnd] in H. injection H as <-. cbn [negb andb]. unfold part, bump. cbv zeta.
  destruct (Nat.eqb_spec j (i - 1)), (Nat.eqb_spec j i), (Nat.eqb_spec j (i + 1)); try lia; try reflexivity. symmetry. apply vadd_0_r.
Qed.
Lemma bend_parts L n : lbx L = [] -> lcantA L = false -> lcantB L = false -> forall Bs, bend L n = Some Bs ->
  forall j, Bs j = vsum n (fun i => if andb (inner L i) (negb (equalRealNos (lKurv L i) 0)) then part L i (lEI L) j else vzero).
Proof.
  intros HB HA HB'. induction n as [|n IH]; intros Bs H j; cbn in H; [injection H as <-; reflexivity|].
  apply obnd_some in H as (B0 & E & H). cbn [vsum]. rewrite <- (IH B0 E j). now apply bend1_part.
Qed.
Lemma vsum_three n f k : (S k < n)%nat -> (0 < k)%nat -> (forall i, (i < n)%nat -> i <> (k - 1)%nat -> i <> k -> i <> S k -> f i = vzero) -> vsum n f = vadd (vadd (f (k - 1)%nat) (f k)) (f (S k)).
Proof.
  intros H1 H2 H. induction n as [|n IH]; [lia|]. cbn [vsum]. destruct (Nat.eq_dec (S k) n) as [<-|E].
  - cbn [vsum]. f_equal. f_equal. destruct k as [|k]; [lia|]. cbn [vsum]. replace (S k - 1)%nat with k by lia.
    rewrite (vsum_zero k) by (intros i Hi; apply H; lia). apply vadd_0_l.
  - rewrite IH by (try lia; intros; apply H; lia). rewrite (H n) by lia. apply vadd_0_r.
Qed.
Lemma uniform_bending L c e1 e2 rad phi th Bs : frame e1 e2 -> laid L c e1 e2 rad phi th -> resolved rad th -> lbx L = [] -> lcantA L = false -> lcantB L = false -> lBs L = Some Bs ->
  forall j, (2 <= j)%nat -> (j + 2 <= lN L)%nat -> Bs j = vzero.
Proof.
  intros F H R HB HA HB' HBs j J1 J2. unfold lBs in HBs. destruct (lisEI L); [|now injection HBs as <-].
  rewrite (bend_parts L (lN L + 1) HB HA HB' Bs HBs j). rewrite (vsum_three _ _ j); [| lia | lia |].
  - assert (X : forall i, (0 < i < lN L)%nat -> inner L i = true /\ equalRealNos (lKurv L i) 0 = false).
    { intros i Hi. unfold inner. destruct (Nat.eqb_spec i 0), (Nat.eqb_spec i (lN L)); try lia. split; [reflexivity|]. rewrite (circle_curvature L c e1 e2 rad phi th i F H R Hi). apply eq0_false. apply R. }
    destruct (X (j - 1)%nat ltac:(lia)) as (I1 & K1). destruct (X j ltac:(lia)) as (I2 & K2). destruct (X (S j) ltac:(lia)) as (I3 & K3). rewrite I1, K1, I2, K2, I3, K3. cbn [negb andb].
    unfold part. cbv zeta. replace (Nat.eqb j (j - 1 - 1)) with false by (symmetry; apply Nat.eqb_neq; lia). replace (Nat.eqb j (j - 1)) with false by (symmetry; apply Nat.eqb_neq; lia).
    replace (Nat.eqb j (j - 1 + 1)) with true by (symmetry; apply Nat.eqb_eq; lia). replace (Nat.eqb j (S j - 1)) with true by (symmetry; apply Nat.eqb_eq; lia). rewrite Nat.eqb_refl.
    rewrite !(circle_curvature L c e1 e2 rad phi th) by (auto; lia). rewrite !(circle_axis L c e1 e2 rad phi th) by (auto; lia). replace (S j - 1)%nat with j by lia.
    generalize (vscale (/ rad * lEI L / llstr L (j - 1)) (cross (lqs L (j - 1)) (cross e1 e2))) (vscale (/ rad * lEI L / llstr L j) (cross (lqs L j) (cross e1 e2))). vring.
  - intros i Hi N1 N2 N3. destruct (andb _ _) eqn:E; [|reflexivity]. unfold inner in E. unfold part. cbv zeta.
    destruct (Nat.eqb_spec i 0); [discriminate|].
    destruct (Nat.eqb_spec j (i - 1)); [lia|]. destruct (Nat.eqb_spec j i); [lia|]. destruct (Nat.eqb_spec j (i + 1)); [lia|]. reflexivity.
Qed.

(* ----- bending energy ----- *)
Lemma deriv_ext f g x a : (forall y, f y = g y) -> derivable_pt_lim f x a -> derivable_pt_lim g x a.
Proof. intros E H eps He. destruct (H eps He) as [d Hd]. exists d. intros h Hh Hb. rewrite <- !E. now apply Hd. Qed.
Lemma deriv_mul f g x a b : derivable_pt_lim f x a -> derivable_pt_lim g x b -> derivable_pt_lim (fun y => f y * g y) x (a * g x + f x * b).
Proof. intros. apply (derivable_pt_lim_mult f g); assumption. Qed.
Lemma deriv_sqrt f x a : derivable_pt_lim f x a -> 0 < f x -> derivable_pt_lim (fun y => sqrt (f y)) x (/ (2 * sqrt (f x)) * a).
Proof. intros H P. apply (derivable_pt_lim_comp f sqrt x a _ H). now apply derivable_pt_lim_sqrt. Qed.
Lemma deriv_div f g x a b : derivable_pt_lim f x a -> derivable_pt_lim g x b -> g x <> 0 -> derivable_pt_lim (fun y => f y / g y) x ((a * g x - b * f x) / (g x * g x)).
Proof. intros H1 H2 N. apply (derivable_pt_lim_div f g); assumption. Qed.
Definition tracks (u : R -> v3) (t : R) (d : v3) : Prop :=
  derivable_pt_lim (fun s => vx (u s)) t (vx d) /\ derivable_pt_lim (fun s => vy (u s)) t (vy d) /\ derivable_pt_lim (fun s => vz (u s)) t (vz d).
Lemma tracks_sub u w t a b : tracks u t a -> tracks w t b -> tracks (fun s => vsub (u s) (w s)) t (vsub a b).
Proof. intros (X & Y & Z) (X' & Y' & Z'). repeat split; cbn; apply deriv_sub; assumption. Qed.
Lemma tracks_dot u w t a b : tracks u t a -> tracks w t b -> derivable_pt_lim (fun s => dot (u s) (w s)) t (dot a (w t) + dot (u t) b).
Proof.
  intros (X & Y & Z) (X' & Y' & Z'). pose proof (deriv_add _ _ _ _ _ (deriv_add _ _ _ _ _ (deriv_mul _ _ _ _ _ X X') (deriv_mul _ _ _ _ _ Y Y')) (deriv_mul _ _ _ _ _ Z Z')) as D. cbv beta in D.
  replace (dot a (w t) + dot (u t) b) with (vx a * vx (w t) + vx (u t) * vx b + (vy a * vy (w t) + vy (u t) * vy b) + (vz a * vz (w t) + vz (u t) * vz b)) by (unfold dot; ring). exact D.
Qed.
Lemma tracks_norm u t a : tracks u t a -> dot (u t) a = 0 -> 0 < norm (u t) -> derivable_pt_lim (fun s => norm (u s)) t 0.
Proof.
  intros T Z P. assert (Q : 0 < dot (u t) (u t)) by (rewrite <- norm_sq; nra). pose proof (deriv_sqrt _ _ _ (tracks_dot u u t a a T T) Q) as D. cbv beta in D.
  replace (/ (2 * sqrt (dot (u t) (u t))) * (dot a (u t) + dot (u t) a)) with 0 in D; [exact D|].
  replace (dot a (u t)) with (dot (u t) a) by (unfold dot; ring). rewrite Z. ring.
Qed.
Lemma energy_rate EI u w t du dw : tracks u t du -> tracks w t dw -> dot (u t) du = 0 -> dot (w t) dw = 0 -> 0 < norm (u t) -> 0 < norm (w t) -> -1 < cos_between (u t) (w t) ->
  derivable_pt_lim (fun s => bend_energy EI (u s) (w s)) t
    (- (2 * EI / ((norm (u t) + norm (w t)) * sqrt ((1 + cos_between (u t) (w t)) / 2)) * ((dot du (w t) + dot (u t) dw) / (norm (u t) * norm (w t))))).
Proof.
  intros Tu Tw Zu Zw Pu Pw C. pose proof (tracks_norm u t du Tu Zu Pu) as Du. pose proof (tracks_norm w t dw Tw Zw Pw) as Dw.
  assert (NZ : norm (u t) * norm (w t) <> 0) by nra.
  pose proof (deriv_div _ _ _ _ _ (tracks_dot u w t du dw Tu Tw) (deriv_mul _ _ _ _ _ Du Dw) NZ) as Dc. cbv beta in Dc.
  change (fun y => dot (u y) (w y) / (norm (u y) * norm (w y))) with (fun y => cos_between (u y) (w y)) in Dc.
  set (dc := ((dot du (w t) + dot (u t) dw) * (norm (u t) * norm (w t)) - (0 * norm (w t) + norm (u t) * 0) * dot (u t) (w t)) / (norm (u t) * norm (w t) * (norm (u t) * norm (w t)))) in Dc.
  assert (Edc : dc = (dot du (w t) + dot (u t) dw) / (norm (u t) * norm (w t))) by (unfold dc; field; lra).
  pose proof (deriv_add (fun _ => 1) _ t 0 dc (derivable_pt_lim_const 1 t) Dc) as D1. cbv beta in D1.
  pose proof (deriv_mul (fun _ => / 2) _ t 0 _ (derivable_pt_lim_const (/ 2) t) D1) as D2. cbv beta in D2.
  assert (P2 : 0 < / 2 * (1 + cos_between (u t) (w t))) by lra. pose proof (deriv_sqrt _ _ _ D2 P2) as D3. cbv beta in D3.
  pose proof (deriv_sub (fun _ => 1) _ t 0 _ (derivable_pt_lim_const 1 t) D3) as D4. cbv beta in D4.
  pose proof (deriv_mul (fun _ => 8 * EI) _ t 0 _ (derivable_pt_lim_const (8 * EI) t) D4) as D5. cbv beta in D5.
  assert (NS : norm (u t) + norm (w t) <> 0) by lra. pose proof (deriv_div _ _ _ _ _ D5 (deriv_add _ _ _ _ _ Du Dw) NS) as D6. cbv beta in D6.
  match type of D6 with derivable_pt_lim _ _ ?y => match goal with |- derivable_pt_lim _ _ ?x => replace x with y end end.
  - refine (deriv_ext _ _ _ _ _ D6). intro s. unfold bend_energy. do 4 f_equal. field.
  - rewrite Edc. replace (/ 2 * (1 + cos_between (u t) (w t))) with ((1 + cos_between (u t) (w t)) / 2) by field.
    assert (Q : 0 < sqrt ((1 + cos_between (u t) (w t)) / 2)) by (apply sqrt_lt_R0; lra).
    generalize dependent (sqrt ((1 + cos_between (u t) (w t)) / 2)). intros q Q. field. repeat split; lra.
Qed.
Lemma nsum_swap n m (f : nat -> nat -> R) : nsum n (fun i => nsum m (f i)) = nsum m (fun j => nsum n (fun i => f i j)).
Proof.
  induction n as [|n IH]; cbn [nsum]; [symmetry; induction m as [|m IHm]; cbn [nsum]; [reflexivity|rewrite IHm; ring]|]. rewrite IH. symmetry. exact (nsum_add m (fun j => nsum n (fun i => f i j)) (f n)).
Qed.
Lemma nsum_0 n f : (forall i, (i < n)%nat -> f i = 0) -> nsum n f = 0.
Proof. induction n; intro H; cbn [nsum]; [reflexivity|]. rewrite IHn, H by auto. ring. Qed.
Lemma nsum_three n f k : (S k < n)%nat -> (0 < k)%nat -> (forall i, (i < n)%nat -> i <> (k - 1)%nat -> i <> k -> i <> S k -> f i = 0) -> nsum n f = f (k - 1)%nat + f k + f (S k).
Proof.
  intros H1 H2 H. induction n as [|n IH]; [lia|]. cbn [nsum]. destruct (Nat.eq_dec (S k) n) as [<-|E].
  - cbn [nsum]. do 2 f_equal. destruct k as [|k]; [lia|]. cbn [nsum]. replace (S k - 1)%nat with k by lia. rewrite (nsum_0 k) by (intros i Hi; apply H; lia). ring.
  - rewrite IH by (try lia; intros; apply H; lia). rewrite (H n) by lia. ring.
Qed.
Lemma nsum_inner n f : (0 < n)%nat -> f 0%nat = 0 -> f n = 0 -> nsum (n + 1) f = nsum (n - 1) (fun i => f (S i)).
Proof.
  intros H F0 Fn. destruct n as [|n]; [lia|]. replace (S n + 1)%nat with (S (S n)) by lia. replace (S n - 1)%nat with n by lia. cbn [nsum]. rewrite Fn, Rplus_0_r. clear Fn H.
  induction n as [|n IH]; cbn [nsum] in *; [rewrite F0; ring|]. rewrite <- IH. ring.
Qed.
Lemma dot_vsum n f v : dot (vsum n f) v = nsum n (fun i => dot (f i) v).
Proof. induction n; cbn [vsum nsum]; [unfold dot; cbn; ring|]. rewrite <- IHn. generalize (vsum n f) (f n). vring. Qed.
Lemma power_parts L Bs : lbx L = [] -> lcantA L = false -> lcantB L = false -> (0 < lN L)%nat -> lisEI L = true -> lBs L = Some Bs ->
  (forall i, (0 < i < lN L)%nat -> equalRealNos (lKurv L i) 0 = false) ->
  power L Bs = nsum (lN L - 1) (fun i => dot (vscale (lKurv L (S i) * lEI L / llstr L i) (cross (lqs L i) (lpvec L (S i)))) (vsub (lrd L i) (lrd L (S i)))
                                        + dot (vscale (lKurv L (S i) * lEI L / llstr L (S i)) (cross (lqs L (S i)) (lpvec L (S i)))) (vsub (lrd L (S (S i))) (lrd L (S i)))).
Proof.
  intros HB HA HB' HN HE HBs HK. unfold lBs in HBs. rewrite HE in HBs. unfold power.
  rewrite (nsum_ext _ _ (fun j => nsum (lN L + 1) (fun i => dot (if andb (inner L i) (negb (equalRealNos (lKurv L i) 0)) then part L i (lEI L) j else vzero) (lrd L j)))).
  2:{ intros j Hj. rewrite (bend_parts L _ HB HA HB' Bs HBs j). apply dot_vsum. }
  rewrite nsum_swap. rewrite nsum_inner; [|exact HN| |].
  - apply nsum_ext. intros i Hi. assert (I : inner L (S i) = true) by (unfold inner; destruct (Nat.eqb_spec (S i) (lN L)); [lia|reflexivity]). rewrite I, HK by lia. cbn [negb andb].
    rewrite (nsum_three _ _ (S i)); [|lia|lia|].
    + unfold part. cbv zeta. replace (S i - 1)%nat with i by lia. rewrite !Nat.eqb_refl. destruct (Nat.eqb_spec (S i) i); [lia|]. destruct (Nat.eqb_spec (S (S i)) i); [lia|]. destruct (Nat.eqb_spec (S (S i)) (S i)); [lia|].
      destruct (Nat.eqb_spec (S (S i)) (S i + 1)); [|lia].
      generalize (vscale (lKurv L (S i) * lEI L / llstr L i) (cross (lqs L i) (lpvec L (S i)))) (vscale (lKurv L (S i) * lEI L / llstr L (S i)) (cross (lqs L (S i)) (lpvec L (S i)))) (lrd L i) (lrd L (S i)) (lrd L (S (S i))). vring.
    + intros j Hj N1 N2 N3. unfold part. cbv zeta. destruct (Nat.eqb_spec j (S i - 1)); [lia|]. destruct (Nat.eqb_spec j (S i)); [lia|]. destruct (Nat.eqb_spec j (S i + 1)); [lia|]. unfold dot. cbn. ring.
  - apply nsum_0. intros. unfold inner. cbn [Nat.eqb negb andb]. unfold dot. cbn. ring.
  - apply nsum_0. intros. unfold inner. rewrite Nat.eqb_refl. cbn [negb]. rewrite Bool.andb_false_r. cbn [andb]. unfold dot. cbn. ring.
Qed.
Lemma bend_work q1 q2 s a1 a2 w1 w2 : s <> 0 -> dot q1 q1 = 1 -> dot q2 q2 = 1 -> dot q1 w1 = 0 -> dot q2 w2 = 0 ->
  dot (vscale a1 (cross q1 (vscale (/ s) (cross q1 q2)))) (vscale (-1) w1) + dot (vscale a2 (cross q2 (vscale (/ s) (cross q1 q2)))) w2 = (a1 * dot w1 q2 + a2 * dot q1 w2) / s.
Proof.
  intros S U1 U2 Z1 Z2.
  transitivity ((a1 * (dot q1 q1 * dot w1 q2 - dot q1 w1 * dot q1 q2) + a2 * (dot q2 q2 * dot q1 w2 - dot q2 w2 * dot q1 q2)) / s).
  - destruct q1, q2, w1, w2. unfold dot, vscale, cross. cbn. field. exact S.
  - rewrite U1, U2, Z1, Z2. field. exact S.
Qed.
Lemma cos_dirs L i : tol < norm (seg L i) -> tol < norm (seg L (S i)) -> cos_between (seg L i) (seg L (S i)) = dot (lqs L i) (lqs L (S i)).
Proof.
  intros H1 H2. pose proof tol_pos. destruct (unit_is_unit _ _ H1) as [_ D1]. destruct (unit_is_unit _ _ H2) as [_ D2]. fold (lqs L i) in D1. fold (lqs L (S i)) in D2. fold (seg L i) in D1. fold (seg L (S i)) in D2.
  unfold cos_between. rewrite D1, D2 at 1. set (n1 := norm (seg L i)) in *. set (n2 := norm (seg L (S i))) in *. replace (dot (vscale n1 (lqs L i)) (vscale n2 (lqs L (S i)))) with (n1 * n2 * dot (lqs L i) (lqs L (S i))) by (generalize (lqs L i) (lqs L (S i)); vring).
  field. split; lra.
Qed.
Lemma lKurv_inner L i : (S i < lN L)%nat -> tol < norm (seg L i) -> tol < norm (seg L (S i)) -> cos_between (seg L i) (seg L (S i)) + eps64 <= 1 ->
  lKurv L (S i) = 4 / (norm (seg L i) + norm (seg L (S i))) * sqrt ((1 - cos_between (seg L i) (seg L (S i))) / 2).
Proof.
  intros Hi H1 H2 HC. unfold lKurv. cbv zeta. destruct (Nat.eqb_spec (S i) 0); [lia|]. destruct (Nat.eqb_spec (S i) (lN L)); [lia|]. replace (S i - 1)%nat with i by lia.
  unfold getCurvature. rewrite <- (cos_dirs L i H1 H2). destruct (Rlt_dec _ _); [lra|]. unfold llstr, unitvector. cbn [snd]. fold (seg L i). fold (seg L (S i)). do 2 f_equal. lra.
Qed.
Lemma cross_sq a b : dot (cross a b) (cross a b) = dot a a * dot b b - dot a b * dot a b.
Proof. vring. Qed.
Lemma bend_term L i : (S i < lN L)%nat -> tol < norm (seg L i) -> tol < norm (seg L (S i)) -> bent (seg L i) (seg L (S i)) -> stretch_rate L i = 0 -> stretch_rate L (S i) = 0 ->
  -1 < cos_between (seg L i) (seg L (S i)) /\ equalRealNos (lKurv L (S i)) 0 = false /\
  dot (vscale (lKurv L (S i) * lEI L / llstr L i) (cross (lqs L i) (lpvec L (S i)))) (vsub (lrd L i) (lrd L (S i)))
  + dot (vscale (lKurv L (S i) * lEI L / llstr L (S i)) (cross (lqs L (S i)) (lpvec L (S i)))) (vsub (lrd L (S (S i))) (lrd L (S i)))
  = 2 * lEI L / ((norm (seg L i) + norm (seg L (S i))) * sqrt ((1 + cos_between (seg L i) (seg L (S i))) / 2))
    * ((dot (vsub (lrd L (S i)) (lrd L i)) (seg L (S i)) + dot (seg L i) (vsub (lrd L (S (S i))) (lrd L (S i)))) / (norm (seg L i) * norm (seg L (S i)))).
Proof.
  intros Hi H1 H2 (B1 & B2 & B3) S1 S2. pose proof tol_pos as TP. pose proof (lKurv_inner L i Hi H1 H2 B1) as K.
  destruct (unit_is_unit _ _ H1) as [U1 D1]. destruct (unit_is_unit _ _ H2) as [U2 D2]. fold (lqs L i) in D1, U1. fold (lqs L (S i)) in D2, U2. fold (seg L i) in D1. fold (seg L (S i)) in D2.
  pose proof (cos_dirs L i H1 H2) as C. set (c := cos_between (seg L i) (seg L (S i))) in *.
  assert (E0 : equalRealNos (lKurv L (S i)) 0 = false) by (rewrite K; now apply eq0_false).
  assert (SN : norm (cross (lqs L i) (lqs L (S i))) = sqrt (1 - c * c)) by (unfold norm; rewrite cross_sq, U1, U2, <- C; f_equal; ring).
  assert (C1 : 0 < 1 - c * c). { destruct (Rlt_le_dec 0 (1 - c * c)) as [X|X]; [exact X|]. rewrite sqrt_neg_0 in B3 by exact X. lra. }
  assert (CM : -1 < c < 1) by nra.
  split; [apply CM|]. split; [exact E0|].
  assert (P : lpvec L (S i) = vscale (/ sqrt (1 - c * c)) (cross (lqs L i) (lqs L (S i)))).
  { unfold lpvec. cbv zeta. rewrite E0. destruct (Nat.eqb_spec (S i) 0); [lia|]. destruct (Nat.eqb_spec (S i) (lN L)); [lia|]. replace (S i - 1)%nat with i by lia. rewrite SN, eq0_false by exact B3. reflexivity. }
  assert (Z1 : dot (lqs L i) (vsub (lrd L (S i)) (lrd L i)) = 0) by (rewrite <- (ldstr_rate L i H1) in S1; exact S1).
  assert (Z2 : dot (lqs L (S i)) (vsub (lrd L (S (S i))) (lrd L (S i))) = 0) by (rewrite <- (ldstr_rate L (S i) H2) in S2; exact S2).
  rewrite P. replace (vsub (lrd L i) (lrd L (S i))) with (vscale (-1) (vsub (lrd L (S i)) (lrd L i))) by (generalize (lrd L i) (lrd L (S i)); vring).
  rewrite bend_work; try assumption; [|lra].
  change (llstr L i) with (norm (seg L i)). change (llstr L (S i)) with (norm (seg L (S i))). rewrite K.
  set (n1 := norm (seg L i)) in *. set (n2 := norm (seg L (S i))) in *. set (w1 := vsub (lrd L (S i)) (lrd L i)) in *. set (w2 := vsub (lrd L (S (S i))) (lrd L (S i))) in *.
  replace (dot w1 (seg L (S i))) with (n2 * dot w1 (lqs L (S i))) by (rewrite D2; generalize w1 (lqs L (S i)); vring).
  replace (dot (seg L i) w2) with (n1 * dot (lqs L i) w2) by (rewrite D1; generalize w2 (lqs L i); vring).
  generalize (dot w1 (lqs L (S i))) (dot (lqs L i) w2). intros x y.
  assert (SQ : sqrt (1 - c * c) = 2 * (sqrt ((1 - c) / 2) * sqrt ((1 + c) / 2))).
  { rewrite <- sqrt_mult by lra. replace 2 with (sqrt (2 * 2)) at 1 by (apply sqrt_square; lra). rewrite <- sqrt_mult by nra. f_equal. field. }
  rewrite SQ. assert (A : 0 < sqrt ((1 - c) / 2)) by (apply sqrt_lt_R0; lra). assert (B : 0 < sqrt ((1 + c) / 2)) by (apply sqrt_lt_R0; lra).
  generalize dependent (sqrt ((1 - c) / 2)). generalize dependent (sqrt ((1 + c) / 2)). intros b B a K' B2 A SQ. field. repeat split; lra.
Qed.
Lemma bending_energy L p t Bs : (0 < lN L)%nat -> lbx L = [] -> 0 < lEI L -> lcantA L = false -> lcantB L = false -> lBs L = Some Bs -> long L -> moves_as L p t ->
  (forall i, (i < lN L)%nat -> stretch_rate L i = 0) -> (forall i, (S i < lN L)%nat -> bent (seg L i) (seg L (S i))) ->
  derivable_pt_lim (fun s => line_bend_energy L (p s)) t (- power L Bs).
Proof.
  intros HN HB HE HA HB' HBs HL (P0 & P1) HS HBt.
  assert (IE : lisEI L = true) by (unfold lisEI; destruct (Rlt_dec 0 (lEI L)); [reflexivity|lra]).
  rewrite (power_parts L Bs HB HA HB' HN IE HBs).
  2:{ intros i Hi. destruct i as [|i]; [lia|]. apply (bend_term L i); try (apply HL; lia); try (apply HS; lia); [lia|apply HBt; lia]. }
  match goal with |- derivable_pt_lim _ _ (- ?x) => replace (- x) with (-1 * x) by ring end. rewrite <- nsum_scale. unfold line_bend_energy.
  apply (nsum_deriv (lN L - 1) (fun s i => bend_energy (lEI L) (vsub (p s (S i)) (p s i)) (vsub (p s (S (S i))) (p s (S i))))).
  intros i Hi. destruct (bend_term L i) as (C & _ & T); try (apply HL; lia); try (apply HS; lia); [lia|apply HBt; lia|]. rewrite T. pose proof tol_pos.
  assert (T1 : forall j, tracks (fun s => p s j) t (lrd L j)) by (intro j; exact (P1 j)).
  pose proof (energy_rate (lEI L) (fun s => vsub (p s (S i)) (p s i)) (fun s => vsub (p s (S (S i))) (p s (S i))) t _ _ (tracks_sub _ _ _ _ _ (T1 (S i)) (T1 i)) (tracks_sub _ _ _ _ _ (T1 (S (S i))) (T1 (S i)))) as D.
  cbv beta in D. rewrite !P0 in D. fold (seg L i) in D. fold (seg L (S i)) in D.
  assert (L1 : tol < norm (seg L i)) by (apply HL; lia). assert (L2 : tol < norm (seg L (S i))) by (apply HL; lia).
  assert (Z : forall j, (j < lN L)%nat -> tol < norm (seg L j) -> dot (seg L j) (vsub (lrd L (S j)) (lrd L j)) = 0).
  { intros j Hj Hl. pose proof (HS j Hj) as X. unfold stretch_rate in X. apply (Rmult_eq_compat_r (norm (seg L j))) in X. rewrite Rmult_0_l in X. rewrite <- X. field. lra. }
  specialize (D (Z i ltac:(lia) L1) (Z (S i) ltac:(lia) L2) ltac:(lra) ltac:(lra) C).
  match type of D with derivable_pt_lim _ _ ?y => match goal with |- derivable_pt_lim _ _ ?x => replace x with y by ring end end. exact D.
Qed.
