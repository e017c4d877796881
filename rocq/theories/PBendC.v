(** Proofs about the power of the bends of lines with clamped ends. *)
From Coq Require Import Reals List Lra Lia Psatz Arith.
From Verif Require Import MErr MVec MStateOps MMat MInterp MLine SMat SLine SLineU SBend SBendU PMat PLine PLineB PLineE PLineU PBend PBendU.
Import ListNotations.
Open Scope R_scope.

(* the force at a node from the bend at another, the ends included *)
Definition endM (L : line) (s i : nat) (EI : R) : v3 := vscale (lKurv L i * EI / llstr L s) (cross (lqs L s) (lpvec L i)).
Definition piece (L : line) (i : nat) (EI : R) (j : nat) : v3 :=
  if Nat.eqb i 0 then (if Nat.eqb j 0 then vscale (-1) (endM L 0 0 EI) else if Nat.eqb j 1 then endM L 0 0 EI else vzero)
  else if Nat.eqb i (lN L) then (if Nat.eqb j (i - 1) then endM L (i - 1) i EI else if Nat.eqb j i then vscale (-1) (endM L (i - 1) i EI) else vzero)
  else part L i EI j.
Definition acts (L : line) (i : nat) : bool :=
  andb (if Nat.eqb i 0 then lcantA L else if Nat.eqb i (lN L) then lcantB L else true) (negb (equalRealNos (lKurv L i) 0)).
Lemma bend1_piece L i Bs Bs' : bend1 L i Bs = Some Bs' ->
  exists E, (acts L i = true -> lEIat L (lKurv L i) = Some E) /\ forall j, Bs' j = vadd (Bs j) (if acts L i then piece L i E j else vzero).
Proof.
  intros H. unfold bend1 in H. cbv zeta in H. unfold acts.
  destruct (equalRealNos _ _). { injection H as <-. exists 0. rewrite Bool.andb_false_r. split; [discriminate|]. intros. symmetry. apply vadd_0_r. }
  destruct (Nat.eqb_spec i 0) as [Z|Z].
  - subst i. destruct (lcantA L); [|injection H as <-; exists 0; cbn [negb andb]; split; [discriminate|]; intros; symmetry; apply vadd_0_r].
    destruct (lEIat L (lKurv L 0)) as [EI|]; cbn [obnd] in H; [|discriminate]. injection H as <-. exists EI. split; [reflexivity|]. intros j. cbn [negb andb]. unfold piece, bump, endM. cbn [Nat.eqb Nat.add].
    destruct (Nat.eqb_spec j 0), (Nat.eqb_spec j 1); try lia; try reflexivity. symmetry. apply vadd_0_r.
  - destruct (Nat.eqb_spec i (lN L)) as [Z'|Z'].
    + destruct (lcantB L); [|injection H as <-; exists 0; cbn [negb andb]; split; [discriminate|]; intros; symmetry; apply vadd_0_r].
      destruct (lEIat L (lKurv L i)) as [EI|]; cbn [obnd] in H; [|discriminate]. injection H as <-. exists EI. split; [reflexivity|]. intros j. cbn [negb andb]. unfold piece, bump, endM.
      destruct (Nat.eqb_spec i 0); [lia|]. destruct (Nat.eqb_spec i (lN L)); [|lia].
      destruct (Nat.eqb_spec j (i - 1)), (Nat.eqb_spec j i); try lia; try reflexivity. symmetry. apply vadd_0_r.
    + destruct (lEIat L (lKurv L i)) as [EI|]; cbn [obnd] in H; [|discriminate]. injection H as <-. exists EI. split; [reflexivity|]. intros j. cbn [negb andb]. unfold piece.
      destruct (Nat.eqb_spec i 0); [lia|]. destruct (Nat.eqb_spec i (lN L)); [lia|]. unfold part, bump. cbv zeta.
      destruct (Nat.eqb_spec j (i - 1)), (Nat.eqb_spec j i), (Nat.eqb_spec j (i + 1)); try lia; try reflexivity. symmetry. apply vadd_0_r.
Qed.
Lemma bend_pieces L n : forall Bs, bend L n = Some Bs ->
  exists E, (forall i, (i < n)%nat -> acts L i = true -> lEIat L (lKurv L i) = Some (E i)) /\ forall j, Bs j = vsum n (fun i => if acts L i then piece L i (E i) j else vzero).
Proof.
  induction n as [|n IH]; intros Bs H; cbn in H; [injection H as <-; exists (fun _ => 0); split; [intros; lia|reflexivity]|].
  apply obnd_some in H as (B0 & E & H). destruct (IH B0 E) as (Es & E1 & E2). destruct (bend1_piece L n B0 Bs H) as (En & F1 & F2).
  exists (fun i => if Nat.eqb i n then En else Es i). split.
  - intros i Hi C. destruct (Nat.eqb_spec i n) as [->|Z]; [apply F1; exact C|apply E1; [lia|exact C]].
  - intros j. cbn [vsum]. rewrite Nat.eqb_refl, F2, E2. f_equal. apply vsum_ext. intros i Hi. destruct (Nat.eqb_spec i n); [lia|reflexivity].
Qed.
Lemma nsum_one n f k : (k < n)%nat -> (forall i, (i < n)%nat -> i <> k -> f i = 0) -> nsum n f = f k.
Proof.
  intros H. induction n as [|n IH]; intros Z; [lia|]. cbn [nsum]. destruct (Nat.eq_dec k n) as [->|E].
  - rewrite (nsum_0 n) by (intros; apply Z; lia). ring.
  - rewrite IH by (try lia; intros; apply Z; lia). rewrite (Z n) by lia. ring.
Qed.
Lemma nsum_two n f k : (S k < n)%nat -> (forall i, (i < n)%nat -> i <> k -> i <> S k -> f i = 0) -> nsum n f = f k + f (S k).
Proof.
  intros H. induction n as [|n IH]; intros Z; [lia|]. cbn [nsum]. destruct (Nat.eq_dec (S k) n) as [<-|E].
  - rewrite (nsum_one (S k) f k) by (try lia; intros; apply Z; lia). ring.
  - rewrite IH by (try lia; intros; apply Z; lia). rewrite (Z n) by lia. ring.
Qed.
Lemma nsum_ends n f : (0 < n)%nat -> nsum (n + 1) f = f 0%nat + nsum (n - 1) (fun i => f (S i)) + f n.
Proof.
  intros H. destruct n as [|n]; [lia|]. replace (S n + 1)%nat with (S (S n)) by lia. replace (S n - 1)%nat with n by lia. cbn [nsum]. f_equal. clear H.
  induction n as [|n IH]; cbn [nsum]; [ring|]. rewrite <- Rplus_assoc, <- IH. reflexivity.
Qed.
Definition inner_work (L : line) (i : nat) (EI : R) : R :=
  dot (vscale (lKurv L (S i) * EI / llstr L i) (cross (lqs L i) (lpvec L (S i)))) (vsub (lrd L i) (lrd L (S i)))
  + dot (vscale (lKurv L (S i) * EI / llstr L (S i)) (cross (lqs L (S i)) (lpvec L (S i)))) (vsub (lrd L (S (S i))) (lrd L (S i))).
Lemma power_pieces L Bs : (0 < lN L)%nat -> lisEI L = true -> lBs L = Some Bs ->
  exists E, (forall i, (i <= lN L)%nat -> acts L i = true -> lEIat L (lKurv L i) = Some (E i)) /\
  power L Bs = (if acts L 0 then dot (endM L 0 0 (E 0%nat)) (vsub (lrd L 1) (lrd L 0)) else 0)
             + nsum (lN L - 1) (fun i => if acts L (S i) then inner_work L i (E (S i)) else 0)
             + (if acts L (lN L) then dot (endM L (lN L - 1) (lN L) (E (lN L))) (vsub (lrd L (lN L - 1)) (lrd L (lN L))) else 0).
Proof.
  intros HN HE HBs. unfold lBs in HBs. rewrite HE in HBs. destruct (bend_pieces L (lN L + 1) Bs HBs) as (E & E1 & E2).
  exists E. split; [intros i Hi; apply E1; lia|]. unfold power.
  rewrite (nsum_ext _ _ (fun j => nsum (lN L + 1) (fun i => dot (if acts L i then piece L i (E i) j else vzero) (lrd L j)))).
  2:{ intros j Hj. rewrite (E2 j). apply dot_vsum. }
  rewrite nsum_swap. rewrite nsum_ends by exact HN. f_equal; [f_equal|].
  - destruct (acts L 0); [|apply nsum_0; intros; unfold dot; cbn; ring].
    rewrite (nsum_two _ _ 0); [|lia|].
    + unfold piece. cbn [Nat.eqb]. generalize (endM L 0 0 (E 0%nat)) (lrd L 0) (lrd L 1). vring.
    + intros j Hj N1 N2. unfold piece. cbn [Nat.eqb]. destruct (Nat.eqb_spec j 0); [lia|]. destruct (Nat.eqb_spec j 1); [lia|]. unfold dot. cbn. ring.
  - apply nsum_ext. intros i Hi. destruct (acts L (S i)); [|apply nsum_0; intros; unfold dot; cbn; ring].
    rewrite (nsum_three _ _ (S i)); [|lia|lia|].
    + unfold piece. destruct (Nat.eqb_spec (S i) 0); [lia|]. destruct (Nat.eqb_spec (S i) (lN L)); [lia|].
      unfold part, inner_work. cbv zeta. replace (S i - 1)%nat with i by lia. rewrite !Nat.eqb_refl. destruct (Nat.eqb_spec (S i) i); [lia|]. destruct (Nat.eqb_spec (S (S i)) i); [lia|]. destruct (Nat.eqb_spec (S (S i)) (S i)); [lia|].
      destruct (Nat.eqb_spec (S (S i)) (S i + 1)); [|lia].
      generalize (vscale (lKurv L (S i) * E (S i) / llstr L i) (cross (lqs L i) (lpvec L (S i)))) (vscale (lKurv L (S i) * E (S i) / llstr L (S i)) (cross (lqs L (S i)) (lpvec L (S i)))) (lrd L i) (lrd L (S i)) (lrd L (S (S i))). vring.
    + intros j Hj N1 N2 N3. unfold piece. destruct (Nat.eqb_spec (S i) 0); [lia|]. destruct (Nat.eqb_spec (S i) (lN L)); [lia|]. unfold part. cbv zeta.
      destruct (Nat.eqb_spec j (S i - 1)); [lia|]. destruct (Nat.eqb_spec j (S i)); [lia|]. destruct (Nat.eqb_spec j (S i + 1)); [lia|]. unfold dot. cbn. ring.
  - destruct (acts L (lN L)); [|apply nsum_0; intros; unfold dot; cbn; ring].
    rewrite (nsum_two _ _ (lN L - 1)); [|lia|].
    + replace (S (lN L - 1)) with (lN L) by lia. unfold piece. destruct (Nat.eqb_spec (lN L) 0); [lia|]. rewrite !Nat.eqb_refl. destruct (Nat.eqb_spec (lN L) (lN L - 1)); [lia|].
      generalize (endM L (lN L - 1) (lN L) (E (lN L))) (lrd L (lN L)) (lrd L (lN L - 1)). vring.
    + intros j Hj N1 N2. unfold piece. destruct (Nat.eqb_spec (lN L) 0); [lia|]. rewrite !Nat.eqb_refl. destruct (Nat.eqb_spec j (lN L - 1)); [lia|]. destruct (Nat.eqb_spec j (lN L)); [lia|]. unfold dot. cbn. ring.
Qed.
Lemma tracks_const q t : tracks (fun _ => q) t vzero.
Proof. repeat split; cbn; apply const_d. Qed.
Lemma unit_norm q : dot q q = 1 -> norm q = 1.
Proof. intros H. unfold norm. rewrite H. apply sqrt_1. Qed.
(* the derivative of the angle of a segment with a fixed direction *)
Lemma fixed_angle L p t i q c : moves_as L p t -> tol < norm (seg L i) -> dot q q = 1 -> dot q (lqs L i) = c -> -1 < c < 1 ->
  cos_between q (seg L i) = c /\
  derivable_pt_lim (fun s => acos (cos_between q (vsub (p s (S i)) (p s i)))) t
    (- ((dot q (vsub (lrd L (S i)) (lrd L i)) - c * dot (lqs L i) (vsub (lrd L (S i)) (lrd L i))) / norm (seg L i) / sqrt (1 - c * c))).
Proof.
  intros HM H1 U C CM. pose proof tol_pos as TP. destruct (unit_is_unit _ _ H1) as [U1 D1]. fold (lqs L i) in D1, U1. fold (seg L i) in D1.
  pose proof (unit_norm q U) as NQ.
  assert (EC0 : cos_between q (seg L i) = c).
  { unfold cos_between. rewrite NQ. rewrite D1 at 1. rewrite <- C. set (n := norm (seg L i)) in *. replace (dot q (vscale n (lqs L i))) with (n * dot q (lqs L i)) by (generalize q (lqs L i); vring). field. lra. }
  split; [exact EC0|].
  pose proof (norm_deriv L p t i HM H1) as N1.
  assert (T1 : forall j, tracks (fun s => p s j) t (lrd L j)) by (intro j; exact (proj2 HM j)).
  pose proof (tracks_dot _ _ t _ _ (tracks_const q t) (tracks_sub _ _ _ _ _ (T1 (S i)) (T1 i))) as DD. cbv beta in DD.
  pose proof (deriv_mul (fun _ => norm q) _ t 0 _ (const_d (norm q) t) N1) as DN. cbv beta in DN.
  assert (NZ : norm q * norm (vsub (p t (S i)) (p t i)) <> 0). { rewrite !(proj1 HM), NQ. fold (seg L i). lra. }
  pose proof (deriv_div _ _ _ _ _ DD DN NZ) as Dc. cbv beta in Dc. rewrite !(proj1 HM) in Dc. fold (seg L i) in Dc.
  change (fun y => dot q (vsub (p y (S i)) (p y i)) / (norm q * norm (vsub (p y (S i)) (p y i)))) with (fun y => cos_between q (vsub (p y (S i)) (p y i))) in Dc.
  assert (EC : cos_between q (vsub (p t (S i)) (p t i)) = c) by (rewrite !(proj1 HM); exact EC0).
  pose proof (acos_deriv c CM) as DA. rewrite <- EC in DA at 1.
  pose proof (derivable_pt_lim_comp _ acos t _ _ Dc DA) as D. unfold comp in D.
  match goal with |- derivable_pt_lim _ _ ?x => match type of D with derivable_pt_lim _ _ ?y => replace x with y end end; [exact D|].
  rewrite NQ. unfold stretch_rate. set (w := vsub (lrd L (S i)) (lrd L i)) in *. set (n := norm (seg L i)) in *.
  replace (dot (seg L i) w) with (n * dot (lqs L i) w) by (rewrite D1; generalize w (lqs L i); vring).
  replace (dot q (seg L i)) with (n * c) by (rewrite <- C, D1; generalize q (lqs L i); vring).
  replace (dot vzero (seg L i)) with 0 by (unfold dot; cbn; ring).
  assert (A : 0 < sqrt (1 - c * c)) by (apply sqrt_lt_R0; nra). generalize dependent (sqrt (1 - c * c)). intros s ? ? ?. clear EC0 EC C. clearbody n. field. split; lra.
Qed.
Lemma cos_sym u w : cos_between u w = cos_between w u.
Proof. unfold cos_between. rewrite (Rmult_comm (norm u)). f_equal. unfold dot. ring. Qed.
Lemma deriv_ext2 f g x a : (forall y, f y = g y) -> derivable_pt_lim f x a -> derivable_pt_lim g x a.
Proof. apply deriv_ext. Qed.
(* end A *)
Lemma work_A L p t : (0 < lN L)%nat -> moves_as L p t -> lcantA L = true -> lisEI L = true -> tol < norm (seg L 0) -> dot (lqA L) (lqA L) = 1 -> bent_at (norm (seg L 0)) (lqA L) (seg L 0) ->
  lKurv L 0 = curvature_A L /\ lKurv L 0 <> 0 /\ acts L 0 = true /\ exists d, derivable_pt_lim (fun s => angle_A L (p s)) t d /\
  forall EI, dot (endM L 0 0 EI) (vsub (lrd L 1) (lrd L 0)) = - (EI * lKurv L 0 * d).
Proof.
  intros HN HM HA HE H1 U (B1 & B2 & B3). pose proof tol_pos as TP.
  destruct (unit_is_unit _ _ H1) as [U1 D1]. fold (lqs L 0) in D1, U1. fold (seg L 0) in D1.
  assert (C : cos_between (lqA L) (seg L 0) = dot (lqA L) (lqs L 0)).
  { unfold cos_between. rewrite (unit_norm _ U). rewrite D1 at 1. set (n := norm (seg L 0)) in *. replace (dot (lqA L) (vscale n (lqs L 0))) with (n * dot (lqA L) (lqs L 0)) by (generalize (lqA L) (lqs L 0); vring). field. lra. }
  assert (HQ : lq L 0 = lqA L) by (unfold lq; cbn [Nat.eqb]; rewrite HA, HE; reflexivity).
  assert (HAn : angle_A L (lr L) = acos (cos_between (lqA L) (seg L 0))) by reflexivity.
  unfold curvature_A. rewrite HAn. rewrite C in *. set (c := dot (lqA L) (lqs L 0)) in *.
  assert (C1 : 0 < 1 - c * c). { destruct (Rlt_le_dec 0 (1 - c * c)) as [X|X]; [exact X|]. rewrite sqrt_neg_0 in B3 by exact X. lra. }
  assert (CM : -1 < c < 1) by nra. rewrite half_sine by lra.
  assert (K : lKurv L 0 = 4 / norm (seg L 0) * sqrt ((1 - c) / 2)).
  { unfold lKurv. cbn [Nat.eqb]. rewrite HA, HQ. unfold getCurvature. fold c. destruct (Rlt_dec _ _); [lra|]. change (llstr L 0) with (norm (seg L 0)). do 2 f_equal. lra. }
  assert (E0 : equalRealNos (lKurv L 0) 0 = false) by (rewrite K; now apply eq0_false).
  split; [exact K|]. split; [rewrite K; intro Z; rewrite Z in B2; lra|]. split; [unfold acts; cbn [Nat.eqb]; rewrite HA, E0; reflexivity|].
  assert (SN : norm (cross (lqA L) (lqs L 0)) = sqrt (1 - c * c)) by (unfold norm; rewrite cross_sq, U, U1; f_equal; unfold c; ring).
  assert (P : lpvec L 0 = vscale (/ sqrt (1 - c * c)) (cross (lqA L) (lqs L 0))).
  { unfold lpvec. cbv zeta. rewrite E0. cbn [Nat.eqb]. rewrite HQ, SN, eq0_false by exact B3. reflexivity. }
  destruct (fixed_angle L p t 0 (lqA L) c HM H1 U eq_refl CM) as (_ & D). eexists. split; [exact D|].
  intros EI. unfold endM. rewrite P. set (w := vsub (lrd L 1) (lrd L 0)) in *.
  pose proof (bend_work_any (lqA L) (lqs L 0) (sqrt (1 - c * c)) c 0 (lKurv L 0 * EI / llstr L 0) vzero w ltac:(lra) U U1 eq_refl) as W.
  match type of W with ?a + ?b = _ => replace a with 0 in W by (generalize (lqA L) (cross (lqA L) (lqs L 0)); intros [] []; unfold dot, vscale, cross, vzero; cbn; ring) end.
  rewrite Rplus_0_l in W. rewrite W. change (llstr L 0) with (norm (seg L 0)). clear W. generalize (dot (lqA L) w) (dot (lqs L 0) w) (lKurv L 0). intros. field. split; lra.
Qed.
(* end B *)
Lemma work_B L p t : (0 < lN L)%nat -> moves_as L p t -> lcantB L = true -> lisEI L = true -> tol < norm (seg L (lN L - 1)) -> dot (lqB L) (lqB L) = 1 -> bent_at (norm (seg L (lN L - 1))) (seg L (lN L - 1)) (lqB L) ->
  lKurv L (lN L) = curvature_B L /\ lKurv L (lN L) <> 0 /\ acts L (lN L) = true /\ exists d, derivable_pt_lim (fun s => angle_B L (p s)) t d /\
  forall EI, dot (endM L (lN L - 1) (lN L) EI) (vsub (lrd L (lN L - 1)) (lrd L (lN L))) = - (EI * lKurv L (lN L) * d).
Proof.
  intros HN HM HA HE H1 U (B1 & B2 & B3). pose proof tol_pos as TP. set (i := (lN L - 1)%nat) in *. assert (EN : lN L = S i) by lia.
  destruct (unit_is_unit _ _ H1) as [U1 D1]. fold (lqs L i) in D1, U1. fold (seg L i) in D1.
  assert (C : cos_between (seg L i) (lqB L) = dot (lqs L i) (lqB L)).
  { unfold cos_between. rewrite (unit_norm _ U). rewrite D1 at 1. set (n := norm (seg L i)) in *. replace (dot (vscale n (lqs L i)) (lqB L)) with (n * dot (lqs L i) (lqB L)) by (generalize (lqB L) (lqs L i); vring). field. lra. }
  assert (HQ : lq L (lN L) = lqB L) by (unfold lq; destruct (Nat.eqb_spec (lN L) 0); [lia|]; rewrite Nat.eqb_refl, HA, HE; reflexivity).
  assert (HAn : angle_B L (lr L) = acos (cos_between (seg L i) (lqB L))) by (unfold angle_B, seg; fold i; rewrite EN; reflexivity).
  unfold curvature_B. fold i. rewrite HAn. rewrite C in *. set (c := dot (lqs L i) (lqB L)) in *.
  assert (C1 : 0 < 1 - c * c). { destruct (Rlt_le_dec 0 (1 - c * c)) as [X|X]; [exact X|]. rewrite sqrt_neg_0 in B3 by exact X. lra. }
  assert (CM : -1 < c < 1) by nra. rewrite half_sine by lra.
  assert (K : lKurv L (lN L) = 4 / norm (seg L i) * sqrt ((1 - c) / 2)).
  { unfold lKurv. destruct (Nat.eqb_spec (lN L) 0); [lia|]. rewrite Nat.eqb_refl, HA, HQ. fold i. unfold getCurvature. fold c. destruct (Rlt_dec _ _); [lra|]. change (llstr L i) with (norm (seg L i)). do 2 f_equal. lra. }
  assert (E0 : equalRealNos (lKurv L (lN L)) 0 = false) by (rewrite K; now apply eq0_false).
  split; [exact K|]. split; [rewrite K; intro Z; rewrite Z in B2; lra|]. split; [unfold acts; destruct (Nat.eqb_spec (lN L) 0); [lia|]; rewrite Nat.eqb_refl, HA, E0; reflexivity|].
  assert (SN : norm (cross (lqs L i) (lqB L)) = sqrt (1 - c * c)) by (unfold norm; rewrite cross_sq, U, U1; f_equal; unfold c; ring).
  assert (P : lpvec L (lN L) = vscale (/ sqrt (1 - c * c)) (cross (lqs L i) (lqB L))).
  { unfold lpvec. cbv zeta. rewrite E0. destruct (Nat.eqb_spec (lN L) 0); [lia|]. rewrite Nat.eqb_refl. fold i. rewrite HQ, SN, eq0_false by exact B3. reflexivity. }
  assert (C' : dot (lqB L) (lqs L i) = c) by (unfold c, dot; ring).
  destruct (fixed_angle L p t i (lqB L) c HM H1 U C' CM) as (_ & D). eexists. split.
  { refine (deriv_ext2 _ _ _ _ _ D). intros s. unfold angle_B. fold i. rewrite EN, cos_sym. reflexivity. }
  intros EI. unfold endM. rewrite P. rewrite EN. set (w := vsub (lrd L (S i)) (lrd L i)) in *.
  replace (vsub (lrd L i) (lrd L (S i))) with (vscale (-1) w) by (unfold w; generalize (lrd L i) (lrd L (S i)); vring).
  pose proof (bend_work_any (lqs L i) (lqB L) (sqrt (1 - c * c)) c (lKurv L (S i) * EI / llstr L i) 0 w vzero ltac:(lra) U1 U eq_refl) as W.
  match type of W with ?a + ?b = _ => replace b with 0 in W by (generalize (lqB L) (cross (lqs L i) (lqB L)); intros [] []; unfold dot, vscale, cross, vzero; cbn; ring) end.
  rewrite Rplus_0_r in W. rewrite W. replace (dot w (lqB L)) with (dot (lqB L) w) by (unfold dot; ring). change (llstr L i) with (norm (seg L i)). clear W. generalize (dot (lqB L) w) (dot (lqs L i) w) (lKurv L (S i)). intros. field. split; lra.
Qed.
Lemma moment_from L K E : lEIat L K = Some E -> K <> 0 -> moment_at L K (E * K).
Proof.
  intros E1 KZ. unfold lEIat in E1. unfold moment_at.
  destruct (lbx L) as [|x xs] eqn:EX; cbn [length Nat.eqb negb] in E1; [injection E1 as <-; reflexivity|].
  unfold getNonlinearEI in E1. rewrite EX in E1. destruct (interp (x :: xs) (lby L) K) as [Y| | |] eqn:EI; cbn [oval obnd] in E1; try discriminate.
  unfold fdiv in E1. destruct (Req_EM_T K 0); [congruence|]. injection E1 as E1. f_equal. rewrite <- E1. field. exact KZ.
Qed.
Lemma clamped_power L p t Bs : (0 < lN L)%nat -> lisEI L = true -> lBs L = Some Bs -> long L -> moves_as L p t ->
  (forall i, (S i < lN L)%nat -> bent (seg L i) (seg L (S i))) -> ends_bent L ->
  exists m d mA dA mB dB, (forall i, (S i < lN L)%nat -> moment_of L i (m i) /\ derivable_pt_lim (fun s => angle (p s) i) t (d i)) /\
    clamp_bend (lcantA L) L (curvature_A L) (fun s => angle_A L (p s)) t mA dA /\ clamp_bend (lcantB L) L (curvature_B L) (fun s => angle_B L (p s)) t mB dB /\
    power L Bs = - nsum (lN L - 1) (fun i => m i * d i) - mA * dA - mB * dB.
Proof.
  intros HN IE HBs HL HM HBt (EA & EB).
  assert (Q := fun i (Hi : (i < lN L - 1)%nat) => bend_turn L p t i ltac:(lia) HM ltac:(apply HL; lia) ltac:(apply HL; lia) ltac:(apply HBt; lia)).
  destruct (choose_below (lN L - 1) _ (fun i Hi => proj2 (proj2 (proj2 (Q i Hi))))) as [d Hd].
  destruct (power_pieces L Bs HN IE HBs) as (E & E1 & PW).
  assert (AI : forall i, (i < lN L - 1)%nat -> acts L (S i) = true).
  { intros i Hi. unfold acts. destruct (Nat.eqb_spec (S i) 0); [lia|]. destruct (Nat.eqb_spec (S i) (lN L)); [lia|]. destruct (Q i Hi) as (_ & _ & -> & _). reflexivity. }
  assert (A : exists mA dA, clamp_bend (lcantA L) L (curvature_A L) (fun s => angle_A L (p s)) t mA dA /\
     (if acts L 0 then dot (endM L 0 0 (E 0%nat)) (vsub (lrd L 1) (lrd L 0)) else 0) = - (mA * dA)).
  { unfold clamp_bend. destruct (lcantA L) eqn:HA.
    - destruct (EA eq_refl) as (U & B). destruct (work_A L p t HN HM HA IE ltac:(apply HL; lia) U B) as (K & KZ & AC & dA & DA & W). rewrite AC. exists (E 0%nat * lKurv L 0), dA.
      split; [split; [rewrite <- K; apply moment_from; [apply E1; [lia|exact AC]|exact KZ]|exact DA]|apply W].
    - exists 0, 0. split; [reflexivity|]. assert (acts L 0 = false) as -> by (unfold acts; cbn [Nat.eqb]; rewrite HA; reflexivity). ring. }
  assert (B : exists mB dB, clamp_bend (lcantB L) L (curvature_B L) (fun s => angle_B L (p s)) t mB dB /\
     (if acts L (lN L) then dot (endM L (lN L - 1) (lN L) (E (lN L))) (vsub (lrd L (lN L - 1)) (lrd L (lN L))) else 0) = - (mB * dB)).
  { unfold clamp_bend. destruct (lcantB L) eqn:HB.
    - destruct (EB eq_refl) as (U & B). destruct (work_B L p t HN HM HB IE ltac:(apply HL; lia) U B) as (K & KZ & AC & dB & DB & W). rewrite AC. exists (E (lN L) * lKurv L (lN L)), dB.
      split; [split; [rewrite <- K; apply moment_from; [apply E1; [lia|exact AC]|exact KZ]|exact DB]|apply W].
    - exists 0, 0. split; [reflexivity|]. assert (acts L (lN L) = false) as -> by (unfold acts; destruct (Nat.eqb_spec (lN L) 0); [lia|]; rewrite Nat.eqb_refl, HB; reflexivity). ring. }
  destruct A as (mA & dA & CA & WA). destruct B as (mB & dB & CB & WB).
  exists (fun i => E (S i) * lKurv L (S i)), d, mA, dA, mB, dB. split; [|split; [exact CA|split; [exact CB|]]].
  - intros i Hi. split; [|apply Hd; lia]. destruct (Q i ltac:(lia)) as (K & KZ & _). unfold moment_of. rewrite <- K. apply moment_from; [apply E1; [lia|apply AI; lia]|exact KZ].
  - rewrite PW, WA, WB. rewrite (nsum_ext _ _ (fun i => -1 * (E (S i) * lKurv L (S i) * d i))).
    2:{ intros i Hi. rewrite AI by exact Hi. unfold inner_work. rewrite (proj2 (Hd i Hi)). ring. }
    rewrite nsum_scale. ring.
Qed.
Lemma clamped_balance : forall L G e k F p t, (0 < lN L)%nat -> lisEI L = true -> stores L G ->
  (forall i, (i < lN L)%nat -> 0 < ll L i /\ tol < norm (seg L i)) -> (forall i, (S i < lN L)%nat -> bent (seg L i) (seg L (S i))) -> ends_bent L ->
  line_forces L e k = Some F -> moves_as L p t ->
  exists dU Y m d mA dA mB dB, derivable_pt_lim (fun s => strain_energy L G (p s)) t dU /\
    (forall i, (i < lN L)%nat -> damping_stress L (stretch_rate L i / ll L i) (Y i)) /\
    (forall i, (S i < lN L)%nat -> moment_of L i (m i) /\ derivable_pt_lim (fun s => angle (p s) i) t (d i)) /\
    clamp_bend (lcantA L) L (curvature_A L) (fun s => angle_A L (p s)) t mA dA /\ clamp_bend (lcantB L) L (curvature_B L) (fun s => angle_B L (p s)) t mB dB /\
    power L (internal L e k F) = - dU - nsum (lN L) (fun i => larea L * Y i * stretch_rate L i) - nsum (lN L - 1) (fun i => m i * d i) - mA * dA - mB * dB.
Proof.
  intros L G e k F p t HN IE HG Hl HBt HEb H HM.
  destruct (forces_some L e k F H) as [_ [_ [_ [HT HTd]]]].
  destruct (internal_power_bs L e k F HN H) as (Bs & EB & P).
  assert (HL : long L) by (intros i Hi; apply Hl; exact Hi).
  destruct (clamped_power L p t Bs HN IE EB HL HM HBt HEb) as (m & d & mA & dA & mB & dB & Hd & CA & CB & PB).
  destruct (choose_below (lN L) (fun i y => damping_stress L (stretch_rate L i / ll L i) y /\
    dot (force_or_zero (lTd L) i) (vsub (lrd L (S i)) (lrd L i)) = larea L * y * stretch_rate L i)) as [Y HY].
  { intros i Hi. destruct (Hl i Hi). apply damping_rate; [assumption|assumption|]. specialize (HTd i Hi). rewrite HTd. discriminate. }
  eexists. exists Y, m, d, mA, dA, mB, dB. split; [|split; [intros i Hi; apply HY; exact Hi|split; [exact Hd|split; [exact CA|split; [exact CB|]]]]].
  - unfold strain_energy. apply (nsum_deriv (lN L) (fun s i => larea L * ll L i * G ((norm (vsub (p s (S i)) (p s i)) - ll L i) / ll L i))).
    intros i Hi. destruct (Hl i Hi). apply stored_rate; try assumption. specialize (HT i Hi). rewrite HT. discriminate.
  - rewrite P, PB.
    rewrite (nsum_ext _ _ _ (fun i _ => dot_lin (force_or_zero (lT L) i) (force_or_zero (lTd L) i) (vsub (lrd L (S i)) (lrd L i)))).
    rewrite nsum_add.
    rewrite (nsum_ext (lN L) (fun i => dot (force_or_zero (lTd L) i) (vsub (lrd L (S i)) (lrd L i))) _ (fun i Hi => proj2 (HY i Hi))). ring.
Qed.
