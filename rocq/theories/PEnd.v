(** Proofs about the ends of lines at rods. *)
From Coq Require Import Reals List Arith ZArith Bool Lra Lia Psatz.
From Verif Require Import MErr MVec MStateOps MMat MInterp MLine MRod MBody MEnd SMat SLine SEnd PMat PLine PLineB PLineE.
Import ListNotations.
Open Scope R_scope.

(* ----- the moment of the internal forces ----- *)
Lemma perp_A L : (0 < lN L)%nat -> dot (lqs L 0) (lpvec L 0) = 0.
Proof.
  intro H. unfold lpvec. destruct (equalRealNos _ _); [unfold vzero, dot; cbn; ring|]. cbn [Nat.eqb].
  destruct (equalRealNos _ _); generalize (lq L 0) (lqs L 0); intros [] []; unfold dot, cross, vscale; cbn; ring.
Qed.
Lemma perp_B L : (0 < lN L)%nat -> dot (lqs L (lN L - 1)) (lpvec L (lN L)) = 0.
Proof.
  intro H. unfold lpvec. destruct (equalRealNos _ _); [unfold vzero, dot; cbn; ring|]. destruct (Nat.eqb_spec (lN L) 0); [lia|]. rewrite Nat.eqb_refl.
  destruct (equalRealNos _ _); generalize (lqs L (lN L - 1)) (lq L (lN L)); intros [] []; unfold dot, cross, vscale; cbn; ring.
Qed.
(** what a node adds to the moment *)
Definition adds (L : line) (i : nat) : v3 :=
  match lEIat L (lKurv L i) with
  | Some EI => if Nat.eqb i 0 then (if lcantA L then vscale (- (lKurv L i * EI)) (lpvec L i) else vzero)
               else if Nat.eqb i (lN L) then (if lcantB L then vscale (lKurv L i * EI) (lpvec L i) else vzero) else vzero
  | None => vzero
  end.
Lemma zero_bend L i : equalRealNos (lKurv L i) 0 = true -> lpvec L i = vzero.
Proof. intro H. unfold lpvec. now rewrite H. Qed.
Lemma scale_vzero k : vscale k vzero = vzero. Proof. vring. Qed.
Lemma bend1_adds L i Bs Bs' : long L -> (0 < lN L)%nat -> (i <= lN L)%nat -> bend1 L i Bs = Some Bs' ->
  vsum (lN L + 1) (fun j => cross (lr L j) (Bs' j)) = vadd (vsum (lN L + 1) (fun j => cross (lr L j) (Bs j))) (adds L i).
Proof.
  intros HL HN Hi H. unfold bend1 in H. cbv zeta in H. unfold adds. pose proof tol_pos as TP.
  destruct (equalRealNos (lKurv L i) 0) eqn:EK.
  { injection H as <-. rewrite (zero_bend L i EK). assert (Z : forall x : v3, x = vadd x vzero) by vring. destruct (lEIat L (lKurv L i)); destruct (Nat.eqb i 0), (lcantA L), (Nat.eqb i (lN L)), (lcantB L); rewrite ?scale_vzero; apply Z. }
  destruct (Nat.eqb_spec i 0) as [->|E0]; [|destruct (Nat.eqb_spec i (lN L)) as [->|EN]].
  - destruct (lcantA L). 2:{ injection H as <-. destruct (lEIat L _); generalize (vsum (lN L + 1) (fun j => cross (lr L j) (Bs j))); vring. }
    apply obnd_some in H. destruct H as (EI & EE & H). rewrite EE. injection H as <-. rewrite !bump_moment by lia.
    assert (L2 := HL 0%nat HN). destruct (unit_is_unit _ _ L2) as [U2 D2]. change (fst (unitvector (lr L 0) (lr L 1))) with (lqs L 0) in U2, D2.
    assert (C2 := cross_double _ _ U2 (perp_A L HN)). change (llstr L 0) with (norm (vsub (lr L 1) (lr L 0))). cbn [Nat.add].
    set (n2 := norm (vsub (lr L 1) (lr L 0))) in *. set (ke := lKurv L 0 * EI). set (p := lpvec L 0) in *. set (q2 := lqs L 0) in *.
    replace (lr L 1) with (vadd (lr L 0) (vscale n2 q2)) by (rewrite <- D2; generalize (lr L 0%nat) (lr L 1%nat); vring).
    transitivity (vadd (vsum (lN L + 1) (fun j => cross (lr L j) (Bs j))) (vscale (n2 * (ke / n2)) (cross q2 (cross q2 p)))).
    + generalize (vsum (lN L + 1) (fun j => cross (lr L j) (Bs j))) (lr L 0) q2 p n2 (ke / n2). vring.
    + rewrite C2. replace (n2 * (ke / n2)) with ke by (field; lra). generalize (vsum (lN L + 1) (fun j => cross (lr L j) (Bs j))) p. vring.
  - destruct (lcantB L). 2:{ injection H as <-. destruct (lEIat L _); generalize (vsum (lN L + 1) (fun j => cross (lr L j) (Bs j))); vring. }
    apply obnd_some in H. destruct H as (EI & EE & H). rewrite EE. injection H as <-. rewrite !bump_moment by lia.
    assert (L1 := HL (lN L - 1)%nat ltac:(lia)). replace (S (lN L - 1)) with (lN L) in L1 by lia. destruct (unit_is_unit _ _ L1) as [U1 D1].
    assert (Q1 : fst (unitvector (lr L (lN L - 1)) (lr L (lN L))) = lqs L (lN L - 1)) by (unfold lqs; replace (S (lN L - 1)) with (lN L) by lia; reflexivity).
    assert (S1 : llstr L (lN L - 1) = norm (vsub (lr L (lN L)) (lr L (lN L - 1)))) by (unfold llstr; replace (S (lN L - 1)) with (lN L) by lia; reflexivity).
    rewrite Q1 in U1, D1. assert (C1 := cross_double _ _ U1 (perp_B L HN)). rewrite S1.
    set (n1 := norm (vsub (lr L (lN L)) (lr L (lN L - 1)))) in *. set (ke := lKurv L (lN L) * EI). set (p := lpvec L (lN L)) in *. set (q1 := lqs L (lN L - 1)) in *.
    replace (lr L (lN L - 1)) with (vsub (lr L (lN L)) (vscale n1 q1)) by (rewrite <- D1; generalize (lr L (lN L)) (lr L (lN L - 1)%nat); vring).
    transitivity (vadd (vsum (lN L + 1) (fun j => cross (lr L j) (Bs j))) (vscale (- (n1 * (ke / n1))) (cross q1 (cross q1 p)))).
    + generalize (vsum (lN L + 1) (fun j => cross (lr L j) (Bs j))) (lr L (lN L)) q1 p n1 (ke / n1). vring.
    + rewrite C1. replace (n1 * (ke / n1)) with ke by (field; lra). generalize (vsum (lN L + 1) (fun j => cross (lr L j) (Bs j))) p. vring.
  - apply obnd_some in H. destruct H as (EI & EE & H). rewrite EE. injection H as <-. rewrite !bump_moment by lia.
    destruct (pvec_perp L i ltac:(lia)) as [P1 P2]. assert (L1 := HL (i - 1)%nat ltac:(lia)). assert (L2 := HL i ltac:(lia)). replace (S (i - 1)) with i in L1 by lia.
    destruct (unit_is_unit _ _ L1) as [U1 D1]. destruct (unit_is_unit _ _ L2) as [U2 D2].
    assert (Q1 : fst (unitvector (lr L (i - 1)) (lr L i)) = lqs L (i - 1)) by (unfold lqs; replace (S (i - 1)) with i by lia; reflexivity).
    assert (S1 : llstr L (i - 1) = norm (vsub (lr L i) (lr L (i - 1)))) by (unfold llstr; replace (S (i - 1)) with i by lia; reflexivity).
    rewrite Q1 in U1, D1. change (fst (unitvector (lr L i) (lr L (S i)))) with (lqs L i) in U2, D2. change (llstr L i) with (norm (vsub (lr L (S i)) (lr L i))). rewrite S1. replace (i + 1)%nat with (S i) by lia.
    set (n1 := norm (vsub (lr L i) (lr L (i - 1)))) in *. set (n2 := norm (vsub (lr L (S i)) (lr L i))) in *. set (ke := lKurv L i * EI). set (p := lpvec L i) in *. set (q1 := lqs L (i - 1)) in *. set (q2 := lqs L i) in *.
    assert (C1 := cross_double q1 p U1 P1). assert (C2 := cross_double q2 p U2 P2). set (X := vsum (lN L + 1) (fun j => cross (lr L j) (Bs j))).
    replace (lr L (i - 1)) with (vsub (lr L i) (vscale n1 q1)) by (rewrite <- D1; generalize (lr L i) (lr L (i - 1)%nat); vring).
    replace (lr L (S i)) with (vadd (lr L i) (vscale n2 q2)) by (rewrite <- D2; generalize (lr L i) (lr L (S i)); vring).
    transitivity (vadd X (vadd (vscale (- (n1 * (ke / n1))) (cross q1 (cross q1 p))) (vscale (n2 * (ke / n2)) (cross q2 (cross q2 p))))).
    + generalize X (lr L i) q1 q2 p n1 n2 (ke / n1) (ke / n2). vring.
    + rewrite C1, C2. replace (n1 * (ke / n1)) with ke by (field; lra). replace (n2 * (ke / n2)) with ke by (field; lra). generalize X p. vring.
Qed.
Lemma bend_adds L n Bs : long L -> (0 < lN L)%nat -> (n <= lN L + 1)%nat -> bend L n = Some Bs -> vsum (lN L + 1) (fun j => cross (lr L j) (Bs j)) = vsum n (adds L).
Proof.
  intros HL HN. revert Bs. induction n as [|n IH]; intros Bs Hn H; cbn [bend vsum] in *.
  - injection H as <-. apply vsum_zero. intros. generalize (lr L i). vring.
  - apply obnd_some in H. destruct H as (B0 & E & H). rewrite (bend1_adds L n B0 Bs HL HN ltac:(lia) H). rewrite (IH B0 ltac:(lia) E). reflexivity.
Qed.
Lemma adds_ends L : (0 < lN L)%nat -> vsum (lN L + 1) (adds L) = vadd (adds L 0) (adds L (lN L)).
Proof.
  intro HN. destruct (lN L) as [|m] eqn:E; [lia|]. replace (S m + 1)%nat with (S (S m)) by lia. cbn [vsum].
  assert (G : forall n, (n <= m)%nat -> vsum (S n) (adds L) = adds L 0).
  { induction n as [|n IH]; intro Hn; [cbn [vsum]; generalize (adds L 0); vring|]. change (vsum (S (S n)) (adds L)) with (vadd (vsum (S n) (adds L)) (adds L (S n))). rewrite IH by lia.
    assert (Z : adds L (S n) = vzero). { unfold adds. destruct (lEIat L _); [|reflexivity]. destruct (Nat.eqb_spec (S n) 0); [lia|]. destruct (Nat.eqb_spec (S n) (lN L)); [lia|reflexivity]. }
    rewrite Z. generalize (adds L 0). vring. }
  change (vadd (vsum m (adds L)) (adds L m)) with (vsum (S m) (adds L)). now rewrite G by lia.
Qed.
Lemma len_A L : llstr L 0 = end_length L 0. Proof. reflexivity. Qed.
Lemma len_B L : (0 < lN L)%nat -> llstr L (lN L - 1) = end_length L 1.
Proof. intro H. unfold end_length, end_seg, seg, llstr. cbn [is_B Z.eqb Pos.eqb]. reflexivity. Qed.
Lemma unit_seg L i : tol < norm (seg L i) -> lqs L i = vscale (/ norm (seg L i)) (seg L i).
Proof. intro H. unfold lqs, unitvector. cbn [fst]. fold (seg L i). now rewrite eq0_false by exact H. Qed.
Lemma unit_A L : tol < end_length L 0 -> lqs L 0 = end_unit L 0. Proof. exact (unit_seg L 0). Qed.
Lemma unit_B L : tol < end_length L 1 -> lqs L (lN L - 1) = end_unit L 1. Proof. exact (unit_seg L (lN L - 1)). Qed.
Lemma curve_straight l u v : straight u v -> getCurvature l u v = 0.
Proof. intro H. unfold getCurvature. destruct (Rlt_dec _ _); [reflexivity|contradiction]. Qed.
Lemma curve_clear l u v : clear l u v -> getCurvature l u v = 4 / l * sqrt ((1 - dot u v) / 2) /\ equalRealNos (getCurvature l u v) 0 = false /\ equalRealNos (norm (cross u v)) 0 = false.
Proof.
  intros (H1 & H2 & H3). assert (E : getCurvature l u v = 4 / l * sqrt ((1 - dot u v) / 2)). { unfold getCurvature. destruct (Rlt_dec _ _); [lra|]. do 2 f_equal. lra. }
  split; [exact E|]. rewrite E. split; now apply eq0_false.
Qed.
Lemma eq0_zero : equalRealNos 0 0 = true.
Proof. apply eq0_spec; pose proof tol_pos; lra. Qed.
Lemma linear_EI L K : lbx L = [] -> lEIat L K = Some (lEI L). Proof. intro H. unfold lEIat. now rewrite H. Qed.
Lemma isEI_pos L : 0 < lEI L -> lisEI L = true. Proof. intro H. unfold lisEI. destruct (Rlt_dec _ _); [reflexivity|contradiction]. Qed.
Lemma adds_A L m : (0 < lN L)%nat -> lbx L = [] -> 0 < lEI L -> tol < end_length L 0 -> bends L 0 m -> adds L 0 = vscale (-1) m.
Proof.
  intros HN HB HE HT H. unfold adds. rewrite (linear_EI _ _ HB). cbn [Nat.eqb]. unfold bends, end_clamped, bend_from, bend_to, end_dir in H. cbn [is_B Z.eqb] in H.
  assert (KK : lcantA L = true -> lKurv L 0 = getCurvature (end_length L 0) (lqA L) (end_unit L 0)).
  { intro C. unfold lKurv. cbn [Nat.eqb]. rewrite C. unfold lq. cbn [Nat.eqb]. rewrite C, (isEI_pos L HE). cbn [negb orb]. now rewrite (unit_A L HT). }
  assert (PP : lcantA L = true -> lpvec L 0 = if equalRealNos (lKurv L 0) 0 then vzero else let p := cross (lqA L) (end_unit L 0) in if equalRealNos (norm p) 0 then p else vscale (/ norm p) p).
  { intro C. unfold lpvec. cbn [Nat.eqb]. unfold lq. cbn [Nat.eqb]. rewrite C, (isEI_pos L HE). cbn [negb orb]. now rewrite (unit_A L HT). }
  destruct H as [(C & ->)|[(C & S & ->)|(C & S & ->)]]; rewrite C.
  - vring.
  - rewrite (PP C), (KK C), (curve_straight _ _ _ S), eq0_zero. vring.
  - rewrite (PP C), (KK C). destruct (curve_clear _ _ _ S) as (E1 & E2 & E3). rewrite E2. cbv zeta. rewrite E3, E1. unfold bending_moment. generalize (cross (lqA L) (end_unit L 0)). intros [x y z]. unfold vscale. cbn. f_equal; unfold Rdiv; ring.
Qed.
Lemma adds_B L m : (0 < lN L)%nat -> lbx L = [] -> 0 < lEI L -> tol < end_length L 1 -> bends L 1 m -> adds L (lN L) = m.
Proof.
  intros HN HB HE HT H. unfold adds. rewrite (linear_EI _ _ HB). destruct (Nat.eqb_spec (lN L) 0) as [|NZ]; [lia|]. rewrite Nat.eqb_refl. unfold bends, end_clamped, bend_from, bend_to, end_dir in H. cbn [is_B Z.eqb Pos.eqb] in H.
  assert (QQ : lcantB L = true -> lq L (lN L) = lqB L). { intro C. unfold lq. rewrite (proj2 (Nat.eqb_neq _ _) NZ), Nat.eqb_refl, C, (isEI_pos L HE). reflexivity. }
  assert (KK : lcantB L = true -> lKurv L (lN L) = getCurvature (end_length L 1) (end_unit L 1) (lqB L)).
  { intro C. unfold lKurv. rewrite (proj2 (Nat.eqb_neq _ _) NZ), Nat.eqb_refl, C, (QQ C), (unit_B L HT). now rewrite (len_B L HN). }
  assert (PP : lcantB L = true -> lpvec L (lN L) = if equalRealNos (lKurv L (lN L)) 0 then vzero else let p := cross (end_unit L 1) (lqB L) in if equalRealNos (norm p) 0 then p else vscale (/ norm p) p).
  { intro C. unfold lpvec. rewrite (proj2 (Nat.eqb_neq _ _) NZ), Nat.eqb_refl, (QQ C), (unit_B L HT). reflexivity. }
  destruct H as [(C & ->)|[(C & S & ->)|(C & S & ->)]]; rewrite C.
  - reflexivity.
  - rewrite (PP C), (KK C), (curve_straight _ _ _ S), eq0_zero. vring.
  - rewrite (PP C), (KK C). destruct (curve_clear _ _ _ S) as (E1 & E2 & E3). rewrite E2. cbv zeta. rewrite E3, E1. unfold bending_moment. generalize (cross (end_unit L 1) (lqB L)). intros [x y z]. unfold vscale. cbn. f_equal; unfold Rdiv; ring.
Qed.
Lemma long_end L ep : long L -> (0 < lN L)%nat -> tol < end_length L ep.
Proof. intros H HN. unfold end_length, end_seg. destruct (is_B ep); apply H; lia. Qed.
Lemma internal_is_bends L e k F : (0 < lN L)%nat -> line_forces L e k = Some F ->
  exists Bs, lBs L = Some Bs /\ vsum (lN L + 1) (fun i => cross (lr L i) (internal L e k F i)) = vsum (lN L + 1) (fun i => cross (lr L i) (Bs i)).
Proof.
  intros HN H. apply forces_some in H. destruct H as [Bs [HB [-> [HT HTd]]]]. exists Bs. split; [exact HB|].
  set (T := force_or_zero (lT L)) in *. set (Td := force_or_zero (lTd L)) in *.
  set (t := fun i => if Nat.eqb i 0 then vadd (T 0%nat) (Td 0%nat)
          else if Nat.eqb i (lN L) then vscale (-1) (vadd (T (i - 1)%nat) (Td (i - 1)%nat))
          else vsub (vadd (T i) (Td i)) (vadd (T (i - 1)%nat) (Td (i - 1)%nat))).
  rewrite (vsum_ext _ _ (fun i => vadd (cross (lr L i) (t i)) (cross (lr L i) (Bs i)))).
  2:{ intros i Hi. rewrite internal_eq. fold (t i). generalize (lr L i) (t i) (Bs i). vring. }
  rewrite vsum_add. replace (vsum (lN L + 1) (fun i => cross (lr L i) (t i))) with vzero; [apply vadd_0_l|]. symmetry.
  rewrite (abel_v (lN L) (fun i => cross (lr L i) (vadd (T i) (Td i))) (fun i => cross (lr L (S i)) (vadd (T i) (Td i)))).
  - apply vsum_zero. intros i Hi. destruct (lT_dir L i _ (HT i Hi)) as [s1 E1]. destruct (lTd_dir L i _ (HTd i Hi)) as [s2 E2]. rewrite E1, E2. generalize (lr L i) (lr L (S i)). vring.
  - exact HN.
  - unfold t. reflexivity.
  - unfold t. destruct (Nat.eqb_spec (lN L) 0); [lia|]. rewrite Nat.eqb_refl.
    replace (S (lN L - 1)) with (lN L) by lia. generalize (lr L (lN L)) (vadd (T (lN L - 1)%nat) (Td (lN L - 1)%nat)). vring.
  - intros i Hi. unfold t. destruct (Nat.eqb_spec i 0); [lia|]. destruct (Nat.eqb_spec i (lN L)); [lia|].
    replace (S (i - 1)) with i by lia. generalize (lr L i) (vadd (T i) (Td i)) (vadd (T (i - 1)%nat) (Td (i - 1)%nat)). vring.
Qed.
Lemma clamped_moment L e k F mA mB : (0 < lN L)%nat -> long L -> lbx L = [] -> 0 < lEI L -> line_forces L e k = Some F -> bends L 0 mA -> bends L 1 mB ->
  forall o, vsum (lN L + 1) (fun i => cross (vsub (lr L i) o) (internal L e k F i)) = vsub mB mA.
Proof.
  intros HN HL HB HE HF HA HBB o.
  rewrite (vsum_ext _ _ (fun i => vadd (cross (lr L i) (internal L e k F i)) (cross (vscale (-1) o) (internal L e k F i)))).
  2:{ intros i Hi. generalize (lr L i) (internal L e k F i). vring. }
  rewrite vsum_add, cross_vsum, (internal_sum L e k F HN HF). destruct (internal_is_bends L e k F HN HF) as (Bs & EB & ->).
  unfold lBs in EB. rewrite (isEI_pos L HE) in EB. rewrite (bend_adds L (lN L + 1) Bs HL HN ltac:(lia) EB), (adds_ends L HN).
  rewrite (adds_A L mA HN HB HE (long_end L 0 HL HN) HA), (adds_B L mB HN HB HE (long_end L 1 HL HN) HBB). generalize mA mB. vring.
Qed.

(* ----- what a rod passes to its lines ----- *)
Lemma prod_eq_dec (x y : nat * Z) : {x = y} + {x <> y}.
Proof. decide equality; [apply Z.eq_dec|apply Nat.eq_dec]. Qed.
Definition inner_same (L L' : line) : Prop :=
  lN L' = lN L /\ lEI L' = lEI L /\ lbx L' = lbx L /\ lby L' = lby L /\ forall j, (0 < j < lN L)%nat -> lr L' j = lr L j /\ lrd L' j = lrd L j.
Lemma inner_refl L : inner_same L L. Proof. repeat split. Qed.
Lemma inner_trans a b c : inner_same a b -> inner_same b c -> inner_same a c.
Proof. intros (A1 & A2 & A3 & A4 & A5) (B1 & B2 & B3 & B4 & B5). repeat split; try congruence; destruct (A5 j H); rewrite A1 in B5; destruct (B5 j H); congruence. Qed.
Definition end_same (L L' : line) (ep : Z) : Prop := end_pos L' ep = end_pos L ep /\ end_vel L' ep = end_vel L ep /\ end_clamped L' ep = end_clamped L ep /\ end_dir L' ep = end_dir L ep.
Lemma set_kin L pos vel ep : an_end ep -> (0 < lN L)%nat -> exists L', setEndKinematics L pos vel ep = Ok L' /\ inner_same L L' /\
  end_pos L' ep = pos /\ end_vel L' ep = vel /\ end_clamped L' ep = false /\ end_dir L' ep = end_dir L ep /\ forall ep', an_end ep' -> ep' <> ep -> end_same L L' ep'.
Proof.
  intros [-> | ->] HN; eexists; (split; [reflexivity|]); (split; [repeat split; cbn; unfold put; intros; destruct (Nat.eqb_spec j 0); try lia; destruct (Nat.eqb_spec j (lN L)); try lia; reflexivity|]);
    unfold end_same, end_pos, end_vel, end_clamped, end_dir, end_node; cbn; unfold put; rewrite ?Nat.eqb_refl; cbn; repeat split; try reflexivity;
    destruct H as [-> | ->]; try congruence; cbn; rewrite ?Nat.eqb_refl; try reflexivity; destruct (lN L); try lia; reflexivity.
Qed.
Lemma set_dir L q ep re : an_end ep -> an_end re -> exists L', setEndOrientation L q ep re = Ok L' /\ inner_same L L' /\
  end_pos L' ep = end_pos L ep /\ end_vel L' ep = end_vel L ep /\ end_clamped L' ep = true /\ end_dir L' ep = vscale (travel ep re) q /\ forall ep', an_end ep' -> ep' <> ep -> end_same L L' ep'.
Proof.
  intros [-> | ->] [-> | ->]; eexists; (split; [reflexivity|]); (split; [repeat split|]);
    unfold end_same, end_pos, end_vel, end_clamped, end_dir, end_node, travel; cbn; repeat split; try reflexivity; try (generalize q; vring);
    destruct H as [-> | ->]; try congruence; reflexivity.
Qed.
Lemma write_same ls i L : write ls i L i = L. Proof. unfold write. now rewrite Nat.eqb_refl. Qed.
Lemma write_other ls i L j : j <> i -> write ls i L j = ls j. Proof. intro H. unfold write. now rewrite (proj2 (Nat.eqb_neq _ _) H). Qed.
Definition good (a : attachments) (ls : lines) : Prop := forall i ep, In (i, ep) a -> an_end ep /\ (0 < lN (ls i))%nat.
Lemma pass_kin a : forall pos vel ls, good a ls -> exists ls', pass_kinematics a pos vel ls = Ok ls' /\ (forall i, inner_same (ls i) (ls' i)) /\
  (forall i ep, In (i, ep) a -> end_pos (ls' i) ep = pos /\ end_vel (ls' i) ep = vel) /\
  (forall i ep, an_end ep -> end_dir (ls' i) ep = end_dir (ls i) ep) /\
  (forall i ep, an_end ep -> ~ In (i, ep) a -> end_same (ls i) (ls' i) ep).
Proof.
  induction a as [|[i0 e0] t IH]; intros pos vel ls G.
  - exists ls. split; [reflexivity|]. split; [intro; apply inner_refl|]. split; [contradiction|]. split; [reflexivity|]. repeat split.
  - destruct (G i0 e0 (or_introl eq_refl)) as [A0 N0]. destruct (set_kin (ls i0) pos vel e0 A0 N0) as (L & E & I & P1 & P2 & P3 & P4 & P5).
    assert (I' : forall i, inner_same (ls i) (write ls i0 L i)). { intro i. destruct (Nat.eq_dec i i0) as [->|Hi]; [now rewrite write_same|rewrite write_other by exact Hi; apply inner_refl]. }
    destruct (IH pos vel (write ls i0 L)) as (ls' & E' & J1 & J2 & J3 & J4). { intros i ep Hi. destruct (G i ep (or_intror Hi)) as [H1 H2]. split; [exact H1|]. destruct (I' i) as (HN & _). now rewrite HN. }
    exists ls'. cbn [pass_kinematics]. rewrite E. cbn [obind]. split; [exact E'|]. split; [intro i; exact (inner_trans _ _ _ (I' i) (J1 i))|].
    assert (W : forall i ep, an_end ep -> (i, ep) <> (i0, e0) -> end_same (ls i) (write ls i0 L i) ep).
    { intros i ep He Hn. destruct (Nat.eq_dec i i0) as [->|Hi]; [rewrite write_same; apply P5; [exact He|congruence]|rewrite write_other by exact Hi; repeat split]. }
    split; [|split].
    + intros i ep Hin. destruct (in_dec (prod_eq_dec) (i, ep) t) as [Ht|Ht]; [now apply J2|]. destruct Hin as [Hh|Hh]; [|contradiction].
      assert (i = i0) by congruence. assert (ep = e0) by congruence. subst. destruct (J4 i0 e0 A0 Ht) as (-> & -> & _). rewrite write_same. now split.
    + intros i ep He. rewrite J3 by exact He. destruct (prod_eq_dec (i, ep) (i0, e0)) as [Hh|Hh]; [assert (i = i0) by congruence; assert (ep = e0) by congruence; subst; now rewrite write_same|]. apply (W i ep He Hh).
    + intros i ep He Hn. assert (H1 : (i, ep) <> (i0, e0)) by (intro H; apply Hn; left; congruence). assert (H2 : ~ In (i, ep) t) by (intro H; apply Hn; now right).
      destruct (W i ep He H1) as (W1 & W2 & W3 & W4). destruct (J4 i ep He H2) as (X1 & X2 & X3 & X4). repeat split; congruence.
Qed.
