(** Proofs about bending moments at the ends of lines with a bending curve. *)
From Coq Require Import Reals List Arith ZArith Bool Lra Lia Psatz.
From Verif Require Import MErr MVec MStateOps MMat MInterp MLine MRod MBody MEnd SMat SLine SBody SEnd SEndM PMat PLine PLineB PLineE PBody PEnd.
Import ListNotations.
Open Scope R_scope.

Lemma isEI_curve L : lbx L <> [] -> lisEI L = true.
Proof. intro H. unfold lisEI. destruct (lbx L); [congruence|]. cbn. now rewrite Bool.orb_true_r. Qed.
Lemma curve_EI L K Y : lbx L <> [] -> K <> 0 -> interp (lbx L) (lby L) K = Ok Y -> lEIat L K = Some (Y / K).
Proof.
  intros H KZ E. unfold lEIat, getNonlinearEI. destruct (lbx L) as [|x xs] eqn:EX; [congruence|]. cbn [length Nat.eqb negb]. rewrite E. cbn [oval obnd]. unfold fdiv. destruct (Req_EM_T K 0); [contradiction|reflexivity].
Qed.
Lemma clear_pos l u v : clear l u v -> 4 / l * sqrt ((1 - dot u v) / 2) <> 0 /\ norm (cross u v) <> 0.
Proof. intros (_ & H2 & H3). pose proof tol_pos. split; lra. Qed.
Lemma curve_A L m : lbx L <> [] -> tol < end_length L 0 -> bends_by_curve L 0 m -> adds L 0 = vscale (-1) m.
Proof.
  intros HB HT H. unfold adds. cbn [Nat.eqb]. unfold bends_by_curve, end_curvature, end_clamped, bend_from, bend_to, end_dir in H. cbn [is_B Z.eqb] in H.
  assert (KK : lcantA L = true -> lKurv L 0 = getCurvature (end_length L 0) (lqA L) (end_unit L 0)).
  { intro C. unfold lKurv. cbn [Nat.eqb]. rewrite C. unfold lq. cbn [Nat.eqb]. rewrite C, (isEI_curve L HB). cbn [negb orb]. now rewrite (unit_A L HT). }
  assert (PP : lcantA L = true -> lpvec L 0 = if equalRealNos (lKurv L 0) 0 then vzero else let p := cross (lqA L) (end_unit L 0) in if equalRealNos (norm p) 0 then p else vscale (/ norm p) p).
  { intro C. unfold lpvec. cbn [Nat.eqb]. unfold lq. cbn [Nat.eqb]. rewrite C, (isEI_curve L HB). cbn [negb orb]. now rewrite (unit_A L HT). }
  destruct H as [(C & ->)|[(C & S & ->)|(C & S & Y & EY & ->)]]; rewrite C.
  - destruct (lEIat L (lKurv L 0)); vring.
  - rewrite (PP C), (KK C), (curve_straight _ _ _ S), eq0_zero. destruct (lEIat L 0); vring.
  - rewrite (PP C), (KK C). destruct (curve_clear _ _ _ S) as (E1 & E2 & E3). destruct (clear_pos _ _ _ S) as (K0 & N0). rewrite E2. cbv zeta. rewrite E3, E1, (curve_EI L _ Y HB K0 EY).
    set (K := 4 / _ * _) in *. clearbody K. clear -K0 N0. revert N0. generalize (norm (cross (lqA L) (end_unit L 0))). generalize (cross (lqA L) (end_unit L 0)). intros [x y z] n Hn. unfold vscale. cbn. f_equal; field; split; assumption.
Qed.
Lemma curve_B L m : (0 < lN L)%nat -> lbx L <> [] -> tol < end_length L 1 -> bends_by_curve L 1 m -> adds L (lN L) = m.
Proof.
  intros HN HB HT H. unfold adds. destruct (Nat.eqb_spec (lN L) 0) as [|NZ]; [lia|]. rewrite Nat.eqb_refl. unfold bends_by_curve, end_curvature, end_clamped, bend_from, bend_to, end_dir in H. cbn [is_B Z.eqb Pos.eqb] in H.
  assert (QQ : lcantB L = true -> lq L (lN L) = lqB L). { intro C. unfold lq. rewrite (proj2 (Nat.eqb_neq _ _) NZ), Nat.eqb_refl, C, (isEI_curve L HB). reflexivity. }
  assert (KK : lcantB L = true -> lKurv L (lN L) = getCurvature (end_length L 1) (end_unit L 1) (lqB L)).
  { intro C. unfold lKurv. rewrite (proj2 (Nat.eqb_neq _ _) NZ), Nat.eqb_refl, C, (QQ C), (unit_B L HT). now rewrite (len_B L HN). }
  assert (PP : lcantB L = true -> lpvec L (lN L) = if equalRealNos (lKurv L (lN L)) 0 then vzero else let p := cross (end_unit L 1) (lqB L) in if equalRealNos (norm p) 0 then p else vscale (/ norm p) p).
  { intro C. unfold lpvec. rewrite (proj2 (Nat.eqb_neq _ _) NZ), Nat.eqb_refl, (QQ C), (unit_B L HT). reflexivity. }
  destruct H as [(C & ->)|[(C & S & ->)|(C & S & Y & EY & ->)]]; rewrite C.
  - destruct (lEIat L (lKurv L (lN L))); reflexivity.
  - rewrite (PP C), (KK C), (curve_straight _ _ _ S), eq0_zero. destruct (lEIat L 0); vring.
  - rewrite (PP C), (KK C). destruct (curve_clear _ _ _ S) as (E1 & E2 & E3). destruct (clear_pos _ _ _ S) as (K0 & N0). rewrite E2. cbv zeta. rewrite E3, E1, (curve_EI L _ Y HB K0 EY).
    set (K := 4 / _ * _) in *. clearbody K. clear -K0 N0. revert N0. generalize (norm (cross (end_unit L 1) (lqB L))). generalize (cross (end_unit L 1) (lqB L)). intros [x y z] n Hn. unfold vscale. cbn. f_equal; field; split; assumption.
Qed.
Lemma clamped_curve L e k F mA mB : (0 < lN L)%nat -> long L -> lbx L <> [] -> line_forces L e k = Some F -> bends_by_curve L 0 mA -> bends_by_curve L 1 mB ->
  forall o, vsum (lN L + 1) (fun i => cross (vsub (lr L i) o) (internal L e k F i)) = vsub mB mA.
Proof.
  intros HN HL HB HF HA HBB o.
  rewrite (vsum_ext _ _ (fun i => vadd (cross (lr L i) (internal L e k F i)) (cross (vscale (-1) o) (internal L e k F i)))).
  2:{ intros i Hi. generalize (lr L i) (internal L e k F i). vring. }
  rewrite vsum_add, cross_vsum, (internal_sum L e k F HN HF). destruct (internal_is_bends L e k F HN HF) as (Bs & EB & ->).
  unfold lBs in EB. rewrite (isEI_curve L HB) in EB. rewrite (bend_adds L (lN L + 1) Bs HL HN ltac:(lia) EB), (adds_ends L HN).
  rewrite (curve_A L mA HB (long_end L 0 HL HN) HA), (curve_B L mB HN HB (long_end L 1 HL HN) HBB). generalize mA mB. vring.
Qed.
