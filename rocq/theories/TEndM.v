(** C63: the moment of the forces of clamped lines with a bending curve. *)
From Coq Require Import Reals List Arith ZArith Bool Lra Lia.
From Verif Require Import MErr MVec MStateOps MMat MInterp MLine MRod MBody MEnd SInterp SMat SLine SBody SEnd SEndM PInterp PMat PLine PLineB PLineE PBody PEnd PEndM.
Import ListNotations.
Open Scope R_scope.

(** The forces of a line with a bending curve on its own nodes have the moment of the clamps at its ends and no other: that of
    the bend at B less that of the bend at A. *)
Theorem C63_clamped_curve : forall L e k F mA mB, (0 < lN L)%nat -> long L -> lbx L <> [] -> line_forces L e k = Some F -> bends_by_curve L 0 mA -> bends_by_curve L 1 mB ->
  forall o, vsum (lN L + 1) (fun i => cross (vsub (lr L i) o) (internal L e k F i)) = vsub mB mA.
Proof. exact clamped_curve. Qed.
Print Assumptions C63_clamped_curve.
(** a segment along y, clamped along x at its first end *)
Definition hook : line :=
  Line 1 0.1 0.01 1000 1000 0 10 1 0 1.2 0.1 [] [] [0; 10] [0; 100] [] [] false (fun _ => 0) (fun i => match i with O => vzero | _ => V3 0 1 0 end)
    (fun _ => vzero) (fun _ => 1) (fun _ => 1) true false (V3 1 0 0) (V3 1 0 0).
Example C63_case_curve : long hook /\ (forall e k, exists F, line_forces hook e k = Some F) /\ bends_by_curve hook 1 vzero /\ exists m, bends_by_curve hook 0 m /\ m <> vzero.
Proof.
  assert (T1 : tol < / 10). { unfold tol. assert (1000 < 2 ^ 52) by (apply (Rlt_trans _ (2 ^ 10)); [lra|apply Rlt_pow; [lra|lia]]). apply (Rmult_lt_reg_r (2 ^ 52)); [lra|]. unfold Rdiv. rewrite Rmult_assoc, Rinv_l by lra. lra. }
  assert (E1 : eps64 < / 10). { unfold eps64. assert (1000 < 2 ^ 52) by (apply (Rlt_trans _ (2 ^ 10)); [lra|apply Rlt_pow; [lra|lia]]). apply Rinv_lt_contravar; lra. }
  assert (ES : seg hook 0 = V3 0 1 0) by (unfold seg; cbn; apply v3eq; cbn; ring).
  assert (N1 : norm (V3 0 1 0) = 1) by (unfold norm, dot; cbn; replace (0 * 0 + 1 * 1 + 0 * 0) with 1 by ring; apply sqrt_1).
  assert (N2 : norm (V3 0 0 1) = 1) by (unfold norm, dot; cbn; replace (0 * 0 + 0 * 0 + 1 * 1) with 1 by ring; apply sqrt_1).
  assert (EL : end_length hook 0 = 1) by (unfold end_length, end_seg; cbn [is_B Z.eqb]; rewrite ES; exact N1).
  assert (EU : end_unit hook 0 = V3 0 1 0) by (unfold end_unit; rewrite EL; unfold end_seg; cbn [is_B Z.eqb]; rewrite ES; apply v3eq; cbn; field).
  assert (BF : bend_from hook 0 = V3 1 0 0) by reflexivity. assert (BT : bend_to hook 0 = V3 0 1 0) by exact EU.
  assert (CX : cross (V3 1 0 0) (V3 0 1 0) = V3 0 0 1) by (unfold cross; cbn; apply v3eq; cbn; ring).
  assert (D0 : dot (V3 1 0 0) (V3 0 1 0) = 0) by (unfold dot; cbn; ring).
  assert (R2 : / 2 <= sqrt ((1 - 0) / 2) < 1). { split; [rewrite <- (sqrt_square (/ 2)) at 1 by lra; apply sqrt_le_1; lra|rewrite <- sqrt_1 at 2; apply sqrt_lt_1; lra]. }
  assert (CL : clear (end_length hook 0) (bend_from hook 0) (bend_to hook 0)). { unfold clear. rewrite BF, BT, EL, D0, CX, N2. repeat split; lra. }
  assert (EC : end_curvature hook 0 = 4 / 1 * sqrt ((1 - 0) / 2)) by (unfold end_curvature; rewrite BF, BT, EL, D0; reflexivity).
  assert (IC : increasing (lbx hook)). { intros i j [H1 H2]. cbn in H2. destruct j as [|[|j]]; try lia; destruct i as [|i]; try lia; cbn; lra. }
  destruct (interp_spec (lbx hook) (lby hook) (end_curvature hook 0) IC ltac:(discriminate) eq_refl) as (Y & EY & LY).
  assert (YP : 0 < Y). { destruct LY as (_ & _ & Q). specialize (Q 0%nat ltac:(cbn; lia)). cbn in Q. rewrite EC in Q. specialize (Q ltac:(lra)). lra. }
  split; [|split; [|split]].
  - intros i Hi. cbn in Hi. assert (i = 0)%nat as -> by lia. fold (seg hook 0). rewrite ES, N1. lra.
  - intros e k. assert (HB : exists Bs, lBs hook = Some Bs).
    { unfold lBs. rewrite (isEI_curve hook) by discriminate. cbn [lN hook Nat.add bend obnd].
      assert (K0 : lKurv hook 0 = end_curvature hook 0).
      { unfold lKurv. cbn [Nat.eqb]. change (lcantA hook) with true. cbv iota. assert (lq hook 0 = V3 1 0 0) as -> by (unfold lq; cbn [Nat.eqb]; change (lcantA hook) with true; rewrite (isEI_curve hook) by discriminate; reflexivity).
        rewrite (unit_A hook) by (rewrite EL; lra). rewrite EU. change (llstr hook 0) with (end_length hook 0). rewrite BF, BT in CL. rewrite (proj1 (curve_clear _ _ _ CL)). unfold end_curvature. rewrite BF, BT. reflexivity. }
      assert (B0 : exists B, bend1 hook 0 (fun _ => vzero) = Some B).
      { unfold bend1. cbn [Nat.eqb]. change (lcantA hook) with true. cbv iota. destruct (equalRealNos _ _); [eauto|]. rewrite K0, (curve_EI hook _ Y ltac:(discriminate)); [cbn [obnd]; eauto| |exact EY]. rewrite EC. lra. }
      destruct B0 as [B E]. cbn [Nat.add]. fold hook. rewrite E. cbn [obnd]. unfold bend1. destruct (equalRealNos _ _); [eauto|]. cbn. eauto. }
    destruct HB as [Bs E]. unfold line_forces. rewrite E. cbn. eauto.
  - left. split; reflexivity.
  - eexists. split; [right; right; split; [reflexivity|split; [exact CL|exists Y; split; [exact EY|reflexivity]]]|].
    intro Z. apply (f_equal vz) in Z. rewrite BF, BT, CX, N2 in Z. cbn in Z. lra.
Qed.
