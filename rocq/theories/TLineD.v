(** C65: damping given by a curve. *)
From Coq Require Import Reals List Arith Lra Lia.
From Verif Require Import MErr MVec MStateOps MMat MInterp MLine SInterp SLine SLineD PInterp PMat PLine PLineB PLineE PLineD.
Import ListNotations.
Open Scope R_scope.

(** for the cases: a segment that shortens, and a table with a row for no rate *)
Definition damped : line :=
  Line 1 0.1 2 1000 1000 0 10 1 0 1.2 0.1 [] [] [] [] [-2; 0; 2] [-6; 0; 4] false (fun _ => 0)
    (fun i => V3 (2 * INR i) 0 0) (fun i => V3 (- INR i) 0 0) (fun _ => 1) (fun _ => 1) false false (V3 1 0 0) (V3 1 0 0).

(** A curve from negative to positive rates, through the origin and with stresses against the motion, takes energy from
    the line. *)
Theorem C65_curve_dissipates : forall L e k F, (0 < lN L)%nat -> passive (ldx L) (ldy L) -> line_forces L e k = Some F ->
  0 <= larea L -> (forall i, (i < lN L)%nat -> 0 < ll L i) ->
  exists F0, line_forces (undamped L) e k = Some F0 /\ power L F <= power L F0.
Proof. exact curve_dissipates. Qed.
Print Assumptions C65_curve_dissipates.
(** exactly: each segment takes the area times the stress of the curve times its stretching rate *)
Theorem C65_curve_power : forall L e k F, (0 < lN L)%nat -> long L -> (exists x0 xs, ldx L = x0 :: xs /\ x0 < 0) -> line_forces L e k = Some F ->
  exists F0 Y, line_forces (undamped L) e k = Some F0 /\ (forall i, (i < lN L)%nat -> interp (ldx L) (ldy L) (stretch_rate L i / ll L i) = Ok (Y i)) /\
    power L F = power L F0 - nsum (lN L) (fun i => larea L * Y i * stretch_rate L i).
Proof. exact curve_power. Qed.
Print Assumptions C65_curve_power.
Example C65_curve_met : passive (ldx damped) (ldy damped) /\ long damped /\ (forall e k, exists F, line_forces damped e k = Some F) /\ stretch_rate damped 0 = -1.
Proof.
  assert (ES : seg damped 0 = V3 2 0 0) by (unfold seg; cbn; apply v3eq; cbn; ring).
  assert (EN : norm (V3 2 0 0) = 2) by (apply norm_x; lra).
  assert (ER : stretch_rate damped 0 = -1) by (unfold stretch_rate; rewrite ES, EN; unfold dot; cbn; lra).
  assert (TL := tol_small).
  split; [|split; [|split; [|exact ER]]].
  - split; [|split; [reflexivity|split; [cbn; lra|split; [exists 1%nat; cbn; repeat split; lia|]]]].
    + intros i j [H1 H2]. cbn in H2. destruct j as [|[|[|j]]]; try lia; destruct i as [|[|i]]; try lia; cbn; lra.
    + intros i Hi. cbn in Hi. destruct i as [|[|[|i]]]; try lia; cbn; lra.
  - intros i Hi. cbn in Hi. assert (i = 0)%nat as -> by lia. fold (seg damped 0). rewrite ES, EN. lra.
  - intros e k. unfold line_forces. assert (lBs damped = Some (fun _ => vzero)) as ->. { unfold lBs. assert (lisEI damped = false) as -> by (unfold lisEI; cbn; destruct (Rlt_dec 0 0); [lra|reflexivity]). reflexivity. }
    cbn [lN damped all_some]. assert (T0 : exists t, lT damped 0 = Some t) by (unfold lT; cbn; eauto). destruct T0 as (t & ->).
    assert (D0 : lTd damped 0 = Some (vscale (larea damped * -3 / norm (seg damped 0)) (seg damped 0))).
    { apply (damp_two_sided damped 0 (-2) [0; 2]); [reflexivity|lra|cbn; lra|rewrite ES, EN; lra|rewrite ER; lra|]. rewrite ER. cbn [ll damped ldx ldy].
      unfold interp, interp_factor. cbn. destruct (Rle_dec (-1 / 1) (-2)); [lra|]. destruct (Rge_dec (-1 / 1) 2); [lra|]. cbn. destruct (Rle_dec (-1 / 1) 0); [|lra]. cbn. f_equal. field. }
    fold damped. rewrite D0. cbn. eauto.
Qed.
