(** C66: the energy balance of a line with stiffness and damping curves. *)
From Coq Require Import Reals List Arith Lra Lia.
From Verif Require Import MErr MVec MStateOps MMat MInterp MLine SInterp SLine SLineU PInterp PMat PLine PLineB PLineE PLineU.
Import ListNotations.
Open Scope R_scope.

(** for the cases: a line of one segment with both curves, stretched to twice its length and shortening *)
Definition curved : line :=
  Line 1 0.1 2 1000 1000 0 10 1 0 1.2 0.1 [0; 2; 4] [0; 100; 400] [] [] [-2; 0; 2] [-6; 0; 4] false (fun _ => 0)
    (fun i => V3 (2 * INR i) 0 0) (fun i => V3 (- INR i) 0 0) (fun _ => 1) (fun _ => 1) false false (V3 1 0 0) (V3 1 0 0).

(** The power of the internal forces is what the stored energy loses, less what the damping takes: with a constant
    modulus or a stiffness curve, with a constant coefficient or a damping curve of either kind. Missing: bending. *)
Theorem C66_curves_partial : forall L G e k F p t, (0 < lN L)%nat -> lisEI L = false -> stores L G ->
  (forall i, (i < lN L)%nat -> 0 < ll L i /\ tol < norm (seg L i)) ->
  line_forces L e k = Some F -> moves_as L p t ->
  exists dU Y, derivable_pt_lim (fun s => strain_energy L G (p s)) t dU /\
    (forall i, (i < lN L)%nat -> damping_stress L (stretch_rate L i / ll L i) (Y i)) /\
    power L (internal L e k F) = - dU - nsum (lN L) (fun i => larea L * Y i * stretch_rate L i).
Proof. exact curve_balance. Qed.
Print Assumptions C66_curves_partial.
(** Every stiffness curve which starts without stress at a strain not below zero stores energy. *)
Theorem C66_curve_stores : forall L, increasing (lsx L) -> lsx L <> [] -> length (lsy L) = length (lsx L) -> 0 <= nth 0 (lsx L) 0 -> nth 0 (lsy L) 0 = 0 ->
  exists G, stores L G.
Proof. exact table_stores. Qed.
Print Assumptions C66_curve_stores.
(** With a constant modulus it is the energy of the springs. *)
Theorem C66_linear_stores : forall L, lsx L = [] -> stores L (fun x => lE L * (Rmax 0 x * Rmax 0 x) / 2) /\
  (forall p, (forall i, (i < lN L)%nat -> 0 < ll L i) -> strain_energy L (fun x => lE L * (Rmax 0 x * Rmax 0 x) / 2) p = elastic_energy L p).
Proof. exact linear_stores. Qed.
Print Assumptions C66_linear_stores.
Example C66_curves_met : (0 < lN curved)%nat /\ lisEI curved = false /\ (exists G, stores curved G) /\
  (forall i, (i < lN curved)%nat -> 0 < ll curved i /\ tol < norm (seg curved i)) /\
  (forall e k, exists F, line_forces curved e k = Some F) /\
  moves_as curved (fun s i => vadd (lr curved i) (vscale (s - 5) (lrd curved i))) 5.
Proof.
  assert (ES : seg curved 0 = V3 2 0 0) by (unfold seg; cbn; apply v3eq; cbn; ring).
  assert (EN : norm (V3 2 0 0) = 2) by (apply norm_x; lra).
  assert (ER : stretch_rate curved 0 = -1) by (unfold stretch_rate; rewrite ES, EN; unfold dot; cbn; lra).
  assert (TL := tol_small). assert (HE : lisEI curved = false) by (unfold lisEI; cbn; destruct (Rlt_dec 0 0); [lra|reflexivity]).
  split; [cbn; lia|split; [exact HE|split; [|split; [|split]]]].
  - apply C66_curve_stores; cbn; try lra; try discriminate; try reflexivity.
    intros i j [H1 H2]. cbn in H2. destruct j as [|[|[|j]]]; try lia; destruct i as [|[|i]]; try lia; cbn; lra.
  - intros i Hi. cbn in Hi. assert (i = 0)%nat as -> by lia. rewrite ES, EN. cbn [ll curved]. lra.
  - intros e k. unfold line_forces. assert (lBs curved = Some (fun _ => vzero)) as ->. { unfold lBs. rewrite HE. reflexivity. }
    cbn [lN curved all_some]. 
    assert (T0 : exists t, lT curved 0 = Some t).
    { unfold lT. change (llstr curved 0) with (norm (seg curved 0)). rewrite ES, EN. cbn [lsx curved length Nat.eqb negb ll]. destruct (Rlt_dec 1 (2 / 1)); [|lra].
      unfold getNonlinearE. cbn [lsx lsy curved]. cbv zeta. destruct (Rlt_dec (2 / 1 - 1) 0); [lra|].
      unfold interp, interp_factor. cbn. destruct (Rle_dec (2 / 1 - 1) 0); [lra|]. destruct (Rge_dec (2 / 1 - 1) 4); [lra|]. cbn. destruct (Rle_dec (2 / 1 - 1) 2); [|lra]. cbn.
      unfold fdiv. destruct (Req_EM_T (2 / 1 - 1) 0); [lra|]. cbn. eauto. }
    destruct T0 as (t & ET). 
    assert (D0 : lTd curved 0 = Some (vscale (larea curved * -3 / norm (seg curved 0)) (seg curved 0))).
    { apply (damp_two_sided curved 0 (-2) [0; 2]); [reflexivity|lra|cbn; lra|rewrite ES, EN; lra|rewrite ER; lra|]. rewrite ER. cbn [ll curved ldx ldy].
      unfold interp, interp_factor. cbn. destruct (Rle_dec (-1 / 1) (-2)); [lra|]. destruct (Rge_dec (-1 / 1) 2); [lra|]. cbn. destruct (Rle_dec (-1 / 1) 0); [|lra]. cbn. f_equal. field. }
    fold curved. rewrite ET, D0. cbn. eauto.
  - split.
    + intros i. replace (5 - 5) with 0 by ring. generalize (lr curved i) (lrd curved i). vring.
    + assert (A : forall a b, derivable_pt_lim (fun s => a + (s - 5) * b) 5 b).
      { intros a b eps He. exists (mkposreal _ He). intros h Hh Hb. replace ((a + (5 + h - 5) * b - (a + (5 - 5) * b)) / h - b) with 0 by (field; exact Hh). rewrite Rabs_R0. exact He. }
      intros i. split; [|split]; [exact (A (vx (lr curved i)) (vx (lrd curved i)))|exact (A (vy (lr curved i)) (vy (lrd curved i)))|exact (A (vz (lr curved i)) (vz (lrd curved i)))].
Qed.
