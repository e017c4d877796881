(** Property theorems C105: the tensions of the lines given to FAST. *)
From Coq Require Import Reals List Arith Lra Lia.
From Verif Require Import MErr MVec MMat MLine MFast SMat SLine SFrame PMat PLine PLineB PFrame PFast.
Import ListNotations.
Open Scope R_scope.

(** *** C105.  The horizontal values are the horizontal parts of the forces of the line on its ends, whatever the axes *)
Theorem C105_horizontal : forall g L e k k' F F', isometry g -> moved_water g k k' -> line_forces L e k = Some F -> line_forces (moved_line g L) e k' = Some F' ->
  fairH (getFASTtens L e k F) * fairH (getFASTtens L e k F) + vz (F (lN L)) * vz (F (lN L)) = dot (F (lN L)) (F (lN L)) /\
  anchH (getFASTtens L e k F) * anchH (getFASTtens L e k F) + vz (F 0%nat) * vz (F 0%nat) = dot (F 0%nat) (F 0%nat) /\
  0 <= fairH (getFASTtens L e k F) /\ 0 <= anchH (getFASTtens L e k F) /\
  fairH (getFASTtens (moved_line g L) e k' F') = fairH (getFASTtens L e k F) /\ anchH (getFASTtens (moved_line g L) e k' F') = anchH (getFASTtens L e k F).
Proof.
  intros g L e k k' F F' HG HK E E'. pose proof (line_moved g HG L e k k' HK) as T. rewrite E, E' in T. unfold getFASTtens. cbn [fairH anchH]. unfold norm2 at 1 2 3 4.
  rewrite !sqrt_sqrt by nra. split; [unfold dot; ring|]. split; [unfold dot; ring|]. split; [apply sqrt_pos|]. split; [apply sqrt_pos|].
  rewrite !T. cbn [lN moved_line]. split; now apply norm2_turn.
Qed.
Print Assumptions C105_horizontal.
(** the vertical values are not the vertical forces, for any line: they are lower by at least the weight in air of the half
    segment at the end *)
Theorem C105_vertical_refuted : forall L e k F, (0 < lN L)%nat -> sensible L -> 0 <= rho_w e -> 0 < gr e -> line_forces L e k = Some F ->
  fairV (getFASTtens L e k F) <= vz (F (lN L)) - lmi L (lN L) * gr e < vz (F (lN L)) /\ anchV (getFASTtens L e k F) <= vz (F 0%nat) - lmi L 0 * gr e < vz (F 0%nat).
Proof.
  intros L e k F HN HS HR HG _. unfold getFASTtens. cbn [fairV anchV]. pose proof (m00_ge L e k (lN L) HN (le_n _) HS HR). pose proof (m00_ge L e k 0 HN (Nat.le_0_l _) HS HR).
  pose proof (lmi_pos L (lN L) HN (le_n _) HS). pose proof (lmi_pos L 0 HN (Nat.le_0_l _) HS). repeat split; nra.
Qed.
Print Assumptions C105_vertical_refuted.
(** in air this is the weight of the end, counted a second time: the force of the line on its end has it already *)
Theorem C105_weight_twice : forall L e k F, (0 < lN L)%nat -> larea L = PI / 4 * (ldia L * ldia L) -> line_forces L e k = Some F -> lF L k 0 = 0 -> lF L k (lN L - 1) = 0 ->
  fairV (getFASTtens L e k F) = vz (vadd (F (lN L)) (lW L e k (lN L))) /\ anchV (getFASTtens L e k F) = vz (vadd (F 0%nat) (lW L e k 0)).
Proof.
  intros L e k F HN HA _ H0 H1. unfold getFASTtens. cbn [fairV anchV]. rewrite !m00. unfold lmi, lvi, lW, at_node. cbn [vadd vz Nat.eqb].
  destruct (Nat.eqb_spec (lN L) 0); [lia|]. rewrite Nat.eqb_refl, H0, H1, HA. replace 0.5 with (/ 2) by lra. split; field.
Qed.
Print Assumptions C105_weight_twice.
(** turned about the vertical, the same line in the same water has another vertical value *)
Theorem C105_axes_refuted : exists g L e k k' F F', isometry g /\ sensible L /\ moved_water g k k' /\ line_forces L e k = Some F /\ line_forces (moved_line g L) e k' = Some F' /\
  fairV (getFASTtens (moved_line g L) e k' F') <> fairV (getFASTtens L e k F).
Proof.
  set (g := Plane 0 1 1 0 0). set (L := flat_line). set (e := Envc 1025 9.8 0 0 0 0 0). set (k := Wkin (fun _ => 0) (fun _ => vzero) (fun _ => vzero) (fun _ => 0) (fun _ _ => -100)).
  assert (HG : isometry g) by (unfold isometry; cbn; split; [lra|now left]).
  assert (HK : moved_water g k k) by (split; [intro i; repeat split; cbn; symmetry; apply turn_zero|reflexivity]).
  destruct (linear_total L e k eq_refl eq_refl eq_refl) as (F & E). destruct (linear_total (moved_line g L) e k eq_refl eq_refl eq_refl) as (F' & E').
  exists g, L, e, k, k, F, F'. split; [exact HG|]. split; [exact flat_sensible|]. split; [exact HK|]. split; [exact E|]. split; [exact E'|].
  pose proof (line_moved g HG L e k k HK) as T. rewrite E, E' in T. unfold getFASTtens. cbn [fairV]. rewrite T, !m00, turn_z. change (lN (moved_line g L)) with (lN L).
  assert (Q : lq L (lN L) = V3 1 0 0) by exact flat_q. rewrite (lq_moved g HG), Q.
  assert (S : lF L k 0 = 1) by (apply sub_below; cbn; lra).
  assert (V' : lvi (moved_line g L) k (lN L) = lvi L k (lN L)) by (unfold lvi; f_equal; apply at_moved; intro j; rewrite (lF_moved g HG L k k HK); reflexivity).
  assert (V : lvi L k (lN L) = PI * 0.005) by (unfold lvi, at_node; cbn [lN L flat_line Nat.eqb Nat.sub]; change flat_line with L; rewrite S; cbn; lra). pose proof PI_RGT_0.
  change (lmi (moved_line g L) (lN L)) with (lmi L (lN L)). rewrite V', V. unfold g, turn, e. cbn [vx vy vz g_c g_s g_d rho_w gr lCan lCat moved_line L flat_line]. generalize (lmi flat_line (lN flat_line)) (vz (F (lN flat_line))). intros m z. lra.
Qed.
Print Assumptions C105_axes_refuted.
(** a line lying in the air *)
Example C105_met : let k := Wkin (fun _ => -30) (fun _ => vzero) (fun _ => vzero) (fun _ => 0) (fun _ _ => -100) in
  (0 < lN flat_line)%nat /\ sensible flat_line /\ larea flat_line = PI / 4 * (ldia flat_line * ldia flat_line) /\ lF flat_line k 0 = 0 /\ lF flat_line k (lN flat_line - 1) = 0 /\ exists F, line_forces flat_line (Envc 1025 9.8 0 0 0 0 0) k = Some F.
Proof. intro k. split; [cbn; lia|]. split; [exact flat_sensible|]. split; [reflexivity|]. split; [apply sub_above; cbn; lra|]. split; [apply sub_above; cbn; lra|]. now apply linear_total. Qed.
