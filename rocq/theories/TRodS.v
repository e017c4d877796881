(** C108: where rods are at the start *)
From Coq Require Import Reals List Lra Lia Arith ZArith.
From Verif Require Import MErr MVec MStateOps MMat MInterp MLine MRod MBody MEnd MRodS SMat SLine SRod SRodS PMat PEuler PLine PRod PRodB PRodC PEnd PEndB PRodS SEnd.
Import ListNotations.
Open Scope R_scope.

(** A free rod given in the input from A to B: after its initialisation end B, and the ends of the lines attached there, are not at B but where the
    direction from the origin to B leads from A; they are at B only if that direction is the one from A to B *)
Theorem C108_free_start_refuted : forall op K n A B aA aB j7 j6 ls, (0 < n)%nat -> tol < dist3 B A -> 0 < norm B -> -1 + 1e-12 <= dot (vscale (/ norm B) B) (heading A B) ->
  proper aA aB ls ->
  exists k' ls', rod_initialize K (rod_setup op RodFree n A B aA aB j7 j6) ls = Ok (XQ A qident, v6zero, k', ls') /\
    rod_lies k' ls' A vzero (vadd A (vscale (dist3 B A) (vscale (/ norm B) B))) vzero (vscale (/ norm B) B) /\
    (k_rB k' = B <-> heading A B = vscale (/ norm B) B).
Proof.
  intros op K n A B aA aB j7 j6 ls HN HT HB HC HP. destruct (free_start op K n A B aA aB j7 j6 ls HN HT HB HC HP) as (k' & ls' & E & L & _).
  exists k', ls'. split; [exact E|]. rewrite stretch in L. split; [exact L|]. destruct L as (_ & _ & -> & _).
  apply end_iff. pose proof (Rlt_trans 0 tol _ tol_pos HT). assumption.
Qed.
Print Assumptions C108_free_start_refuted.
(** ... the first time its state is set (which a run does at its first step, and dynamic relaxation before) it does lie from A to B, and the lines with it *)
Theorem C108_first_update_partial : forall op K n A B aA aB j7 j6 ls, (0 < n)%nat -> tol < dist3 B A -> 0 < norm B -> -1 + 1e-12 <= dot (vscale (/ norm B) B) (heading A B) ->
  proper aA aB ls ->
  exists p v k' ls', rod_initialize K (rod_setup op RodFree n A B aA aB j7 j6) ls = Ok (p, v, k', ls') /\
  exists k2 ls2, rod_setState K k' p v ls' = Ok (k2, ls2) /\ rod_lies k2 ls2 A vzero B vzero (heading A B).
Proof.
  intros op K n A B aA aB j7 j6 ls HN HT HB HC HP. destruct (free_start op K n A B aA aB j7 j6 ls HN HT HB HC HP) as (k' & ls' & E & _ & S).
  exists (XQ A qident), v6zero, k', ls'. split; [exact E|exact S].
Qed.
Print Assumptions C108_first_update_partial.
(** The same for a rod pinned to the vessel: the vessel puts end A at [r]; after Init end B leads from there in the direction from the origin to B,
    after the first update it is the vector from A to B away *)
Theorem C108_vessel_pin_refuted : forall op K n A B aA aB j7 j6 ls r rd, (0 < n)%nat -> tol < dist3 B A -> 0 < norm B -> -1 + 1e-12 <= dot (vscale (/ norm B) B) (heading A B) ->
  proper aA aB ls ->
  exists k1, rod_initiateStep K (rod_setup op RodCpldPin n A B aA aB j7 j6) r rd v6zero ls = Ok (k1, ls) /\
  exists k2, rod_updateFairlead K k1 0 ls = Ok (k2, ls) /\
  exists p v k3 ls3, rod_initialize K k2 ls = Ok (p, v, k3, ls3) /\
    rod_lies k3 ls3 (v6hd r) (v6hd rd) (vadd (v6hd r) (vscale (dist3 B A) (vscale (/ norm B) B))) (v6hd rd) (vscale (/ norm B) B) /\
    (k_rB k3 = vadd (v6hd r) (vsub B A) <-> heading A B = vscale (/ norm B) B) /\
  exists k4, rod_updateFairlead K k3 0 ls3 = Ok (k4, ls3) /\
  exists k5 ls5, rod_setState K k4 p v ls3 = Ok (k5, ls5) /\
    rod_lies k5 ls5 (v6hd r) (v6hd rd) (vadd (v6hd r) (vsub B A)) (v6hd rd) (heading A B).
Proof.
  intros op K n A B aA aB j7 j6 ls r rd HN HT HB HC HP. destruct (cpin_start op K n A B aA aB j7 j6 ls r rd HN HT HB HC HP) as (k1 & E1 & k2 & E2 & k3 & ls3 & E3 & L3 & k4 & E4 & k5 & ls5 & E5 & L5).
  exists k1. split; [exact E1|]. exists k2. split; [exact E2|]. exists (XQ vzero qident), v6zero, k3, ls3. split; [exact E3|]. rewrite stretch in L3. split; [exact L3|].
  split; [|exists k4; split; [exact E4|]; exists k5, ls5; split; [exact E5|exact L5]].
  destruct L3 as (_ & _ & -> & _). rewrite (end_iff _ _ _ _ (Rlt_trans 0 tol _ tol_pos HT)). unfold heading.
  assert (X : vsub (vadd (v6hd r) (vsub B A)) (v6hd r) = vsub B A) by (generalize (v6hd r) B A; vring). rewrite X. reflexivity.
Qed.
Print Assumptions C108_vessel_pin_refuted.
(** A rod fixed to a body, given from A to B in the frame of the body: whenever the body moves it, from the set-up on, it lies from where the body carries A to where
    the body carries B, its ends move with the body, and so do the lines attached to it. Excluded: bodies turned so that the rod points opposite to its original direction
    up to 1e-12 (then a rotation axis is chosen by a singular value decomposition, which is not modelled) *)
Theorem C108_fixed : forall op K n A B aA aB j7 j6 ls Q pos v, (0 < n)%nat -> tol < dist3 B A ->
  proper aA aB ls -> orthogonal Q -> -1 + 1e-12 <= dot (mmulv Q (heading A B)) (heading A B) ->
  exists k1 ls1, rod_setKinematics op K (rod_setup op RodFixed n A B aA aB j7 j6) (fst (body_rod Q pos v (body_addRod A B))) (snd (body_rod Q pos v (body_addRod A B))) ls = Ok (k1, ls1) /\
    rod_lies k1 ls1 (placed pos Q A) (velocity_at (mmulv Q A) v) (placed pos Q B) (velocity_at (mmulv Q B) v) (mmulv Q (heading A B)) /\
  (forall Q' pos' v', orthogonal Q' -> -1 + 1e-12 <= dot (mmulv Q' (heading A B)) (heading A B) ->
   exists k2 ls2, rod_setKinematics op K k1 (fst (body_rod Q' pos' v' (body_addRod A B))) (snd (body_rod Q' pos' v' (body_addRod A B))) ls1 = Ok (k2, ls2) /\
    rod_lies k2 ls2 (placed pos' Q' A) (velocity_at (mmulv Q' A) v') (placed pos' Q' B) (velocity_at (mmulv Q' B) v') (mmulv Q' (heading A B))).
Proof.
  intros op K n A B aA aB j7 j6 ls Q pos v HN HT HP HQ HC.
  destruct (setup_facts op RodFixed n A B aA aB j7 j6 HN HT) as (T & N0 & L0 & Q0 & A0 & B0 & _).
  destruct (fixed_place op K n A B aA aB _ ls Q pos v HN HT T N0 L0 Q0 A0 B0 HP HQ HC) as (k1 & ls1 & E1 & L1 & T1 & N1 & M1 & Q1 & A1 & B1 & LN).
  exists k1, ls1. split; [exact E1|]. split; [exact L1|]. intros Q' pos' v' HQ' HC'.
  assert (HP1 : proper aA aB ls1) by (destruct HP as [P1 P2]; split; [intros i ep Hi; rewrite LN; exact (P1 i ep Hi)|exact P2]).
  destruct (fixed_place op K n A B aA aB _ ls1 Q' pos' v' HN HT T1 N1 M1 Q1 A1 B1 HP1 HQ' HC') as (k2 & ls2 & E2 & L2 & _). exists k2, ls2. split; assumption.
Qed.
Print Assumptions C108_fixed.
(** A rod pinned to a body, given from A to B in the frame of the body: end A starts where the body carries it, but the rod starts with the direction from A to B
    taken in the global frame, so that end B is where the body carries it only if the body is not turned (or only about the rod) *)
Theorem C108_pinned_refuted : forall op K n A B aA aB j7 j6 ls Q pos v, (0 < n)%nat -> tol < dist3 B A -> proper aA aB ls ->
  exists k', rod_setKinematics op K (rod_setup op RodPinned n A B aA aB j7 j6) (fst (body_rod Q pos v (body_addRod A B))) (snd (body_rod Q pos v (body_addRod A B))) ls = Ok (k', ls) /\
  exists k2 ls2, rod_setState K k' (XQ vzero qident) v6zero ls = Ok (k2, ls2) /\
    rod_lies k2 ls2 (placed pos Q A) (velocity_at (mmulv Q A) v) (vadd (placed pos Q A) (vsub B A)) (velocity_at (mmulv Q A) v) (heading A B) /\
    (k_rB k2 = placed pos Q B <-> mmulv Q (vsub B A) = vsub B A).
Proof.
  intros op K n A B aA aB j7 j6 ls Q pos v HN HT HP. destruct (pinned_start op K n A B aA aB j7 j6 ls Q pos v HN HT HP) as (k' & E & k2 & ls2 & E2 & L).
  exists k'. split; [exact E|]. exists k2, ls2. split; [exact E2|]. split; [exact L|]. destruct L as (_ & _ & -> & _). unfold placed.
  assert (X : mmulv Q (vsub B A) = vsub (mmulv Q B) (mmulv Q A)) by (destruct Q as [[a b c] [d e f] [g h i]], A as [x y z], B as [x' y' z']; unfold mmulv, vsub, dot; cbn [mr0 mr1 mr2 vx vy vz]; apply v3eq; cbn [vx vy vz]; ring).
  rewrite X. generalize (mmulv Q B) (mmulv Q A) (vsub B A). clear. intros [x y z] [x1 y1 z1] [x2 y2 z2]. destruct pos as [p q r]. unfold vadd, vsub. cbn [vx vy vz].
  split; intro H; injection H as H1 H2 H3; apply v3eq; cbn [vx vy vz]; lra.
Qed.
Print Assumptions C108_pinned_refuted.

(** ** Non-vacuity, and wrong places *)
(** a rod from (3,0,0) to (3,0,4), upright, ends up leaning: end B at (5.4,0,3.2) *)
Example C108_free_case : forall op K ls, let A := V3 3 0 0 in let B := V3 3 0 4 in
  exists k' ls', rod_initialize K (rod_setup op RodFree 4 A B [] [] (XQ vzero qident) v6zero) ls = Ok (XQ A qident, v6zero, k', ls') /\ k_rB k' = V3 5.4 0 3.2 /\ k_rB k' <> B.
Proof.
  intros op K ls A B.
  assert (DD : dist3 B A = 4). { unfold A, B, dist3, norm, dot, vsub. cbn [vx vy vz]. replace ((3 - 3) * (3 - 3) + (0 - 0) * (0 - 0) + (4 - 0) * (4 - 0)) with (4 * 4) by lra. apply sqrt_square. lra. }
  assert (NB : norm B = 5). { unfold B, norm, dot. cbn [vx vy vz]. replace (3 * 3 + 0 * 0 + 4 * 4) with (5 * 5) by lra. apply sqrt_square. lra. }
  assert (HH : heading A B = V3 0 0 1) by (unfold heading; rewrite DD; unfold A, B, vscale, vsub; cbn [vx vy vz]; apply v3eq; cbn [vx vy vz]; lra).
  pose proof tol_small. destruct (C108_free_start_refuted op K 4 A B [] [] (XQ vzero qident) v6zero ls) as (k' & ls' & E & L & I1).
  { lia. } { rewrite DD. lra. } { rewrite NB. lra. } { rewrite HH, NB. unfold B, dot, vscale. cbn [vx vy vz]. lra. } { split; [intros i ep []|constructor]. }
  exists k', ls'. split; [exact E|]. destruct L as (_ & _ & -> & _). rewrite DD, NB. unfold A, B, vadd, vscale. cbn [vx vy vz].
  split; [apply v3eq; cbn [vx vy vz]; lra|]. intro X. injection X as X1 X2. lra.
Qed.
(** on a body rolled by a quarter turn a rod along its y axis is carried to the z axis if it is fixed; if it is pinned it stays along y *)
Definition quarter : m3 := M3 (V3 1 0 0) (V3 0 0 (-1)) (V3 0 1 0).
Example C108_body_case : forall op K ls, let A := V3 0 1 0 in let B := V3 0 3 0 in
  (exists k1 ls1, rod_setKinematics op K (rod_setup op RodFixed 4 A B [] [] (XQ vzero qident) v6zero) (fst (body_rod quarter vzero v6zero (body_addRod A B))) (snd (body_rod quarter vzero v6zero (body_addRod A B))) ls = Ok (k1, ls1) /\ k_rB k1 = V3 0 0 3) /\
  (exists k1 k2 ls2, rod_setKinematics op K (rod_setup op RodPinned 4 A B [] [] (XQ vzero qident) v6zero) (fst (body_rod quarter vzero v6zero (body_addRod A B))) (snd (body_rod quarter vzero v6zero (body_addRod A B))) ls = Ok (k1, ls) /\
     rod_setState K k1 (XQ vzero qident) v6zero ls = Ok (k2, ls2) /\ k_rB k2 = V3 0 2 1 /\ placed vzero quarter B = V3 0 0 3).
Proof.
  intros op K ls A B.
  assert (DD : dist3 B A = 2). { unfold A, B, dist3, norm, dot, vsub. cbn [vx vy vz]. replace ((0 - 0) * (0 - 0) + (3 - 1) * (3 - 1) + (0 - 0) * (0 - 0)) with (2 * 2) by lra. apply sqrt_square. lra. }
  assert (HH : heading A B = V3 0 1 0) by (unfold heading; rewrite DD; unfold A, B, vscale, vsub; cbn [vx vy vz]; apply v3eq; cbn [vx vy vz]; lra).
  assert (HP : proper [] [] ls) by (split; [intros i ep []|constructor]).
  assert (HO : orthogonal quarter) by (split; unfold quarter, mmul, mtr, mid, mmulv, dot; cbn [mr0 mr1 mr2 vx vy vz]; f_equal; apply v3eq; cbn [vx vy vz]; ring).
  assert (PB : placed vzero quarter B = V3 0 0 3) by (unfold placed, quarter, B, vadd, vzero, mmulv, dot; cbn [mr0 mr1 mr2 vx vy vz]; apply v3eq; cbn [vx vy vz]; ring).
  pose proof tol_small. split.
  - destruct (C108_fixed op K 4 A B [] [] (XQ vzero qident) v6zero ls quarter vzero v6zero) as (k1 & ls1 & E & L & _); try assumption; [lia|rewrite DD; lra|rewrite HH; unfold quarter, mmulv, dot; cbn [mr0 mr1 mr2 vx vy vz]; lra|].
    exists k1, ls1. split; [exact E|]. destruct L as (_ & _ & -> & _). exact PB.
  - destruct (C108_pinned_refuted op K 4 A B [] [] (XQ vzero qident) v6zero ls quarter vzero v6zero) as (k1 & E & k2 & ls2 & E2 & L & _); try assumption; [lia|rewrite DD; lra|].
    exists k1, k2, ls2. split; [exact E|]. split; [exact E2|]. split; [|exact PB]. destruct L as (_ & _ & -> & _).
    unfold placed, quarter, A, B, vadd, vsub, vzero, mmulv, dot. cbn [mr0 mr1 mr2 vx vy vz]. apply v3eq; cbn [vx vy vz]; ring.
Qed.
