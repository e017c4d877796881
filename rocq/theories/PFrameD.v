(** Rods on bodies, and bodies, in other coordinates. *)
From Coq Require Import Reals List Arith ZArith Bool Lra Lia Psatz.
From Verif Require Import MErr MVec MStateOps MMat MInterp MLine MRod MBody SMat SLine SRod SFrame PMat PLine PLineB PRod PRodC PFrame PFrameB PFrameC.
Import ListNotations.
Open Scope R_scope.

Section G.
Variable g : plane.
Hypothesis HG : isometry g.
Lemma flat_moved v : vx (turn g v) * vx (turn g v) + vy (turn g v) * vy (turn g v) = vx v * vx v + vy v * vy v.
Proof. pose proof (turn_dot g HG v v) as E. unfold dot in E. rewrite turn_z in E. lra. Qed.
Lemma headed_moved q : headed q -> headed (turn g q). Proof. intros [A B]. split; [now rewrite (turn_dot g HG)|]. now rewrite flat_moved. Qed.
Lemma angles_moved D ph be : rangles D = Ok (ph, be) -> ((0 < rn D)%nat -> headed (rq D)) ->
  exists be', rangles (moved_rod g D) = Ok (ph, be') /\ V3 (sin ph * cos be') (sin ph * sin be') 0 = turn g (V3 (sin ph * cos be) (sin ph * sin be) 0).
Proof.
  intros HA HH. unfold rangles in *. cbn [rn rq moved_rod]. destruct (Nat.eqb_spec (rn D) 0) as [Z|Z].
  - injection HA as <- <-. exists 0. split; [reflexivity|]. rewrite sin_0. unfold turn; cbn. f_equal; ring.
  - specialize (HH ltac:(lia)). destruct (headed_ok _ _ _ HH HA) as (E & _). assert (P : exists be', orientationAngles (turn g (rq D)) = Ok (ph, be')).
    { unfold orientationAngles in *. rewrite (turn_dot g HG). destruct (Rlt_dec _ _); [discriminate|]. cbv zeta in *. injection HA as HP _. assert (HY : hypot (vx (turn g (rq D))) (vy (turn g (rq D))) = hypot (vx (rq D)) (vy (rq D))) by (unfold hypot; now rewrite flat_moved). rewrite HY, turn_z, HP. eauto. }
    destruct P as (be' & P). exists be'. split; [exact P|]. destruct (headed_ok _ _ _ (headed_moved _ HH) P) as (E' & _). rewrite E in E' at 1. unfold turn in *. cbn in *. injection E' as E1 E2. f_equal; congruence.
Qed.
Lemma cent_moved D (M M' : nat -> m3) rRef w n : (forall i, moved_matrix g (M i) (M' i)) -> rod_cent (moved_rod g D) M' (place g rRef) (spin g w) n = turn g (rod_cent D M rRef w n).
Proof. intro H. induction n as [|n IH]; cbn [rod_cent]; [now rewrite turn_zero|]. now rewrite IH, (rnode_moved g), place_sub, !(spin_turn g HG), H, turn_sub. Qed.
Lemma rod_share_moved D F6 M M6' (Ms Ms' : nat -> m3) rRef w : moved_matrix6 g M M6' -> (forall i, moved_matrix g (Ms i) (Ms' i)) ->
  share_moved g (rod_share D F6 M Ms rRef w) (rod_share (moved_rod g D) (turn6 g F6) M6' Ms' (place g rRef) (spin g w)).
Proof.
  intros HM HS. unfold rod_share. cbv zeta. rewrite (rnode_moved g), place_sub. cbn [rn moved_rod]. split; cbn [fst snd].
  - apply v6eq; cbn [v6hd v6tl turn6].
    + rewrite (cent_moved _ Ms Ms' _ _ _ HS), turn_add. destruct (Nat.eqb _ _); [now rewrite turn_zero|reflexivity].
    + now rewrite (turn_cross g HG), spin_add.
  - apply blocks_6. apply blocks_translate6; [exact HG|]. now apply blocks_6.
Qed.
(** bodies are turned, not reflected *)
Hypothesis HD : g_d g = 1.
Lemma spin_is v : spin g v = turn g v. Proof. unfold spin. rewrite HD. apply scale_one. Qed.
Lemma turn_rot v : turn g v = mmulv (rot_matrix g) v. Proof. unfold turn, rot_matrix, mmulv, dot; cbn. rewrite HD. f_equal; ring. Qed.
Lemma rot_cancel v : mmulv (mtr (rot_matrix g)) (turn g v) = v.
Proof. apply dot_ext. intro w. rewrite dot_comm, dot_mtr, mtr_mtr, <- turn_rot, (turn_dot g HG). apply dot_comm. Qed.
Lemma rotate_moved Q A : moved_matrix g (rotateMass Q A) (rotateMass (mmul (rot_matrix g) Q) A).
Proof. intro v. unfold rotateMass. rewrite mtr_mmul, !mmulv_mmul, rot_cancel. now rewrite <- turn_rot. Qed.
Lemma rotate6_moved Q A : blocks g (rotateMass6 Q A) (rotateMass6 (mmul (rot_matrix g) Q) A).
Proof.
  repeat split; unfold rotateMass6; cbn [m6tl m6tr m6bl m6br].
  - apply rotate_moved.
  - intro v. rewrite spin_is. apply (tr_tt g HG). apply rotate_moved.
  - intro v. rewrite spin_is. apply rotate_moved.
  - apply tt_ss. apply rotate_moved.
Qed.
Variable b : body.
Variable e : envc.
Lemma drag_moved U : body_drag (moved_body g b) e (turn g U) = turn6 g (body_drag b e U).
Proof.
  unfold body_drag. cbn [b_v b_Or b_CdA moved_body turn6 v6hd v6tl]. cbv zeta. rewrite <- turn_sub, spin_is, <- turn_scale, !(turn_norm g HG). rewrite !mtr_mmul, !mmulv_mmul, !rot_cancel, <- !turn_rot.
  apply v6eq; cbn [v6scale v6hd v6tl turn6]; rewrite ?spin_is, !turn_scale; reflexivity.
Qed.
Lemma body_moved U parts parts' : Forall2 (share_moved g) parts parts' -> share_moved g (body_rhs b e U parts) (body_rhs (moved_body g b) e (turn g U) parts').
Proof.
  intro HP. unfold body_rhs. cbv zeta. rewrite drag_moved. change (body_Fgrav (moved_body g b) e) with (body_Fgrav b e). change (body_M0 (moved_body g b) e) with (body_M0 b e). cbn [b_v b_Or b_rCG moved_body turn6 v6tl].
  set (A := rotateMass6 (b_Or b) (body_M0 b e)). set (A' := rotateMass6 (mmul (rot_matrix g) (b_Or b)) (body_M0 b e)). assert (HA : blocks g A A') by apply rotate6_moved.
  set (F := v6add (V6 (vsub (body_Fgrav b e) (mmulv (m6tl A) (cross (v6tl (b_v b)) (cross (v6tl (b_v b)) (mmulv (b_Or b) (b_rCG b)))))) (cross (mmulv (b_Or b) (b_rCG b)) (body_Fgrav b e))) (body_drag b e U)).
  set (F' := v6add _ _). assert (HF : F' = turn6 g F).
  { unfold F', F. rewrite mmulv_mmul, <- turn_rot, !(spin_turn g HG). destruct HA as (HA & _). rewrite HA. assert (G : body_Fgrav b e = turn g (body_Fgrav b e)) by (unfold body_Fgrav; now rewrite turn_up). rewrite G at 1 2. rewrite (turn_cross g HG).
    apply v6eq; cbn [v6add v6hd v6tl turn6]; [now rewrite turn_add, turn_sub|now rewrite spin_add]. }
  rewrite HF. clearbody F A A'. clear F' HF. revert F A A' HA. induction HP as [|x x' t t' [E1 E2] HT IH]; intros F A A' HA; cbn [fold_left]; [split; [reflexivity|now apply blocks_6]|].
  cbn [fst snd]. rewrite E1. replace (v6add (turn6 g F) (turn6 g (fst x))) with (turn6 g (v6add F (fst x))) by (apply v6eq; cbn [v6add v6hd v6tl turn6]; [apply turn_add|apply spin_add]). apply IH. apply blocks_add; [exact HA|now apply blocks_6].
Qed.
Lemma solves_moved F M M' a : moved_matrix6 g M M' -> body_solves b F M a -> body_solves (moved_body g b) (turn6 g F) M' (turn6 g a).
Proof.
  intros HM H. unfold body_solves in *. cbn [b_type moved_body b_a]. destruct (b_type b); try contradiction.
  - rewrite HM. now rewrite H.
  - destruct H as (H1 & H2). apply blocks_6 in HM. destruct HM as (_ & _ & C & E). cbn [turn6 v6hd v6tl]. split; [now rewrite H1|]. rewrite E, C, H2. apply spin_sub.
Qed.
Lemma fnet_moved F M M' : moved_matrix6 g M M' -> body_getFnet (moved_body g b) (turn6 g F) M' = turn6 g (body_getFnet b F M).
Proof.
  intro HM. unfold body_getFnet. cbn [b_type moved_body b_a]. destruct (b_type b); try reflexivity.
  - rewrite HM. apply v6eq; cbn [v6sub v6hd v6tl turn6]; symmetry; [apply turn_sub|apply spin_sub].
  - apply blocks_6 in HM. destruct HM as (A & B & _ & _). apply v6eq; cbn [v6hd v6tl turn6]; [|now rewrite spin_zero]. now rewrite A, B, !turn_sub.
Qed.
End G.
