(** Rods and bodies in other coordinates. *)
From Coq Require Import Reals List Arith ZArith Bool Lra Lia Psatz.
From Verif Require Import MErr MVec MStateOps MMat MInterp MLine MRod MBody SMat SLine SRod SFrame PMat PLine PLineB PRod PRodC PFrame PFrameB.
Import ListNotations.
Open Scope R_scope.

Section G.
Variable g : plane.
Hypothesis HG : isometry g.
Variable D : rod.
Notation D' := (moved_rod g D).
Lemma rB_moved : rB D' = place g (rB D). Proof. unfold rB. cbn [rn rA rlen rq moved_rod]. destruct (Nat.eqb _ _); [reflexivity|]. now rewrite <- turn_scale, place_add. Qed.
Lemma rvB_moved : rvB D' = turn g (rvB D). Proof. unfold rvB. cbn [rn rvA rw rlen rq moved_rod]. destruct (Nat.eqb _ _); [reflexivity|]. now rewrite <- turn_scale, (spin_turn g HG), turn_add. Qed.
Lemma rnode_moved i : rnode D' i = place g (rnode D i).
Proof. unfold rnode. rewrite rB_moved. cbn [rn rA moved_rod]. destruct (Nat.eqb i 0); [reflexivity|]. destruct (Nat.eqb i _); [reflexivity|]. now rewrite place_sub, <- turn_scale, place_add. Qed.
Lemma rvel_moved i : rvel D' i = turn g (rvel D i).
Proof. unfold rvel. rewrite rvB_moved. cbn [rn rvA moved_rod]. destruct (Nat.eqb i 0); [reflexivity|]. destruct (Nat.eqb i _); [reflexivity|]. now rewrite <- turn_sub, <- turn_scale, turn_add. Qed.
Lemma rLsum_moved i : rLsum D' i = rLsum D i. Proof. induction i as [|i IH]; cbn; [reflexivity|now rewrite IH]. Qed.
Lemma rh0_moved z : rh0 D' z = rh0 D z. Proof. unfold rh0. rewrite rB_moved. cbn [rA rq rlen moved_rod]. now rewrite !place_z, turn_z. Qed.
Lemma rsection_moved z ph i : rsection D' z ph i = rsection D z ph i. Proof. unfold rsection, rz1lo, rz1hi. rewrite rnode_moved, place_z. reflexivity. Qed.
Lemma rVOF_moved z ph i : rVOF D' z ph i = rVOF D z ph i. Proof. unfold rVOF. now rewrite rh0_moved, rLsum_moved, rsection_moved. Qed.
Lemma rwet_moved z ph i : rwetEnd D' z ph i = rwetEnd D z ph i. Proof. unfold rwetEnd, rz1lo. now rewrite rnode_moved, place_z. Qed.
Lemma rM_moved e z ph i : moved_matrix g (rM D e z ph i) (rM D' e z ph i).
Proof.
  unfold rM. rewrite rVOF_moved, rwet_moved. cbv zeta. change (rmi D' i) with (rmi D i). change (rvi D' i) with (rvi D i). change (rends D' i) with (rends D i). change (rVend D') with (rVend D). cbn [rq rCan rCat rCaEnd moved_rod]. unfold msub.
  destruct (rwetEnd D z ph i); repeat first [apply mm_add | apply mm_scale | apply mm_id | apply (mm_outer g HG) | apply mm_zero].
Qed.

Variables ph be be' : R.
Hypothesis HB : V3 (sin ph * cos be') (sin ph * sin be') 0 = turn g (V3 (sin ph * cos be) (sin ph * sin be) 0).
Lemma hb z : V3 (sin ph * cos be') (sin ph * sin be') z = turn g (V3 (sin ph * cos be) (sin ph * sin be) z).
Proof. unfold turn in *. cbn in *. injection HB as H1 H2. f_equal; assumption. Qed.
Variable e : envc.
Variables k k' : wkin.
Hypothesis HK : moved_water g k k'.
Lemma rW_moved i : rW D' e i = turn g (rW D e i). Proof. unfold rW. cbn [rn moved_rod]. destruct (Nat.eqb _ _); [now rewrite turn_zero|]. now rewrite turn_up. Qed.
Lemma side_moved z i : rBoSide D' e z ph be' i = turn g (rBoSide D e z ph be i).
Proof.
  unfold rBoSide. rewrite rVOF_moved. cbn [rn moved_rod]. change (rvi D' i) with (rvi D i). destruct (Nat.eqb _ _); [now rewrite turn_zero|]. cbv zeta.
  set (c := - rVOF D z ph i * rvi D i * rho_w e * gr e). assert (E : forall b, V3 (c * sin ph * cos b * cos ph) (c * sin ph * sin b * cos ph) (- (c * sin ph) * sin ph) = vscale c (vadd (vscale (cos ph) (V3 (sin ph * cos b) (sin ph * sin b) 0)) (V3 0 0 (- sin ph * sin ph)))) by (intro b; unfold vscale, vadd; cbn; f_equal; ring).
  rewrite !E, HB. now rewrite turn_scale, turn_add, turn_scale, turn_up.
Qed.
Lemma boend_moved z s i : rBoEnd D' e z ph be' s i = turn g (rBoEnd D e z ph be s i).
Proof.
  unfold rBoEnd. rewrite rVOF_moved, rwet_moved, rsection_moved. change (rArea D') with (rArea D). destruct (rwetEnd D z ph i); [|now rewrite turn_zero]. cbv zeta. set (c := s * _ * _ * _ * _ * _).
  assert (E : forall b, V3 (c * cos b * sin ph) (c * sin b * sin ph) (c * cos ph) = vscale c (V3 (sin ph * cos b) (sin ph * sin b) (cos ph))) by (intro b; unfold vscale; cbn; f_equal; ring). now rewrite !E, hb, turn_scale.
Qed.
Lemma bo_moved z i : rBo D' e z ph be' i = turn g (rBo D e z ph be i).
Proof. unfold rBo. rewrite side_moved, !boend_moved. cbn [rn moved_rod]. destruct (Nat.eqb i 0), (Nat.eqb i (rn D)); now rewrite ?turn_add, ?turn_zero. Qed.
Lemma axis_moved : V3 (sin ph * sin be') (- (sin ph * cos be')) 0 = spin g (V3 (sin ph * sin be) (- (sin ph * cos be)) 0).
Proof.
  assert (E : forall b, V3 (sin ph * sin b) (- (sin ph * cos b)) 0 = cross (V3 (sin ph * cos b) (sin ph * sin b) 0) (V3 0 0 1)) by (intro b; unfold cross; cbn; f_equal; ring). rewrite !E, HB, <- (turn_up g 1) at 1. apply (turn_cross g HG).
Qed.
Lemma mend_moved z s i : rMEnd D' e z ph be' s i = spin g (rMEnd D e z ph be s i).
Proof.
  unfold rMEnd. rewrite rVOF_moved, rwet_moved. cbn [rdia moved_rod]. destruct (rwetEnd D z ph i); [|now rewrite spin_zero]. cbv zeta. set (c := s * _ * 1 / 64 * PI * rdia D * rdia D * rdia D * rdia D * rho_w e * gr e).
  assert (E : forall b, V3 (c * sin ph * sin b) (- (c * sin ph) * cos b) 0 = vscale c (V3 (sin ph * sin b) (- (sin ph * cos b)) 0)) by (intro b; unfold vscale; cbn; f_equal; ring). now rewrite !E, axis_moved, spin_scale.
Qed.
Ltac kk := rewrite ?(kz g k k' HK), ?(ku g k k' HK), ?(kud g k k' HK), ?(kp g k k' HK).
Lemma dp_moved i : rDp D' e k' ph i = turn g (rDp D e k ph i).
Proof. unfold rDp. kk. rewrite rVOF_moved, rvel_moved. cbn [rn rq rCdn rdia moved_rod]. change (rdL D' i) with (rdL D i). cbv zeta. rewrite <- turn_sub, (across_moved g HG), (turn_norm g HG). destruct (Nat.eqb _ _); [now rewrite turn_zero|]. now rewrite turn_scale. Qed.
Lemma dq_moved i : rDq D' e k' ph i = turn g (rDq D e k ph i).
Proof. unfold rDq. kk. rewrite rVOF_moved, rvel_moved, rwet_moved. cbn [rn rq rCdEnd moved_rod]. change (rends D' i) with (rends D i). change (rArea D') with (rArea D). cbv zeta. rewrite <- turn_sub, (along_moved g HG), (turn_norm g HG). destruct (rwetEnd _ _ _ _); [now rewrite turn_scale|now rewrite turn_zero]. Qed.
Lemma ap_moved i : rAp D' e k' ph i = turn g (rAp D e k ph i).
Proof. unfold rAp. kk. rewrite rVOF_moved. cbn [rn rq rCan moved_rod]. change (rvi D' i) with (rvi D i). rewrite (across_moved g HG). destruct (Nat.eqb _ _); [now rewrite turn_zero|]. now rewrite turn_scale. Qed.
Lemma aq_moved i : rAq D' e k' ph i = turn g (rAq D e k ph i).
Proof. unfold rAq. kk. rewrite rVOF_moved, rwet_moved. cbn [rn rq rCaEnd moved_rod]. change (rends D' i) with (rends D i). change (rVend D') with (rVend D). rewrite (along_moved g HG). cbv zeta. destruct (rwetEnd _ _ _ _); [now rewrite turn_scale|now rewrite turn_zero]. Qed.
Lemma pd_moved i : rPd D' e k' ph i = turn g (rPd D e k ph i).
Proof. unfold rPd. kk. rewrite rVOF_moved, rwet_moved. cbn [rn rq moved_rod]. change (rArea D') with (rArea D). cbv zeta. destruct (rwetEnd _ _ _ _); [|now rewrite turn_zero]. destruct (Nat.eqb i 0), (Nat.eqb i (rn D)); now rewrite ?turn_add, ?turn_scale, ?turn_zero, ?turn_scale. Qed.
Lemma bot_moved i : rBot D' e k' i = turn g (rBot D e k i).
Proof. unfold rBot. rewrite rnode_moved, rvel_moved, (proj2 HK), place_z, turn_z. cbn [rn rdia moved_rod]. change (rdL D' i) with (rdL D i). cbv zeta. destruct (Nat.eqb _ _); [now rewrite turn_zero|]. destruct (Rlt_dec _ _); [now rewrite turn_up|now rewrite turn_zero]. Qed.
Lemma rF_moved i : rF D' e k' ph be' i = turn g (rF D e k ph be i).
Proof. unfold rF. kk. cbn [rn moved_rod]. rewrite rW_moved, bo_moved, dp_moved, dq_moved, ap_moved, aq_moved, pd_moved, bot_moved. now rewrite !turn_add. Qed.

Variables att btt att' btt' : list endstuff.
Hypothesis HA : Forall2 (moved_end g) att att'.
Hypothesis HBt : Forall2 (moved_end g) btt btt'.
Lemma es_moved l l' : Forall2 (moved_end g) l l' -> es_force l' = turn g (es_force l) /\ es_moment l' = spin g (es_moment l) /\ moved_matrix g (es_mass l) (es_mass l').
Proof.
  intro H. unfold es_force, es_moment, es_mass. assert (G : forall l l', Forall2 (moved_end g) l l' -> forall F M N N', moved_matrix g N N' ->
    fold_left (fun a s => vadd a (esF s)) l' (turn g F) = turn g (fold_left (fun a s => vadd a (esF s)) l F) /\ fold_left (fun a s => vadd a (esM s)) l' (spin g M) = spin g (fold_left (fun a s => vadd a (esM s)) l M) /\
    moved_matrix g (fold_left (fun a s => madd a (esMass s)) l N) (fold_left (fun a s => madd a (esMass s)) l' N')).
  { clear. induction 1 as [|s s' t t' (E1 & E2 & E3) HT IH]; intros F M N N' HN; cbn [fold_left]; [split; [reflexivity|split; [reflexivity|exact HN]]|]. rewrite E1, E2, <- turn_add, <- spin_add. apply IH. now apply mm_add. }
  destruct (G l l' H vzero vzero mzero mzero (mm_zero g)) as (A & B & C). rewrite turn_zero in A. rewrite spin_zero in B. now split; [|split].
Qed.
Lemma rFnet_moved i : rFnet D' e k' ph be' att' btt' i = turn g (rFnet D e k ph be att btt i).
Proof. unfold rFnet. rewrite rF_moved. destruct (es_moved _ _ HA) as (-> & _). destruct (es_moved _ _ HBt) as (-> & _). cbn [rn moved_rod]. destruct (Nat.eqb i 0), (Nat.eqb i (rn D)); now rewrite ?turn_add, ?turn_zero. Qed.
Lemma rMnet_moved i : moved_matrix g (rMnet D e k ph att btt i) (rMnet D' e k' ph att' btt' i).
Proof. unfold rMnet. kk. cbn [rn moved_rod]. apply mm_add; [apply mm_add; [apply rM_moved|]|]; (destruct (Nat.eqb i _); [|apply mm_zero]); first [apply (es_moved _ _ HA)|apply (es_moved _ _ HBt)]. Qed.
Lemma rMext_moved : rMext D' e k' ph be' att' btt' = spin g (rMext D e k ph be att btt).
Proof.
  unfold rMext. kk. destruct (es_moved _ _ HA) as (_ & -> & _). destruct (es_moved _ _ HBt) as (_ & -> & _). cbn [rn rdia rA moved_rod]. rewrite !mend_moved, rB_moved, !place_z. cbv zeta. set (P' := if Rlt_dec _ _ then _ else _). set (P := if Rlt_dec _ _ then _ else _).
  assert (E : P' = spin g P).
  { unfold P, P'. destruct (Rlt_dec _ _); [|now rewrite spin_zero]. destruct (Rlt_dec _ _); [|now rewrite spin_zero]. set (c := 1 / 16 * _ * _ * _ * _ * _ * _ * _ ).
    assert (E : forall b, vscale (c * sin ph * cos ph) (V3 (sin b) (- cos b) 0) = vscale (c * cos ph) (V3 (sin ph * sin b) (- (sin ph * cos b)) 0)) by (intro b; unfold vscale; cbn; f_equal; ring). now rewrite !E, axis_moved, spin_scale. }
  rewrite E. now rewrite !spin_add.
Qed.
Lemma rF6_moved (F F' : nat -> v3) n : (forall i, F' i = turn g (F i)) -> rF6 D' F' n = turn6 g (rF6 D F n).
Proof.
  intro H. induction n as [|n IH]; cbn [rF6]; [apply v6eq; cbn; symmetry; [apply turn_zero|apply spin_zero]|]. rewrite IH, H, rnode_moved. cbn [rA moved_rod]. rewrite place_sub, (turn_cross g HG). apply v6eq; cbn [v6add turn6 v6hd v6tl]; symmetry; [apply turn_add|apply spin_add].
Qed.
Lemma rM6_moved (M M' : nat -> m3) n : (forall i, moved_matrix g (M i) (M' i)) -> blocks g (rM6 D M n) (rM6 D' M' n).
Proof. intro H. induction n as [|n IH]; cbn [rM6]; [apply blocks_zero|]. apply blocks_add; [exact IH|]. rewrite rnode_moved. cbn [rA moved_rod]. rewrite place_sub. apply blocks_translate; [exact HG|apply H]. Qed.
Lemma rF6net_moved : rF6net D' e k' ph be' att' btt' = turn6 g (rF6net D e k ph be att btt).
Proof. unfold rF6net. cbv zeta. cbn [rn moved_rod]. rewrite (rF6_moved (rFnet D e k ph be att btt) (rFnet D' e k' ph be' att' btt') _ rFnet_moved), rMext_moved. apply v6eq; cbn [v6hd v6tl turn6]; [reflexivity|]. now rewrite spin_add. Qed.
Lemma rImat_moved : match rImat D ph be, rImat D' ph be' with Some J, Some J' => maps (spin g) (spin g) J J' | None, None => True | _, _ => False end.
Proof.
  unfold rImat. change (rIr D') with (rIr D). cbn [rn rdia moved_rod]. change (rmass D') with (rmass D). destruct (Nat.eqb _ _); cbn [obnd].
  - intro v. unfold rotateMass. assert (Z : forall A, mmulv (mmul (mmul A mzero) (mtr A)) v = vzero) by (intro A; rewrite !mmulv_mmul, mul_zero; apply mul_rzero). assert (Z' : forall A, mmulv (mmul (mmul A mzero) (mtr A)) (spin g v) = vzero) by (intro A; rewrite !mmulv_mmul, mul_zero; apply mul_rzero). now rewrite Z, Z', spin_zero.
  - destruct (rIr D) as [Ir|]; cbn [obnd]; [|exact I]. cbv zeta. rewrite !rot_axis, hb. apply tt_ss. apply mm_add; [apply mm_scale, mm_id|]. apply mm_scale. apply (mm_outer g HG).
Qed.
Lemma rM6net_moved : match rM6net D e k ph be att btt, rM6net D' e k' ph be' att' btt' with Some M, Some M' => moved_matrix6 g M M' | None, None => True | _, _ => False end.
Proof.
  unfold rM6net. pose proof rImat_moved as H. destruct (rImat D ph be), (rImat D' ph be'); cbn [obnd]; try contradiction; [|exact I]. cbv zeta. cbn [rn moved_rod]. apply blocks_6.
  pose proof (rM6_moved (rMnet D e k ph att btt) (rMnet D' e k' ph att' btt') (rn D + 1) rMnet_moved) as (A & B & C & E). repeat split; cbn [m6tl m6tr m6bl m6br]; try assumption. apply maps_add; [apply spin_add|exact E|exact H].
Qed.
End G.
