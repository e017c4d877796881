(** Proofs about bodies *)
From Coq Require Import Reals List Arith Lra Lia ZArith.
From Verif Require Import MErr MVec MStateOps MMat MInterp MLine MRod MBody SMat SLine SRod SBody PMat PEuler PLine PLineB PRod PRodB PRodC PBody.
Import ListNotations.
Open Scope R_scope.

(* ----- rotations ----- *)
Lemma cross_cof : forall Q a b, cross (mmulv Q a) (mmulv Q b) = mmulv (mtr (madj Q)) (cross a b).
Proof. intros [[q0 q1 q2] [q3 q4 q5] [q6 q7 q8]] [a b c] [d e g]. unfold madj, mtr, mmulv, cross, dot. cbn. f_equal; ring. Qed.
Lemma adj_left : forall Q, mmul (madj Q) Q = mscale (mdet Q) mid.
Proof. intros [[q0 q1 q2] [q3 q4 q5] [q6 q7 q8]]. unfold madj, mtr, mmul, mmulv, mdet, mscale, mid, vscale, cross, dot. split_mat; cbn; ring. Qed.
Lemma mscale_1 : forall A, mscale 1 A = A.
Proof. intros [[q0 q1 q2] [q3 q4 q5] [q6 q7 q8]]. unfold mscale, vscale. split_mat; cbn; ring. Qed.
Lemma rot_adj : forall Q, rotation Q -> madj Q = mtr Q.
Proof.
  intros Q [[O1 O2] D]. rewrite <- (mmul_id_r (madj Q)), <- O2, <- mmul_assoc, adj_left, D, mscale_1, mmul_id_l. reflexivity.
Qed.
Lemma rot_cross : forall Q a b, rotation Q -> cross (mmulv Q a) (mmulv Q b) = mmulv Q (cross a b).
Proof. intros Q a b H. rewrite cross_cof, rot_adj, mtr_mtr by exact H. reflexivity. Qed.
Lemma qrot_rotation : forall q, qnorm2 q = 1 -> rotation (qrot q).
Proof.
  intros q H. split; [apply qrot_orth; exact H|]. destruct (qrot_orth q H) as [_ O]. pose proof (pc _ (qrot_proper q H)) as P.
  destruct (qrot q) as [[q0 q1 q2] [q3 q4 q5] [q6 q7 q8]]. unfold mdet. cbn [mr0 mr1 mr2] in *.
  unfold mmul, mmulv, mtr, mid, dot in O. cbn in O. injection O as. unfold cross in P. cbn in P. injection P as.
  unfold cross, dot. cbn [vx vy vz]. subst. lra.
Qed.
Lemma orth_cancel' : forall Q v, orthogonal Q -> mmulv Q (mmulv (mtr Q) v) = v.
Proof. intros Q v [_ H]. rewrite <- mmulv_mmul, H, mmulv_id. reflexivity. Qed.

(* ----- the fold over the attached objects ----- *)
Lemma mmulv_scale : forall A k v, mmulv A (vscale k v) = vscale k (mmulv A v).
Proof. intros A k v. destruct A as [[a b c] [d e g] [h i j]], v as [x y z]. unfold mmulv, vscale, dot. cbn. f_equal; ring. Qed.
Lemma mmulv_mscale : forall k A v, mmulv (mscale k A) v = vscale k (mmulv A v).
Proof. intros k A v. destruct A as [[a b c] [d e g] [h i j]], v as [x y z]. unfold mmulv, mscale, vscale, dot. cbn. f_equal; ring. Qed.
Lemma mmulv_zero : forall v, mmulv mzero v = vzero.
Proof. intros [x y z]. unfold mmulv, mzero, vzero, dot. cbn. f_equal; ring. Qed.
Lemma hd_add : forall A B x, v6hd (m6mulv (m6add A B) x) = vadd (v6hd (m6mulv A x)) (v6hd (m6mulv B x)).
Proof. intros. unfold m6mulv, m6add. cbn [v6hd m6tl m6tr]. rewrite !mmulv_add_l. generalize (mmulv (m6tl A) (v6hd x)), (mmulv (m6tl B) (v6hd x)), (mmulv (m6tr A) (v6tl x)), (mmulv (m6tr B) (v6tl x)). vring. Qed.
Definition fold_parts (parts : list (v6 * m6)) (FM : v6 * m6) : v6 * m6 :=
  fold_left (fun FM p => (v6add (fst FM) (fst p), m6add (snd FM) (snd p))) parts FM.
Lemma fold_balance : forall w parts mss fs FM a al, Forall2 (fun x mf => balanced_part w x (fst mf) (snd mf)) parts (combine mss fs) ->
  length mss = length fs ->
  vsub (v6hd (m6mulv (snd (fold_parts parts FM)) (V6 a al))) (v6hd (fst (fold_parts parts FM)))
  = vadd (vsub (v6hd (m6mulv (snd FM) (V6 a al))) (v6hd (fst FM)))
         (vsub (vtotal (fun ms => vtotal (carried w a al) ms) mss) (vtotal (fun f => f) fs)).
Proof.
  intros w parts. induction parts as [|x parts IH]; intros mss fs FM a al H HL.
  - assert (fs = []) as -> by (destruct mss, fs; try reflexivity; try discriminate; inversion H).
    assert (mss = []) as -> by (destruct mss; [reflexivity | discriminate]). cbn [fold_parts fold_left vtotal fold_right].
    generalize (v6hd (m6mulv (snd FM) (V6 a al))), (v6hd (fst FM)). vring.
  - destruct mss as [|m mss], fs as [|f fs]; try discriminate; [inversion H|]. cbn [combine] in H.
    assert (H1 : balanced_part w x m f) by (inversion H; assumption).
    assert (H2 : Forall2 (fun x mf => balanced_part w x (fst mf) (snd mf)) parts (combine mss fs)) by (inversion H; assumption).
    change (fold_parts (x :: parts) FM) with (fold_parts parts (v6add (fst FM) (fst x), m6add (snd FM) (snd x))).
    rewrite (IH mss fs) by (try assumption; cbn in HL; lia). cbn [fst snd]. rewrite hd_add.
    pose proof (H1 a al) as B. cbn [fst snd] in B. unfold v6add. cbn [v6hd].
    cbn [vtotal fold_right]. fold (vtotal (fun ms => vtotal (carried w a al) ms) mss). fold (vtotal (fun f => f) fs). fold (vtotal (carried w a al) m).
    change (fold_right (fun x0 s => vadd (carried w a al x0) s) vzero m) with (vtotal (carried w a al) m).
    revert B. unfold vtotal.
    generalize (v6hd (m6mulv (snd FM) (V6 a al))), (v6hd (fst FM)), (v6hd (m6mulv (snd x) (V6 a al))), (v6hd (fst x)),
      (fold_right (fun (x0 : v3 * m3) (s : v3) => vadd (carried w a al x0) s) vzero m),
      (fold_right (fun (x0 : list (v3 * m3)) (s : v3) => vadd (fold_right (fun (x1 : v3 * m3) (s0 : v3) => vadd (carried w a al x1) s0) vzero x0) s) vzero mss), (fold_right (fun x0 s : v3 => vadd x0 s) vzero fs).
    intros [a1 a2 a3] [b1 b2 b3] [c1 c2 c3] [d1 d2 d3] [e1 e2 e3] [f1 f2 f3] [g1 g2 g3]. destruct f as [h1 h2 h3].
    unfold vsub, vadd. cbn [vx vy vz]. intros E. injection E; intros. f_equal; lra.
Qed.
Lemma point_part : forall p e U rBody w F M x, point_rhs p e U = Ok (F, M) -> point_share p e U rBody w = Ok x ->
  balanced_part w x [(vsub (p_r p) rBody, M)] F.
Proof.
  intros p e U rB w F M x H HS. unfold point_share in HS. rewrite H in HS. cbn [obind fst snd] in HS. injection HS as <-.
  intros a al. unfold m6mulv, translateMass. cbn [v6hd v6tl m6tl m6tr fst snd vtotal fold_right].
  rewrite mmulv_mmul, getH_cross. unfold carried, acceleration_at. cbn [fst snd]. rewrite !mmulv_add_r.
  generalize (mmulv M a), (mmulv M (cross al (vsub (p_r p) rB))), (mmulv M (cross w (cross w (vsub (p_r p) rB)))). destruct F. vring.
Qed.
Lemma cent_sum : forall D M rRef w n, rod_cent D M rRef w n = vscale (-1) (vsum n (fun i => mmulv (M i) (cross w (cross w (vsub (rnode D i) rRef))))).
Proof. intros D M rRef w n. induction n as [|n IH]; cbn [rod_cent vsum]; [vring|]. rewrite IH. generalize (vsum n (fun i => mmulv (M i) (cross w (cross w (vsub (rnode D i) rRef))))), (mmulv (M n) (cross w (cross w (vsub (rnode D n) rRef)))). vring. Qed.
Lemma vsum_total : forall n (f : nat -> v3), vsum n f = vtotal f (seq 0 n).
Proof.
  induction n as [|n IH]; intros f; [reflexivity|]. rewrite seq_S, vtotal_app, <- IH. cbn [vsum vtotal fold_right plus]. generalize (vsum n f), (f n). vring.
Qed.
Lemma vtotal_map : forall A B (h : A -> B) (f : B -> v3) l, vtotal f (map h l) = vtotal (fun x => f (h x)) l.
Proof. intros. induction l as [|x l IH]; [reflexivity|]. cbn [map vtotal fold_right]. f_equal. exact IH. Qed.
(** the masses of a rod's nodes at their offsets from the reference point *)
Definition rod_masses (D : rod) (M : nat -> m3) (rRef : v3) : list (v3 * m3) :=
  map (fun i => (vsub (rnode D i) rRef, M i)) (seq 0 (rn D + 1)).
Lemma rod_part : forall D e k ph be a b M6n rRef w, (0 < rn D)%nat ->
  rM6net D e k ph be a b = Some M6n ->
  balanced_part w (rod_share D (rF6net D e k ph be a b) M6n (rMnet D e k ph a b) rRef w)
    (rod_masses D (rMnet D e k ph a b) rRef) (vsum (rn D + 1) (rFnet D e k ph be a b)).
Proof.
  intros D e k ph be att btt M6n rRef w HN HM ac al. unfold rM6net in HM. apply obnd_some in HM. destruct HM as (I & _ & HM). injection HM as <-.
  set (M := rMnet D e k ph att btt) in *. unfold rod_share. cbn [fst snd]. replace (Nat.eqb (rn D) 0) with false by (symmetry; apply Nat.eqb_neq; lia).
  unfold rF6net. cbn [v6hd v6tl]. rewrite (rF6_sums D (rFnet D e k ph be att btt) (rn D + 1) HN (Nat.le_refl _)). cbn [v6hd v6tl].
  unfold rod_masses. rewrite vtotal_map, <- vsum_total, cent_sum.
  set (rRel := vsub (rnode D 0) rRef).
  assert (E : v6hd (m6mulv (translateMass6 rRel (M6 (m6tl (rM6 D M (rn D + 1))) (m6tr (rM6 D M (rn D + 1))) (m6bl (rM6 D M (rn D + 1))) (madd (m6br (rM6 D M (rn D + 1))) I))) (V6 ac al))
    = vsum (rn D + 1) (fun i => mmulv (M i) (vadd ac (cross al (vsub (rnode D i) rRef))))).
  { transitivity (v6hd (m6mulv (rM6 D M (rn D + 1)) (V6 (vadd ac (cross al rRel)) al))).
    - unfold m6mulv, translateMass6. cbn [v6hd v6tl m6tl m6tr]. rewrite mmulv_add_l, mmulv_mmul, getH_cross, !mmulv_add_r.
      generalize (mmulv (m6tl (rM6 D M (rn D + 1))) ac), (mmulv (m6tl (rM6 D M (rn D + 1))) (cross al rRel)), (mmulv (m6tr (rM6 D M (rn D + 1))) al). vring.
    - rewrite rM6_force. apply vsum_ext. intros i Hi. f_equal. unfold velocity_at. cbn [v6hd v6tl]. unfold rRel.
      rewrite node_0. generalize (rnode D i), (rA D), ac, al, rRef. vring. }
  rewrite E. unfold carried, acceleration_at. cbn [fst snd].
  rewrite (vsum_ext _ (fun x => mmulv (M x) (vadd (vadd ac (cross al (vsub (rnode D x) rRef))) (cross w (cross w (vsub (rnode D x) rRef)))))
    (fun i => vadd (mmulv (M i) (vadd ac (cross al (vsub (rnode D i) rRef)))) (mmulv (M i) (cross w (cross w (vsub (rnode D i) rRef)))))) by (intros; apply mmulv_add_r).
  rewrite vsum_add.
  generalize (vsum (rn D + 1) (fun i => mmulv (M i) (vadd ac (cross al (vsub (rnode D i) rRef))))), (vsum (rn D + 1) (fun i => mmulv (M i) (cross w (cross w (vsub (rnode D i) rRef))))), (vsum (rn D + 1) (rFnet D e k ph be att btt)). vring.
Qed.
