(** Proofs about the catenary routine: the iteration is Newton's method. *)
From Coq Require Import Reals ZArith List Arith Lra Lia.
From Verif Require Import MErr MVec MStateOps MCat SCat PCat PCatB.
Import ListNotations.
Open Scope R_scope.

Lemma r1 x : (x + x * x / sq1 x) / (x + sq1 x) = x / sq1 x.
Proof. pose proof (sq1_pos x). pose proof (sq1_gt x). field. lra. Qed.
Lemma r2 x : (1 + x / sq1 x) / (x + sq1 x) = 1 / sq1 x.
Proof. pose proof (sq1_pos x). pose proof (sq1_gt x). field. lra. Qed.
Lemma r3 x : sq1 x - x * x / sq1 x = 1 / sq1 x.
Proof. pose proof (sq1_pos x) as P. pose proof (sq1_sqr x) as Q. apply Rmult_eq_reg_r with (sq1 x); [|lra]. transitivity (sq1 x * sq1 x - x * x); [field; lra|]. rewrite Q. field. lra. Qed.
Lemma dl_over a x : x <> 0 -> derivable_pt_lim (fun h => a / h) x (- a / (x * x)).
Proof. intros H. eapply dl_eq; [apply dl_div; [apply dl_const|apply dl_id|exact H]|]. unfold Rsqr. cbn. field. exact H. Qed.

Section Newton.
Variables (XF ZF L EA W CB : R).
Hypotheses (HEA : 0 < EA) (HW : W <> 0).
(** errors and Jacobian with short names *)
Definition eH (h v : R) : R * R :=
  ((lg (v / h) - lg ((v - W * L) / h)) * (h / W) + L / EA * h - XF, (sq1 (v / h) - sq1 ((v - W * L) / h)) * (h / W) + L / EA * (v - 1 / 2 * (W * L)) - ZF).
Definition eG (h v : R) : R * R :=
  (lg (v / h) * (h / W) - 1 / 2 * (CB / EA) * W * (L - v / W) * (L - v / W) + L / EA * h + (L - v / W) - XF, (sq1 (v / h) - 1) * (h / W) + 1 / 2 * v * (v / (W * EA)) - ZF).
Definition eL (h v : R) : R * R :=
  (lg (v / h) * (h / W) - 1 / 2 * (CB / EA) * W * ((L - v / W) * (L - v / W) - (L - v / W - h / W / CB) * (L - v / W - h / W / CB)) + L / EA * h + (L - v / W) - XF,
   (sq1 (v / h) - 1) * (h / W) + 1 / 2 * v * (v / (W * EA)) - ZF).
Lemma errors_short k h v : errors XF ZF L EA W CB k h v = match k with Hanging => eH h v | Grounded => eG h v | Loose => eL h v end.
Proof. destruct k; reflexivity. Qed.
Definition jH (h v : R) : R * R * R * R :=
  let a := v / h in let b := (v - W * L) / h in
  ((lg a - lg b) / W - (a / sq1 a - b / sq1 b) / W + L / EA, (1 / sq1 a - 1 / sq1 b) / W, (1 / sq1 a - 1 / sq1 b) / W, (a / sq1 a - b / sq1 b) / W + L / EA).
Definition jG (h v : R) : R * R * R * R :=
  let a := v / h in
  (lg a / W - a / sq1 a / W + L / EA, 1 / sq1 a / W + CB / EA * (L - v / W) - 1 / W, (1 / sq1 a - 1) / W, a / sq1 a / W + v / (W * EA)).
Definition jL (h v : R) : R * R * R * R :=
  let a := v / h in
  (lg a / W - a / sq1 a / W + L / EA - (L - v / W - h / W / CB) / EA, 1 / sq1 a / W + h / (W * EA) - 1 / W, (1 / sq1 a - 1) / W, a / sq1 a / W + v / (W * EA)).
Lemma jacobian_short k h v : jacobian L EA W CB k h v = match k with Hanging => jH h v | Grounded => jG h v | Loose => jL h v end.
Proof.
  destruct k.
  - transitivity (((lg (v / h) - lg ((v - W * L) / h)) / W - ((v / h + v / h * (v / h) / sq1 (v / h)) / (v / h + sq1 (v / h)) - ((v - W * L) / h + (v - W * L) / h * ((v - W * L) / h) / sq1 ((v - W * L) / h)) / ((v - W * L) / h + sq1 ((v - W * L) / h))) / W + L / EA,
      ((1 + v / h / sq1 (v / h)) / (v / h + sq1 (v / h)) - (1 + (v - W * L) / h / sq1 ((v - W * L) / h)) / ((v - W * L) / h + sq1 ((v - W * L) / h))) / W,
      (sq1 (v / h) - sq1 ((v - W * L) / h)) / W - (v / h * (v / h) / sq1 (v / h) - (v - W * L) / h * ((v - W * L) / h) / sq1 ((v - W * L) / h)) / W,
      (v / h / sq1 (v / h) - (v - W * L) / h / sq1 ((v - W * L) / h)) / W + L / EA)); [reflexivity|].
    rewrite !r1, !r2. unfold jH. cbv zeta. f_equal. f_equal. rewrite <- !r3. unfold Rdiv. ring.
  - transitivity ((lg (v / h) / W - ((v / h + v / h * (v / h) / sq1 (v / h)) / (v / h + sq1 (v / h))) / W + L / EA,
      ((1 + v / h / sq1 (v / h)) / (v / h + sq1 (v / h))) / W + CB / EA * (L - v / W) - 1 / W,
      (sq1 (v / h) - 1 - v / h * (v / h) / sq1 (v / h)) / W, (v / h / sq1 (v / h)) / W + v / (W * EA))); [reflexivity|].
    rewrite !r1, !r2. unfold jG. cbv zeta. f_equal. f_equal. rewrite <- !r3. unfold Rdiv. ring.
  - transitivity ((lg (v / h) / W - ((v / h + v / h * (v / h) / sq1 (v / h)) / (v / h + sq1 (v / h))) / W + L / EA - (L - v / W - h / W / CB) / EA,
      ((1 + v / h / sq1 (v / h)) / (v / h + sq1 (v / h))) / W + h / (W * EA) - 1 / W,
      (sq1 (v / h) - 1 - v / h * (v / h) / sq1 (v / h)) / W, (v / h / sq1 (v / h)) / W + v / (W * EA))); [reflexivity|].
    rewrite !r1, !r2. unfold jL. cbv zeta. f_equal. f_equal. rewrite <- !r3. unfold Rdiv. ring.
Qed.
Section At.
Variables (HF VF : R).
Hypothesis (HH : 0 < HF).
Lemma lg_h c : derivable_pt_lim (fun h => lg (c / h) * (h / W)) HF (lg (c / HF) / W - c / HF / sq1 (c / HF) / W).
Proof.
  eapply dl_eq; [apply dl_mult; [apply dl_lg; apply dl_over; lra|apply dl_divc; apply dl_id]|]. cbn. field. pose proof (sq1_pos (c / HF)). repeat split; lra.
Qed.
Lemma sq_h c : derivable_pt_lim (fun h => sq1 (c / h) * (h / W)) HF (1 / sq1 (c / HF) / W).
Proof.
  eapply dl_eq; [apply dl_mult; [apply dl_sq1; apply dl_over; lra|apply dl_divc; apply dl_id]|]. rewrite <- r3. cbn. field. pose proof (sq1_pos (c / HF)). repeat split; lra.
Qed.
Lemma lg_v d : derivable_pt_lim (fun v => lg ((v - d) / HF) * (HF / W)) VF (1 / sq1 ((VF - d) / HF) / W).
Proof.
  eapply dl_eq; [apply dl_mult; [apply dl_lg; apply dl_divc; apply dl_minus; [apply dl_id|apply dl_const]|apply dl_const]|]. cbn. field. pose proof (sq1_pos ((VF - d) / HF)). repeat split; lra.
Qed.
Lemma sq_v d : derivable_pt_lim (fun v => sq1 ((v - d) / HF) * (HF / W)) VF ((VF - d) / HF / sq1 ((VF - d) / HF) / W).
Proof.
  eapply dl_eq; [apply dl_mult; [apply dl_sq1; apply dl_divc; apply dl_minus; [apply dl_id|apply dl_const]|apply dl_const]|]. cbn. field. pose proof (sq1_pos ((VF - d) / HF)). repeat split; lra.
Qed.
Lemma lg_v0 : derivable_pt_lim (fun v => lg (v / HF) * (HF / W)) VF (1 / sq1 (VF / HF) / W).
Proof. pose proof (lg_v 0) as H. rewrite Rminus_0_r in H. eapply dl_ext; [|exact H]. intros s. cbn. rewrite Rminus_0_r. reflexivity. Qed.
Lemma sq_v0 : derivable_pt_lim (fun v => sq1 (v / HF) * (HF / W)) VF (VF / HF / sq1 (VF / HF) / W).
Proof. pose proof (sq_v 0) as H. rewrite Rminus_0_r in H. eapply dl_ext; [|exact H]. intros s. cbn. rewrite Rminus_0_r. reflexivity. Qed.
Lemma lin_h a b : derivable_pt_lim (fun h => a * h + b) HF a.
Proof. eapply dl_eq; [apply dl_plus; [apply dl_mult; [apply dl_const|apply dl_id]|apply dl_const]|cbn; ring]. Qed.
Lemma lin_v a b : derivable_pt_lim (fun v => a * v + b) VF a.
Proof. eapply dl_eq; [apply dl_plus; [apply dl_mult; [apply dl_const|apply dl_id]|apply dl_const]|cbn; ring]. Qed.
Lemma quad a b c x : derivable_pt_lim (fun v => a * (v * v) + b * v + c) x (2 * a * x + b).
Proof.
  eapply dl_eq; [apply dl_plus; [apply dl_plus; [apply dl_mult; [apply dl_const|apply dl_mult; apply dl_id]|apply dl_mult; [apply dl_const|apply dl_id]]|apply dl_const]|cbn; ring].
Qed.
Definition partials (e : R -> R -> R * R) (j : R * R * R * R) : Prop :=
  let '(a, b, c, d) := j in
  derivable_pt_lim (fun h => fst (e h VF)) HF a /\ derivable_pt_lim (fun v => fst (e HF v)) VF b /\
  derivable_pt_lim (fun h => snd (e h VF)) HF c /\ derivable_pt_lim (fun v => snd (e HF v)) VF d.
Ltac via H := eapply dl_ext; [|eapply dl_eq; [exact H|]]; [intros s; cbn [fst snd]|].
Lemma partials_H : partials eH (jH HF VF).
Proof.
  pose proof (sq1_pos (VF / HF)) as P1. pose proof (sq1_pos ((VF - W * L) / HF)) as P2.
  unfold partials, jH, eH. cbv zeta. split; [|split; [|split]].
  - via (dl_plus _ _ _ _ _ (dl_minus _ _ _ _ _ (lg_h VF) (lg_h (VF - W * L))) (lin_h (L / EA) (- XF))); [field; split; lra|field; repeat split; lra].
  - via (dl_plus _ _ _ _ _ (dl_minus _ _ _ _ _ lg_v0 (lg_v (W * L))) (lin_v 0 (L / EA * HF - XF))); [field; split; lra|field; repeat split; lra].
  - via (dl_plus _ _ _ _ _ (dl_minus _ _ _ _ _ (sq_h VF) (sq_h (VF - W * L))) (lin_h 0 (L / EA * (VF - 1 / 2 * (W * L)) - ZF))); [field; split; lra|field; repeat split; lra].
  - via (dl_plus _ _ _ _ _ (dl_minus _ _ _ _ _ sq_v0 (sq_v (W * L))) (lin_v (L / EA) (- (L / EA * (1 / 2 * (W * L))) - ZF))); [field; split; lra|field; repeat split; lra].
Qed.
Lemma partials_G : partials eG (jG HF VF).
Proof.
  unfold partials, jG, eG. cbv zeta. pose proof (sq1_pos (VF / HF)) as P1. split; [|split; [|split]].
  - via (dl_plus _ _ _ _ _ (lg_h VF) (lin_h (L / EA) (- (1 / 2 * (CB / EA) * W * (L - VF / W) * (L - VF / W)) + (L - VF / W) - XF))); [field; split; lra|field; repeat split; lra].
  - via (dl_plus _ _ _ _ _ lg_v0 (quad (- (1 / 2 * (CB / EA) / W)) (CB / EA * L - 1 / W) (- (1 / 2 * (CB / EA) * W * L * L) + L / EA * HF + L - XF) VF)); [field; repeat split; lra|field; repeat split; lra].
  - via (dl_plus _ _ _ _ _ (sq_h VF) (lin_h (- (1 / W)) (1 / 2 * VF * (VF / (W * EA)) - ZF))); [field; split; lra|field; repeat split; lra].
  - via (dl_plus _ _ _ _ _ sq_v0 (quad (1 / 2 / (W * EA)) 0 (- (HF / W) - ZF) VF)); [field; split; lra|field; repeat split; lra].
Qed.
Lemma partials_L : CB <> 0 -> partials eL (jL HF VF).
Proof.
  intros HC. unfold partials, jL, eL. cbv zeta. pose proof (sq1_pos (VF / HF)) as P1. split; [|split; [|split]].
  - via (dl_plus _ _ _ _ _ (lg_h VF) (quad (1 / 2 / (W * EA * CB)) (L / EA - (L - VF / W) / EA) (L - VF / W - XF) HF)); [field; repeat split; lra|field; repeat split; lra].
  - via (dl_plus _ _ _ _ _ lg_v0 (lin_v (HF / (W * EA) - 1 / W) (- (L * HF / EA) + 1 / 2 * HF * HF / (W * EA * CB) + L / EA * HF + L - XF))); [field; repeat split; lra|field; repeat split; lra].
  - via (dl_plus _ _ _ _ _ (sq_h VF) (lin_h (- (1 / W)) (1 / 2 * VF * (VF / (W * EA)) - ZF))); [field; split; lra|field; repeat split; lra].
  - via (dl_plus _ _ _ _ _ sq_v0 (quad (1 / 2 / (W * EA)) 0 (- (HF / W) - ZF) VF)); [field; split; lra|field; repeat split; lra].
Qed.
Lemma partials_all k : (k = Loose -> CB <> 0) -> partials (errors XF ZF L EA W CB k) (jacobian L EA W CB k HF VF).
Proof.
  intros Hk. rewrite jacobian_short. 
  assert (E : forall e j, (forall h v, errors XF ZF L EA W CB k h v = e h v) -> partials e j -> partials (errors XF ZF L EA W CB k) j).
  { intros e [[[a b] c] d] E (A & B & C & D). split; [|split; [|split]].
    - eapply dl_ext; [|exact A]. intros s. cbn. rewrite E. reflexivity.
    - eapply dl_ext; [|exact B]. intros s. cbn. rewrite E. reflexivity.
    - eapply dl_ext; [|exact C]. intros s. cbn. rewrite E. reflexivity.
    - eapply dl_ext; [|exact D]. intros s. cbn. rewrite E. reflexivity. }
  destruct k; [apply (E eH)|apply (E eG)|apply (E eL)]; try (intros; apply errors_short); [apply partials_H|apply partials_G|apply partials_L; apply Hk; reflexivity].
Qed.
End At.

(* ------------------------------ the errors are the distance from the end of the profile to the target ------------------------------ *)
Lemma end_hang h v : 0 < h -> PX L EA W CB h v Hanging L = fst (errors XF ZF L EA W CB Hanging h v) + XF /\ PZ L EA W CB h v Hanging L = snd (errors XF ZF L EA W CB Hanging h v) + ZF.
Proof.
  intros Hh. rewrite errors_short, hang_x, hang_z. unfold eH. cbn [fst snd]. replace (v - W * L + W * L) with v by ring. split; field; split; lra.
Qed.
Lemma end_bed k h v : 0 < h -> 0 < W -> 0 <= CB -> 0 <= v -> k <> Hanging -> (k = Loose -> h <= - CB * (v - W * L)) ->
  PX L EA W CB h v k L = fst (errors XF ZF L EA W CB k h v) + XF /\ PZ L EA W CB h v k L = snd (errors XF ZF L EA W CB k h v) + ZF.
Proof.
  intros Hh PW PC Hv Hk HL. rewrite errors_short.
  assert (Hst : st L W v <= L) by (unfold st; assert (0 <= v / W) by (apply div_nn; lra); lra).
  assert (Q : airz L EA W h v L = (sq1 (v / h) - 1) * (h / W) + 1 / 2 * v * (v / (W * EA))) by (unfold airz; replace (v - W * L + W * L) with v by ring; field; lra).
  assert (Zl : forall k', k' <> Hanging -> PZ L EA W CB h v k' L = if Rle_dec L (st L W v) then 0 else airz L EA W h v L).
  { intros k' Hk'. destruct k'; [congruence|apply ground_z; assumption|]. unfold PZ, node. cbn [fst snd]. fold (st L W v).
    destruct (Rle_dec L (st L W v - h / W / CB)) as [A|A]; cbn [fst snd].
    - destruct (Rle_dec L (st L W v)) as [B|B]; [reflexivity|]. exfalso. apply B. assert (0 <= h / W / CB); [|lra].
      destruct (Req_EM_T CB 0) as [E0|E0]; [rewrite E0; unfold Rdiv; rewrite Rinv_0; lra|]. apply div_nn; [apply div_nn; lra|lra].
    - destruct (Rle_dec L (st L W v)) as [B|B]; cbn [fst snd]; [reflexivity|]. fold (sq1 ((v - W * L + W * L) / h)). unfold airz. ring. }
  assert (Zv : (if Rle_dec L (st L W v) then 0 else airz L EA W h v L) = airz L EA W h v L).
  { destruct (Rle_dec L (st L W v)); [|reflexivity]. assert (E : L = st L W v) by lra. transitivity (airz L EA W h v (st L W v)); [symmetry; apply airz_st; assumption|rewrite <- E; reflexivity]. }
  assert (Dd : drag L W CB h v L = h + CB * v) by (unfold drag; ring).
  destruct k; [congruence| |].
  - split; [|rewrite Zl by discriminate; rewrite Zv, Q; unfold eG; cbn [snd]; ring].
    rewrite ground_x by assumption.
    assert (E : (if Rle_dec L (st L W v) then bedx L EA W CB h v 0 L else airx L EA W h v (cg L EA W CB v) L) = airx L EA W h v (cg L EA W CB v) L).
    { destruct (Rle_dec L (st L W v)); [|reflexivity]. assert (E : L = st L W v) by lra. 
      transitivity (bedx L EA W CB h v 0 (st L W v)); [rewrite <- E; reflexivity|]. rewrite ground_join by assumption. rewrite <- E. reflexivity. }
    rewrite E. unfold airx, cg, st, eG. cbn [fst]. replace (v - W * L + W * L) with v by ring. field. lra.
  - specialize (HL eq_refl). assert (PCB : 0 < CB) by (exact (cb_pos L W CB h v HW Hh PW PC HL)).
    split; [|rewrite Zl by discriminate; rewrite Zv, Q; unfold eL; cbn [snd]; ring].
    rewrite loose_x by assumption.
    assert (Sl : sl L W CB h v < st L W v) by (exact (sl_st L W CB h v HW Hh PW PC HL)).
    destruct (Rle_dec L (sl L W CB h v)) as [A|A]; [lra|]. unfold tailx.
    assert (E : (if Rle_dec L (st L W v) then bedx L EA W CB h v (cb L EA W CB h v) L else airx L EA W h v (ca L EA W CB h v) L) = airx L EA W h v (ca L EA W CB h v) L).
    { destruct (Rle_dec L (st L W v)); [|reflexivity]. assert (E : L = st L W v) by lra. 
      transitivity (bedx L EA W CB h v (cb L EA W CB h v) (st L W v)); [rewrite <- E; reflexivity|]. rewrite loose_join by assumption. rewrite <- E. reflexivity. }
    rewrite E. unfold airx, ca, st, eL. cbn [fst]. replace (v - W * L + W * L) with v by ring. field. repeat split; lra.
Qed.
End Newton.
