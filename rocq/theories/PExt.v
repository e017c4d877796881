(** How far earlier findings reach: proofs. *)
From Coq Require Import ZArith List Arith Bool Reals Lra Lia.
From Verif Require Import MErr MVec MInterp MLine SLine MScheme PSchemeEq.
Import ListNotations.
Open Scope R_scope.

Lemma bottom_z e A wd r rd : vz (bottom e A wd r rd) = if Rlt_dec (vz r) wd then ((wd - vz r) * kb e - vz rd * cb e) * 0.5 * A else 0.
Proof. unfold bottom. destruct (Rlt_dec (vz r) wd); [|reflexivity]. cbv zeta. destruct (Req_EM_T _ 0); reflexivity. Qed.
Lemma bed_pulls_when e A wd r rd : 0 < A -> (vz (bottom e A wd r rd) < 0 <-> vz r < wd /\ (wd - vz r) * kb e < vz rd * cb e).
Proof.
  intro H. rewrite bottom_z. destruct (Rlt_dec (vz r) wd) as [I|I]; [|split; [intro; lra|intros [? ?]; lra]]. split.
  - intro K. split; [exact I|]. nra.
  - intros [_ K]. nra.
Qed.
Lemma bed_pulls_surface e A wd r rd : 0 < A -> 0 < kb e -> 0 < cb e -> 0 < vz rd -> 0 < wd - vz r < vz rd * cb e / kb e -> vz (bottom e A wd r rd) < 0.
Proof.
  intros H K C V [P Q]. apply bed_pulls_when; [exact H|]. split; [lra|]. apply (Rmult_lt_compat_r (kb e)) in Q; [|exact K].
  replace (vz rd * cb e / kb e * kb e) with (vz rd * cb e) in Q by (field; lra). exact Q.
Qed.

Lemma tanh_low x : x <= -1.6 -> tanh x <= - 0.8.
Proof.
  intro H. unfold tanh, sinh, cosh. set (u := exp (- x)). assert (Hu : exp x = / u) by (unfold u; rewrite <- exp_Ropp, Ropp_involutive; reflexivity). rewrite Hu.
  assert (U : 1.4 * 1.4 * (1.4 * 1.4) <= u).
  { apply Rle_trans with (exp 1.6).
    - replace 1.6 with (0.4 + 0.4 + (0.4 + 0.4)) by lra. rewrite !exp_plus. assert (1.4 <= exp 0.4) by (pose proof (exp_ineq1_le 0.4); lra). apply Rmult_le_compat; try nra.
    - unfold u. destruct (Req_dec 1.6 (- x)) as [<-|N]; [lra|]. left. apply exp_increasing. lra. }
  assert (P : 0 < u) by lra. assert (0 < / u) by now apply Rinv_0_lt_compat. assert (I : / u <= / 3). { apply Rinv_le_contravar; lra. }
  apply (Rmult_le_reg_r ((/ u + u) / 2)); [lra|]. replace ((/ u - u) / 2 / ((/ u + u) / 2) * ((/ u + u) / 2)) with ((/ u - u) / 2) by (field; split; nra).
  assert (U2 : 9 <= u * u) by nra. assert (u * / u = 1) by (apply Rinv_r; lra). nra.
Qed.
Lemma newmark_over n g b i : (40 <= n)%nat -> (20 * (i + 1) <= n)%nat -> 1 < relax n (relax_c (Newmark n g b)) i.
Proof.
  intros N I. unfold relax. cbn [relax_c fst snd]. assert (A : 40 <= INR n) by (apply le_INR in N; replace (INR 40) with 40 in N by (cbn; lra); exact N).
  assert (B : 20 * (INR i + 1) <= INR n) by (apply le_INR in I; rewrite mult_INR, plus_INR in I; replace (INR 20) with 20 in I by (cbn; lra); cbn [INR] in I; lra).
  assert (Y : 1 / INR n <= 1 / 40) by (unfold Rdiv; rewrite !Rmult_1_l; apply Rinv_le_contravar; lra).
  assert (X : (INR i + 1) / INR n <= 1 / 20) by (apply (Rmult_le_reg_r (INR n)); [lra|]; unfold Rdiv; rewrite Rmult_assoc, Rinv_l by lra; lra).
  pose proof (tanh_low (4 * ((INR i + 1) / INR n - 0.5)) ltac:(lra)). lra.
Qed.
Lemma newmark_range n g b i : (1 <= n)%nat -> 0 <= relax n (relax_c (Newmark n g b)) i < 1.05.
Proof.
  intro N. split; [cbn [relax_c]; pose proof (relax_bounds n 0.9 0.15 i N ltac:(lra) ltac:(lra)); lra|]. unfold relax. cbn [relax_c fst snd].
  pose proof (tanh_bound (4 * ((INR i + 1) / INR n - 0.5))). assert (1 <= INR n) by (apply (le_INR 1); exact N). assert (0 < 1 / INR n) by (apply Rdiv_lt_0_compat; lra). lra.
Qed.
Lemma newmark_few n g b i : (1 <= n <= 6)%nat -> relax n (relax_c (Newmark n g b)) i < 1.
Proof.
  intros [N M]. unfold relax. cbn [relax_c fst snd]. pose proof (tanh_bound (4 * ((INR i + 1) / INR n - 0.5))). assert (1 <= INR n) by (apply (le_INR 1); exact N).
  assert (INR n <= 6) by (apply le_INR in M; replace (INR 6) with 6 in M by (cbn; lra); exact M).
  assert (1 / 6 <= 1 / INR n) by (unfold Rdiv; rewrite !Rmult_1_l; apply Rinv_le_contravar; lra). lra.
Qed.
