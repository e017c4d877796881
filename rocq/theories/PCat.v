(** Proofs about the catenary routine: the profile is a static line. *)
From Coq Require Import Reals ZArith List Arith Lra Lia.
From Verif Require Import MErr MVec MStateOps MCat SCat.
Import ListNotations.
Open Scope R_scope.

Lemma dl_eq f x d d' : derivable_pt_lim f x d -> d = d' -> derivable_pt_lim f x d'.
Proof. intros H E. rewrite <- E. exact H. Qed.
Lemma dl_ext f g x d : (forall s, f s = g s) -> derivable_pt_lim f x d -> derivable_pt_lim g x d.
Proof. intros E H e He. destruct (H e He) as (del & D). exists del. intros u Hu1 Hu2. rewrite <- !E. apply D; assumption. Qed.
Lemma dl_const c x : derivable_pt_lim (fun _ => c) x 0.
Proof. apply derivable_pt_lim_const. Qed.
Lemma dl_id x : derivable_pt_lim (fun s => s) x 1.
Proof. apply derivable_pt_lim_id. Qed.
Lemma dl_plus f g x a b : derivable_pt_lim f x a -> derivable_pt_lim g x b -> derivable_pt_lim (fun s => f s + g s) x (a + b).
Proof. apply derivable_pt_lim_plus. Qed.
Lemma dl_minus f g x a b : derivable_pt_lim f x a -> derivable_pt_lim g x b -> derivable_pt_lim (fun s => f s - g s) x (a - b).
Proof. apply derivable_pt_lim_minus. Qed.
Lemma dl_mult f g x a b : derivable_pt_lim f x a -> derivable_pt_lim g x b -> derivable_pt_lim (fun s => f s * g s) x (a * g x + f x * b).
Proof. apply derivable_pt_lim_mult. Qed.
Lemma dl_div f g x a b : derivable_pt_lim f x a -> derivable_pt_lim g x b -> g x <> 0 -> derivable_pt_lim (fun s => f s / g s) x ((a * g x - b * f x) / Rsqr (g x)).
Proof. intros. apply derivable_pt_lim_div; assumption. Qed.
Lemma dl_divc f c x a : derivable_pt_lim f x a -> derivable_pt_lim (fun s => f s / c) x (a / c).
Proof. intros H. apply dl_eq with (a * / c + f x * 0); [apply (dl_mult f (fun _ => / c)); [exact H|apply dl_const]|unfold Rdiv; ring]. Qed.
Lemma dl_comp f g x a b : derivable_pt_lim g x a -> derivable_pt_lim f (g x) b -> derivable_pt_lim (fun s => f (g s)) x (b * a).
Proof. intros H1 H2. exact (derivable_pt_lim_comp g f x a b H1 H2). Qed.

(* ------------------------------ the square root and the logarithm of the routine ------------------------------ *)
Definition sq1 (x : R) : R := sqrt (1 + x * x).
Definition lg (x : R) : R := ln (x + sq1 x).
Lemma sq1_pos x : 0 < sq1 x.
Proof. unfold sq1. apply sqrt_lt_R0. pose proof (Rle_0_sqr x) as H. unfold Rsqr in H. lra. Qed.
Lemma sq1_sqr x : sq1 x * sq1 x = 1 + x * x.
Proof. unfold sq1. apply sqrt_sqrt. pose proof (Rle_0_sqr x) as H. unfold Rsqr in H. lra. Qed.
Lemma sq1_arg x : sq1 x = sqrt (x ^ 2 + 1).
Proof. unfold sq1. f_equal. ring. Qed.
Lemma lg_arcsinh x : lg x = arcsinh x.
Proof. unfold lg, arcsinh. rewrite sq1_arg. reflexivity. Qed.
Lemma lg_0 : lg 0 = 0.
Proof. rewrite lg_arcsinh. apply arcsinh_0. Qed.
Lemma sq1_0 : sq1 0 = 1.
Proof. unfold sq1. replace (1 + 0 * 0) with 1 by ring. apply sqrt_1. Qed.
Lemma sq1_ge1 x : 1 <= sq1 x.
Proof. pose proof (sq1_pos x). pose proof (sq1_sqr x). pose proof (Rle_0_sqr x) as Hx. unfold Rsqr in Hx. nra. Qed.
Lemma sq1_gt x : 0 < x + sq1 x.
Proof. pose proof (sq1_pos x). pose proof (sq1_sqr x). destruct (Rle_lt_dec 0 x) as [Hx|Hx]; [lra|nra]. Qed.
Lemma dl_sq1 u x du : derivable_pt_lim u x du -> derivable_pt_lim (fun s => sq1 (u s)) x (u x * du / sq1 (u x)).
Proof.
  intros H. pose proof (sq1_pos (u x)) as P. eapply dl_eq.
  - apply (dl_comp sqrt (fun s => 1 + u s * u s) x).
    + apply dl_plus; [apply dl_const|]. apply dl_mult; exact H.
    + apply derivable_pt_lim_sqrt. pose proof (Rle_0_sqr (u x)) as Hx. unfold Rsqr in Hx. lra.
  - fold (sq1 (u x)). field. lra.
Qed.
Lemma dl_lg u x du : derivable_pt_lim u x du -> derivable_pt_lim (fun s => lg (u s)) x (du / sq1 (u x)).
Proof.
  intros H. apply dl_ext with (fun s => arcsinh (u s)); [intros s; symmetry; apply lg_arcsinh|]. eapply dl_eq.
  - apply (dl_comp arcsinh u x); [exact H|apply derivable_pt_lim_arcsinh].
  - rewrite <- sq1_arg. field. pose proof (sq1_pos (u x)). lra.
Qed.
(** the tension in terms of its horizontal part *)
Lemma hyp H V : 0 < H -> sqrt (H * H + V * V) = H * sq1 (V / H).
Proof.
  intros HH. pose proof (sq1_pos (V / H)) as P. apply Rsqr_inj; [apply sqrt_pos|nra|]. unfold Rsqr. rewrite sqrt_sqrt by nra.
  transitivity (H * H * (sq1 (V / H) * sq1 (V / H))); [rewrite sq1_sqr; field; lra|ring].
Qed.

(* ------------------------------ gluing ------------------------------ *)
Lemma glue_left f g k a s d : (forall x, f x = if Rle_dec x a then g x else k x) -> s < a -> derivable_pt_lim g s d -> derivable_pt_lim f s d.
Proof.
  intros Hf Hs Hd. apply (derivable_pt_lim_locally_ext g f s (s - 1) a); [lra| |exact Hd]. intros z Hz. rewrite Hf. destruct (Rle_dec z a); [reflexivity|lra].
Qed.
Lemma glue_right f g k a s d : (forall x, f x = if Rle_dec x a then g x else k x) -> a < s -> derivable_pt_lim k s d -> derivable_pt_lim f s d.
Proof.
  intros Hf Hs Hd. apply (derivable_pt_lim_locally_ext k f s a (s + 1)); [lra| |exact Hd]. intros z Hz. rewrite Hf. destruct (Rle_dec z a); [lra|reflexivity].
Qed.
Lemma cont_of f s d : derivable_pt_lim f s d -> continuity_pt f s.
Proof. intros H. apply derivable_continuous_pt. exists d. exact H. Qed.
Lemma glue_cont f g k a : (forall x, f x = if Rle_dec x a then g x else k x) -> continuity g -> continuity k -> g a = k a -> continuity f.
Proof.
  intros Hf Hg Hk E s. destruct (Rtotal_order s a) as [H|[H|H]].
  - apply (continuity_pt_locally_ext g f (a - s) s); [lra| |apply Hg]. intros y Hy. unfold R_dist in Hy. rewrite Hf. destruct (Rle_dec y a) as [_|N]; [reflexivity|]. exfalso. apply N. unfold Rabs in Hy. destruct (Rcase_abs (y - s)); lra.
  - subst s. intros e He. destruct (Hg a e He) as (d1 & P1 & D1). destruct (Hk a e He) as (d2 & P2 & D2). exists (Rmin d1 d2). split; [apply Rmin_glb_lt; assumption|].
    intros y (Hy & Hyd). rewrite (Hf a). destruct (Rle_dec a a) as [_|N]; [|lra]. rewrite Hf. destruct (Rle_dec y a) as [L|L].
    + apply D1. split; [exact Hy|]. eapply Rlt_le_trans; [exact Hyd|apply Rmin_l].
    + rewrite E. apply D2. split; [exact Hy|]. eapply Rlt_le_trans; [exact Hyd|apply Rmin_r].
  - apply (continuity_pt_locally_ext k f (s - a) s); [lra| |apply Hk]. intros y Hy. unfold R_dist in Hy. rewrite Hf. destruct (Rle_dec y a) as [N|_]; [|reflexivity]. exfalso. unfold Rabs in Hy. destruct (Rcase_abs (y - s)); lra.
Qed.
Lemma div_nn a b : 0 <= a -> 0 < b -> 0 <= a / b.
Proof. intros A B. apply Rmult_le_pos; [exact A|left; apply Rinv_0_lt_compat; exact B]. Qed.
