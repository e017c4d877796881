(** Proofs about the tensions for FAST. *)
From Coq Require Import Reals List Arith Lra Lia.
From Verif Require Import MErr MVec MMat MLine MFast SMat SLine SFrame PMat PLine PLineB PEnd PFrame.
Import ListNotations.
Open Scope R_scope.

(** the entry of the mass matrix that getFASTtens reads *)
Lemma m00 L e k i : vx (mr0 (lM L e k i)) =
  lmi L i + rho_w e * lvi L k i * (lCan L * (1 - vx (lq L i) * vx (lq L i)) + lCat L * (vx (lq L i) * vx (lq L i))).
Proof. unfold lM. cbv zeta. cbn. ring. Qed.
Lemma m00_ge L e k i : (0 < lN L)%nat -> (i <= lN L)%nat -> sensible L -> 0 <= rho_w e -> lmi L i <= vx (mr0 (lM L e k i)).
Proof.
  intros HN Hi HS HR. rewrite m00. pose proof (lvi_nonneg L k i HN Hi HS) as V. destruct HS as (_ & _ & _ & H4 & H5 & _ & _ & _ & H9 & H10).
  pose proof (lq_le1 L i H9 H10) as Q. unfold dot in Q. set (x := vx (lq L i)) in *. assert (0 <= x * x) by nra. assert (x * x <= 1) by nra.
  assert (0 <= lCan L * (1 - x * x) + lCat L * (x * x)) by nra. assert (0 <= rho_w e * lvi L k i) by nra. nra.
Qed.
Lemma norm2_turn g v : isometry g -> norm2 (turn g v) = norm2 v.
Proof. intro HG. unfold norm2. f_equal. pose proof (turn_dot g HG v v) as H. unfold dot in H. unfold turn in *. cbn in *. lra. Qed.
Lemma norm2_norm v : sqrt (norm2 v * norm2 v + vz v * vz v) = norm v.
Proof. unfold norm2, norm. rewrite sqrt_sqrt by nra. f_equal. Qed.
(** a horizontal line of one segment *)
Definition flat_line : line :=
  Line 1 0.1 (PI / 4 * (0.1 * 0.1)) 3000 1000 0 10 1 0 1.2 0.1 [] [] [] [] [] [] false (fun _ => 0)
    (fun i => match i with O => V3 0 0 (-20) | _ => V3 5 0 (-20) end) (fun _ => vzero) (fun _ => 4) (fun _ => PI * 0.01) false false (V3 1 0 0) (V3 1 0 0).
Lemma flat_sensible : sensible flat_line.
Proof. pose proof PI_RGT_0. unfold sensible, dot. cbn. repeat split; intros; try lra; nra. Qed.
Lemma flat_q : lq flat_line 1 = V3 1 0 0.
Proof.
  assert (S : seg flat_line 0 = V3 5 0 0) by (unfold seg, vsub; cbn; f_equal; lra). assert (HN : norm (seg flat_line 0) = 5) by (rewrite S; apply norm_x; lra).
  change (lq flat_line 1) with (lqs flat_line 0). rewrite unit_seg by (rewrite HN; pose proof tol_small; lra). rewrite HN, S. unfold vscale. cbn. f_equal; lra.
Qed.
