(** Proofs about lines with a segment shorter than the tolerance. *)
From Coq Require Import Reals List Arith ZArith Bool Lra Lia.
From Verif Require Import MErr MVec MStateOps MMat MLine SLine PMat PLine PLineB PLineE.
Import ListNotations.
Open Scope R_scope.

(** a pinned line of two segments at a right angle, the second one of length [d] *)
Definition nib (d : R) : line :=
  Line 2 0.1 0.01 1000 1000 50 10 1 0 1.2 0.1 [] [] [] [] [] [] false (fun _ => 0)
    (fun i => match i with O => V3 (-1) 0 0 | Datatypes.S O => vzero | _ => V3 0 d 0 end)
    (fun _ => vzero) (fun i => match i with O => 1 | _ => d end) (fun _ => 1) false false (V3 1 0 0) (V3 1 0 0).
Lemma eq_small : forall x, 0 <= x <= tol -> equalRealNos x 0 = true.
Proof. intros x H. apply eq0_spec; apply H. Qed.
Lemma nib_moment : forall d e k, 0 < d <= tol -> exists F, line_forces (nib d) e k = Some F /\
  vsum 3 (fun i => cross (lr (nib d) i) (internal (nib d) e k F i)) = V3 0 0 (50 * (4 / (1 + d) * sqrt (0.5 * (1 - 0))) * d * (1 - d)).
Proof.
  intros d e k H.
  assert (T1 : tol < / 10). { unfold tol. assert (1000 < 2 ^ 52) by (apply (Rlt_trans _ (2 ^ 10)); [lra|apply Rlt_pow; [lra|lia]]). apply (Rmult_lt_reg_r (2 ^ 52)); [lra|]. unfold Rdiv. rewrite Rmult_assoc, Rinv_l by lra. lra. }
  assert (E1 : eps64 < / 10). { unfold eps64. assert (1000 < 2 ^ 52) by (apply (Rlt_trans _ (2 ^ 10)); [lra|apply Rlt_pow; [lra|lia]]). apply Rinv_lt_contravar; lra. }
  assert (D1 : vsub vzero (V3 (-1) 0 0) = V3 1 0 0) by (apply v3eq; cbn; ring).
  assert (D2 : vsub (V3 0 d 0) vzero = V3 0 d 0) by (apply v3eq; cbn; ring).
  assert (N1 : norm (V3 1 0 0) = 1) by (unfold norm, dot; cbn; replace (1 * 1 + 0 * 0 + 0 * 0) with 1 by ring; apply sqrt_1).
  assert (N2 : norm (V3 0 d 0) = d) by (unfold norm, dot; cbn; replace (0 * 0 + d * d + 0 * 0) with (d * d) by ring; apply sqrt_square; lra).
  assert (N3 : norm (V3 0 0 d) = d) by (unfold norm, dot; cbn; replace (0 * 0 + 0 * 0 + d * d) with (d * d) by ring; apply sqrt_square; lra).
  assert (U1 : unitvector (V3 (-1) 0 0) vzero = (V3 1 0 0, 1)). { unfold unitvector. rewrite D1, N1, eq0_false by lra. f_equal. apply v3eq; cbn; field. }
  assert (U2 : unitvector vzero (V3 0 d 0) = (V3 0 d 0, d)). { unfold unitvector. rewrite D2, N2, eq_small by lra. reflexivity. }
  assert (L0 : llstr (nib d) 0 = 1) by (unfold llstr; change (lr (nib d) 0) with (V3 (-1) 0 0); change (lr (nib d) 1) with vzero; rewrite U1; reflexivity).
  assert (L1 : llstr (nib d) 1 = d) by (unfold llstr; change (lr (nib d) 2) with (V3 0 d 0); change (lr (nib d) 1) with vzero; rewrite U2; reflexivity).
  assert (Q0 : lqs (nib d) 0 = V3 1 0 0) by (unfold lqs; change (lr (nib d) 0) with (V3 (-1) 0 0); change (lr (nib d) 1) with vzero; rewrite U1; reflexivity).
  assert (Q1 : lqs (nib d) 1 = V3 0 d 0) by (unfold lqs; change (lr (nib d) 2) with (V3 0 d 0); change (lr (nib d) 1) with vzero; rewrite U2; reflexivity).
  set (K := 4 / (1 + d) * sqrt (0.5 * (1 - 0))).
  assert (R2 : / 2 <= sqrt (0.5 * (1 - 0))) by (rewrite <- (sqrt_square (/ 2)) at 1 by lra; apply sqrt_le_1; lra).
  assert (KP : 1 <= K). { unfold K. apply Rle_trans with (4 / (1 + d) * / 2); [|apply Rmult_le_compat_l; [|exact R2]; apply Rlt_le, Rdiv_lt_0_compat; lra]. apply (Rmult_le_reg_r (1 + d)); [lra|]. replace (4 / (1 + d) * / 2 * (1 + d)) with 2 by (field; lra). lra. }
  assert (K0 : lKurv (nib d) 0 = 0) by reflexivity. assert (K2 : lKurv (nib d) 2 = 0) by reflexivity.
  assert (K1 : lKurv (nib d) 1 = K).
  { unfold lKurv. cbn [Nat.eqb lN nib Nat.sub]. fold (nib d). rewrite Q0, Q1, L0, L1. unfold getCurvature. replace (dot (V3 1 0 0) (V3 0 d 0)) with 0 by (unfold dot; cbn; ring). destruct (Rlt_dec _ _); [lra|]. reflexivity. }
  assert (P1 : lpvec (nib d) 1 = V3 0 0 d).
  { unfold lpvec. rewrite K1, eq0_false by lra. cbn [Nat.eqb lN nib Nat.sub]. fold (nib d). rewrite Q0, Q1. replace (cross (V3 1 0 0) (V3 0 d 0)) with (V3 0 0 d) by (unfold cross; apply v3eq; cbn; ring). rewrite N3, eq_small by lra. reflexivity. }
  assert (Z0 : equalRealNos 0 0 = true) by (apply eq_small; assert (0 < tol) by lra; lra).
  assert (EI : lisEI (nib d) = true) by (unfold lisEI; cbn; destruct (Rlt_dec 0 50); [reflexivity|lra]).
  assert (HB : exists Bs, lBs (nib d) = Some Bs /\ Bs 0%nat = V3 0 (- (K * 50 * d)) 0 /\ Bs 2%nat = V3 (K * 50 * d) 0 0).
  { assert (S0 : forall B, bend1 (nib d) 0 B = Some B) by (intro B; unfold bend1; rewrite K0, Z0; reflexivity).
    assert (S2 : forall B, bend1 (nib d) 2 B = Some B) by (intro B; unfold bend1; rewrite K2, Z0; reflexivity).
    unfold lBs. rewrite EI. change (lN (nib d) + 1)%nat with 3%nat. cbn [bend obnd]. rewrite S0. cbn [obnd].
    unfold bend1 at 1. rewrite K1, eq0_false by lra. change (Nat.eqb 1 0) with false. change (Nat.eqb 1 (lN (nib d))) with false. cbv iota.
    change (lEIat (nib d) K) with (Some 50). cbn [obnd]. rewrite S2. eexists. split; [reflexivity|]. change (1 - 1)%nat with 0%nat. change (1 + 1)%nat with 2%nat. rewrite Q0, Q1, L0, L1, P1. split; unfold bump; cbn; apply v3eq; cbn; field; lra. }
  destruct HB as (Bs & EB & B0 & B2).
  destruct (linear_total (nib d) e k eq_refl eq_refl eq_refl) as [F EF]. exists F. split; [exact EF|].
  apply forces_some in EF. destruct EF as (Bs' & EB' & -> & HT & HTd). rewrite EB in EB'. injection EB' as <-.
  assert (ZT : forall i, (i < 2)%nat -> force_or_zero (lT (nib d)) i = vzero).
  { intros i Hi. unfold force_or_zero, lT. cbn [lsx nib length Nat.eqb negb obnd]. fold (nib d). destruct i as [|[|i]]; [rewrite L0|rewrite L1|lia]; cbn [ll nib]; (destruct (Rlt_dec _ _) as [q|]; [|reflexivity]); exfalso; [lra|replace (d / d) with 1 in q by (field; lra); lra]. }
  assert (ZD : forall i, (i < 2)%nat -> force_or_zero (lTd (nib d)) i = vzero).
  { intros i Hi. unfold force_or_zero, lTd. cbn [ldx nib length Nat.eqb negb obnd]. fold (nib d). replace (lldstr (nib d) i) with 0 by (unfold lldstr; cbn; unfold dot; cbn; ring). apply v3eq; cbn; unfold Rdiv; ring. }
  cbn [vsum]. rewrite !internal_eq. cbn [Nat.eqb lN nib Nat.sub]. fold (nib d). rewrite !ZT, !ZD, B0, B2 by lia. 
  change (lr (nib d) 0) with (V3 (-1) 0 0). change (lr (nib d) 1) with vzero. change (lr (nib d) 2) with (V3 0 d 0). unfold K.
  apply v3eq; cbn; ring.
Qed.
Lemma short_turns : ~ (forall L e k F, (0 < lN L)%nat -> (forall i, (i < lN L)%nat -> 0 < norm (vsub (lr L (S i)) (lr L i))) -> lcantA L = false -> lcantB L = false ->
  line_forces L e k = Some F -> vsum (lN L + 1) (fun i => cross (lr L i) (internal L e k F i)) = vzero).
Proof.
  intro A. assert (TP : 0 < tol) by (unfold tol; apply Rdiv_lt_0_compat; [lra|apply pow_lt; lra]).
  assert (T1 : tol < / 10). { unfold tol. assert (1000 < 2 ^ 52) by (apply (Rlt_trans _ (2 ^ 10)); [lra|apply Rlt_pow; [lra|lia]]). apply (Rmult_lt_reg_r (2 ^ 52)); [lra|]. unfold Rdiv. rewrite Rmult_assoc, Rinv_l by lra. lra. }
  set (e := Envc 1025 9.8 0 0 0 0 1). set (k := Wkin (fun _ => 0) (fun _ => vzero) (fun _ => vzero) (fun _ => 0) (fun _ _ => 100)).
  destruct (nib_moment tol e k) as (F & EF & M); [lra|].
  assert (NZ : forall i, (i < 2)%nat -> 0 < norm (vsub (lr (nib tol) (S i)) (lr (nib tol) i))).
  { intros i Hi. unfold norm. apply sqrt_lt_R0. destruct i as [|[|i]]; [| |lia]; unfold dot; cbn; nra. }
  specialize (A (nib tol) e k F ltac:(cbn; lia) NZ eq_refl eq_refl EF). change (lN (nib tol) + 1)%nat with 3%nat in A. rewrite M in A.
  apply (f_equal vz) in A. cbn in A.
  assert (0 < sqrt (0.5 * (1 - 0))) by (apply sqrt_lt_R0; lra). assert (0 < 4 / (1 + tol)) by (apply Rdiv_lt_0_compat; lra).
  assert (0 < 50 * (4 / (1 + tol) * sqrt (0.5 * (1 - 0))) * tol * (1 - tol)) by (repeat apply Rmult_lt_0_compat; lra). lra.
Qed.
