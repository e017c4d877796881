(** Termination of the substep loop in doubles. *)
From Coq Require Import Reals ZArith List Lra Lia.
From Flocq Require Import Core.
From Verif Require Import MErr MStateOps MStep SStep PStep MStepF.
Open Scope R_scope.

Local Instance prec64 : Prec_gt_0 53. Proof. reflexivity. Qed.
Local Instance vexp64 : Valid_exp fexp64. Proof. apply FLT_exp_valid. reflexivity. Qed.
Local Instance mono64 : Monotone_exp fexp64. Proof. apply FLT_exp_monotone. Qed.
Notation P64 := (pred radix2 fexp64). Notation U64 := (ulp radix2 fexp64).
Definition eta : R := bpow radix2 (-1074).

Lemma rnd64_format x : is_double (rnd64 x).
Proof. apply generic_format_round; auto with typeclass_instances. Qed.
Lemma rnd64_id x : is_double x -> rnd64 x = x.
Proof. intro H. apply round_generic; auto with typeclass_instances. Qed.
Lemma rnd64_mono x y : x <= y -> rnd64 x <= rnd64 y.
Proof. intro H. apply round_le; auto with typeclass_instances. Qed.
Lemma zero_double : is_double 0. Proof. apply generic_format_0. Qed.
(** positive doubles are positive multiples of 2^-1074 *)
Lemma double_multiple x : is_double x -> 0 < x -> exists n, x = INR (S n) * eta.
Proof.
  intros H Hx. pose proof (@FLT_format_generic radix2 (-1074) 53 prec64 x H) as [f Hf1 Hf2 Hf3].
  assert (E : x = IZR (Fnum f * 2 ^ (Fexp f + 1074)) * eta).
  { rewrite Hf1. unfold F2R. rewrite mult_IZR. rewrite (IZR_Zpower radix2) by lia. unfold eta. rewrite Rmult_assoc, <- bpow_plus. f_equal. f_equal. lia. }
  assert (He : 0 < eta) by apply bpow_gt_0.
  set (z := (Fnum f * 2 ^ (Fexp f + 1074))%Z) in *. assert (0 < z)%Z. { apply lt_IZR. rewrite E in Hx. apply (Rmult_lt_reg_r eta); lra. }
  exists (Z.to_nat (z - 1)). rewrite E. f_equal. rewrite INR_IZR_INZ. f_equal. lia.
Qed.
Lemma gap_le x : is_double x -> 0 < x -> x - P64 x <= U64 x.
Proof.
  intros H Hx. rewrite pred_eq_pos by lra. unfold pred_pos. destruct (Req_bool_spec x (bpow radix2 (mag radix2 x - 1))) as [E|E]; [|lra].
  rewrite ulp_neq_0 by lra. unfold cexp. assert (bpow radix2 (fexp64 (mag radix2 x - 1)) <= bpow radix2 (fexp64 (mag radix2 x))); [|lra].
  apply bpow_le. apply mono64. lia.
Qed.
Lemma gap_ge x : is_double x -> 0 < x -> x * bpow radix2 (-53) <= x - P64 x.
Proof.
  intros H Hx. rewrite pred_eq_pos by lra. unfold pred_pos. destruct (Req_bool_spec x (bpow radix2 (mag radix2 x - 1))) as [E|E].
  - rewrite E at 1. rewrite <- bpow_plus. assert (bpow radix2 (mag radix2 x - 1 + -53) <= bpow radix2 (fexp64 (mag radix2 x - 1))); [|lra].
    apply bpow_le. unfold fexp64, FLT_exp. lia.
  - pose proof (@ulp_FLT_gt radix2 (-1074) 53 prec64 x) as G. rewrite Rabs_right in G by lra. fold fexp64 in G. change (- (53))%Z with (-53)%Z in G. lra.
Qed.
(** one double below: strictly smaller if dtM is not too small *)
Lemma sub_smaller x d : is_double x -> is_double d -> 0 < d < x -> x * bpow radix2 (-52) <= d -> 0 <= sub64 x d <= P64 x.
Proof.
  intros Fx Fd Hd Hr. split; [rewrite <- (rnd64_id 0 zero_double); apply rnd64_mono; lra|].
  assert (Hx : 0 < x) by lra. pose proof (gap_le x Fx Hx) as G. assert (Fp : is_double (P64 x)) by (apply generic_format_pred; auto with typeclass_instances).
  assert (HU : U64 x / 2 < d).
  { destruct (Rle_dec (bpow radix2 (-1074 + 53 - 1)) (Rabs x)) as [B|B].
    - pose proof (ulp_FLT_le radix2 (-1074) 53 x B) as L. fold fexp64 in L. rewrite Rabs_right in L by lra. change (1 - 53)%Z with (-52)%Z in L. lra.
    - assert (B' : Rabs x < bpow radix2 (-1074 + 53)).
      { apply Rlt_trans with (bpow radix2 (-1074 + 53 - 1)); [lra|]. apply bpow_lt. lia. }
      pose proof (@ulp_FLT_small radix2 (-1074) 53 prec64 x B') as L. fold fexp64 in L. rewrite L.
      destruct (double_multiple d Fd (proj1 Hd)) as (n & En). fold eta. assert (0 < eta) by apply bpow_gt_0. rewrite S_INR in En. pose proof (pos_INR n). nra. }
  unfold sub64. apply round_N_le_midp; auto with typeclass_instances.
  rewrite succ_pred by auto with typeclass_instances. lra.
Qed.
Lemma pred_lt_pos x : 0 < x -> P64 x < x.
Proof. intro H. apply pred_lt_id. lra. Qed.
Lemma ends_aux X (stp : X -> R -> outcome X) dtM : is_double dtM -> 0 < dtM -> (forall x d, exists x', stp x d = Ok x') ->
  forall n dt x, is_double dt -> dt <= INR n * eta -> dt * bpow radix2 (-52) <= dtM -> exists x', sub_loop64 X stp (S n) dtM x dt = Ok x'.
Proof.
  intros FM HM HO. assert (He : 0 < eta) by apply bpow_gt_0. assert (B52 : 0 < bpow radix2 (-52)) by apply bpow_gt_0.
  induction n as [|n IH]; intros dt x Fd Hn Hr.
  - cbn [INR] in Hn. unfold sub_loop64. cbn [sub_loop]. rewrite (proj2 (Rltb_false 0 dt)) by lra. eexists; reflexivity.
  - unfold sub_loop64. cbn [sub_loop]. destruct (Rltb 0 dt) eqn:E0; [|eexists; reflexivity]. apply Rltb_true in E0.
    assert (K : forall d, 0 < d <= dt -> is_double d -> (d < dt -> dt * bpow radix2 (-52) <= d) -> is_double (sub64 dt d) /\ sub64 dt d < dt /\ 0 <= sub64 dt d).
    { intros d Hd Fdd Hq. split; [apply rnd64_format|]. destruct (Rlt_dec d dt) as [L|L].
      - destruct (sub_smaller dt d Fd Fdd ltac:(lra) (Hq L)) as [A B]. pose proof (pred_lt_pos dt E0). lra.
      - assert (d = dt) by lra. subst d. unfold sub64. replace (dt - dt) with 0 by lra. rewrite rnd64_id by apply zero_double. lra. }
    assert (M : forall y, is_double y -> y < dt -> 0 <= y -> y <= INR n * eta).
    { intros y Fy Hy Hy0. destruct (Req_dec y 0) as [->|Hne]; [pose proof (pos_INR n); nra|].
      destruct (double_multiple y Fy ltac:(lra)) as (k & Ek). rewrite Ek in *. apply Rmult_le_compat_r; [lra|]. apply le_INR.
      assert (INR (S k) < INR (S n)). { apply (Rmult_lt_reg_r eta); lra. } apply INR_lt in H. lia. }
    set (d := if Rltb dtM dt then dtM else dt).
    assert (Hd : 0 < d <= dt /\ is_double d /\ (d < dt -> dt * bpow radix2 (-52) <= d)).
    { unfold d. destruct (Rltb dtM dt) eqn:E1; [apply Rltb_true in E1|apply Rltb_false in E1]; repeat split; try assumption; lra. }
    destruct Hd as (Hd & Fdd & Hq). destruct (K d Hd Fdd Hq) as (K1 & K2 & K3). destruct (HO x d) as (x' & ->). cbn [obind].
    destruct (IH (sub64 dt d) x' K1) as (x'' & E).
    + now apply M.
    + apply Rle_trans with (dt * bpow radix2 (-52)); [|lra]. apply Rmult_le_compat_r; lra.
    + exists x''. exact E.
Qed.
Lemma loop64_ends X (stp : X -> R -> outcome X) dtM dt : is_double dtM -> is_double dt -> 0 < dtM -> dt <= dtM * bpow radix2 52 ->
  (forall x d, exists x', stp x d = Ok x') -> exists fuel, forall x, exists x', sub_loop64 X stp fuel dtM x dt = Ok x'.
Proof.
  intros FM FD HM HR HO. assert (He : 0 < eta) by apply bpow_gt_0. destruct (Rcomplements_nat (dt / eta)) as [n Hn].
  exists (S n). intro x. apply ends_aux; try assumption.
  - apply Rlt_le. apply (Rmult_lt_compat_r eta) in Hn; [|exact He]. unfold Rdiv in Hn. rewrite Rmult_assoc, Rinv_l in Hn; lra.
  - apply (Rmult_le_compat_r (bpow radix2 (-52))) in HR; [|apply bpow_ge_0]. rewrite Rmult_assoc, <- bpow_plus in HR. change (52 + -52)%Z with 0%Z in HR. change (bpow radix2 0) with 1 in HR. lra.
Qed.
(** the loop makes no progress *)
Lemma sub_stuck x d : is_double x -> 0 < x -> 0 <= d -> d < x * bpow radix2 (-54) -> sub64 x d = x.
Proof.
  intros Fx Hx Hd Hr. apply Rle_antisym; [rewrite <- (rnd64_id x Fx) at 2; apply rnd64_mono; lra|].
  unfold sub64. apply round_N_ge_midp; auto with typeclass_instances. pose proof (gap_ge x Fx Hx) as G.
  replace (bpow radix2 (-53)) with (bpow radix2 (-54) * 2) in G by (change (-53)%Z with (-54 + 1)%Z; rewrite bpow_plus; reflexivity). lra.
Qed.
Lemma loop64_stuck X (stp : X -> R -> outcome X) dtM dt : is_double dt -> 0 < dtM -> dtM < dt * bpow radix2 (-54) -> (forall x d, exists x', stp x d = Ok x') ->
  forall fuel x, sub_loop64 X stp fuel dtM x dt = Diverges.
Proof.
  intros FD HM HR HO. assert (B : bpow radix2 (-54) < 1) by (change 1 with (bpow radix2 0); apply bpow_lt; lia). assert (B0 : 0 < bpow radix2 (-54)) by apply bpow_gt_0.
  assert (HD : 0 < dt) by nra. assert (dtM < dt) by nra.
  induction fuel as [|fuel IH]; intro x; [reflexivity|]. unfold sub_loop64. cbn [sub_loop]. rewrite (proj2 (Rltb_true 0 dt) HD), (proj2 (Rltb_true dtM dt)) by lra.
  destruct (HO x dtM) as (x' & ->). cbn [obind]. rewrite sub_stuck by (assumption || lra). apply IH.
Qed.
Lemma pow_double e : (-1074 <= e)%Z -> is_double (bpow radix2 e).
Proof. intro H. apply generic_format_bpow. unfold fexp64, FLT_exp. lia. Qed.
