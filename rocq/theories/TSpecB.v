(** Property theorems: the even resampling of a spectrum read from a file (C91). *)
From Coq Require Import Reals ZArith List Arith Lra Lia.
From Verif Require Import MErr MVec MStateOps MInterp MWaves MSpec SInterp SSpec SSpecB PInterp PWaves PSpecB.
Import ListNotations.
Open Scope R_scope.

(** C91: a spectrum of increasing frequencies from 0 is resampled at the multiples of its smallest
    spacing, by linear interpolation of the amplitudes and of the directions, over all the multiples up
    to its last frequency.  Missing: the last component itself is lost when its frequency is not a
    multiple, see [C91_last_lost_refuted]. *)
Theorem C91_resample_partial : forall fs dw, let om := map f_omega fs in
  increasing om -> (2 <= length fs)%nat -> nth 0 om 0 = 0 -> smallest_gap om dw -> last om 0 < IZR (2 ^ 32 - 1) * dw ->
  exists l, interpEvenlySpaced fs = Ok l /\ even_spectrum fs dw l /\ (2 <= length l)%nat /\
    INR (length l - 1) * dw <= last om 0 < INR (length l) * dw.
Proof. exact resample. Qed.
Print Assumptions C91_resample_partial.

(** frequencies which do not increase are rejected *)
Theorem C91_descending_rejected : forall fs i, (S i < length fs)%nat ->
  nth (S i) (map f_omega fs) 0 <= nth i (map f_omega fs) 0 -> interpEvenlySpaced fs = Throw ExInvalidValue.
Proof. exact resample_descending. Qed.
Print Assumptions C91_descending_rejected.

(** a spectrum which is evenly spaced already is kept *)
Theorem C91_even_kept : forall fs dw, 0 < dw -> (2 <= length fs)%nat -> INR (length fs - 1) < IZR (2 ^ 32 - 1) ->
  (forall k, (k < length fs)%nat -> f_omega (nth k fs (FComp 0 0 0 0)) = INR k * dw) ->
  interpEvenlySpaced fs = Ok fs.
Proof. exact resample_even. Qed.
Print Assumptions C91_even_kept.

(** three components at 0, 1 and 2.5 rad/s: the highest one carries all the energy; the resampled
    spectrum ends at 2 rad/s and has two thirds of its amplitude *)
Theorem C91_last_lost_refuted : let fs := [FComp 0 0 0 0; FComp 1 0 0 0; FComp 2.5 3 0 0] in
  interpEvenlySpaced fs = Ok [FComp 0 0 0 0; FComp 1 0 0 0; FComp 2 2 0 0].
Proof. exact last_lost. Qed.
Print Assumptions C91_last_lost_refuted.

(* ------------------------------ the hypotheses are met ------------------------------ *)
Definition uneven : list fcomp := [FComp 0 0 0 0; FComp 1 1 2 0; FComp 3 3 4 1].
Example C91_case : exists l, interpEvenlySpaced uneven = Ok l /\ length l = 4%nat /\ f_re (nth 2 l (FComp 0 0 0 0)) = 2 /\ f_beta (nth 2 l (FComp 0 0 0 0)) = 0.5.
Proof.
  assert (G : smallest_gap (map f_omega uneven) 1).
  { split; [intros [|[|i]] H; cbn in H |- *; try lia; lra|]. exists 0%nat. cbn. split; [lia|lra]. }
  destruct (C91_resample_partial uneven 1) as (l & E & S & _ & L1 & L2); [|cbn; lia|reflexivity|exact G| |].
  { intros i j [H1 H2]. cbn in H2 |- *. destruct i as [|[|[|i]]], j as [|[|[|j]]]; try lia; cbn; lra. }
  { change (2 ^ 32 - 1)%Z with 4294967295%Z. cbn. lra. }
  assert (L : length l = 4%nat).
  { change (last (map f_omega uneven) 0) with 3 in *. rewrite Rmult_1_r in *. apply Nat.le_antisymm.
    - assert (length l - 1 < 4)%nat; [|lia]. apply INR_lt. replace (INR 4) with 4 by (cbn; ring). lra.
    - assert (3 < length l)%nat; [|lia]. apply INR_lt. replace (INR 3) with 3 by (cbn; ring). lra. }
  exists l. split; [exact E|]. split; [exact L|]. destruct (S 2%nat) as (O & I1 & _ & I3); [lia|].
  replace (INR 2 * 1) with 2 in O by (cbn; ring). rewrite O in I1, I3.
  destruct I1 as (_ & _ & I1), I3 as (_ & _ & I3). specialize (I1 1%nat). specialize (I3 1%nat). cbn in I1, I3.
  split; [assert (Q := I1 ltac:(lia) ltac:(lra)); lra|assert (Q := I3 ltac:(lia) ltac:(lra)); lra].
Qed.
Example C91_descending_case : interpEvenlySpaced [FComp 0 0 0 0; FComp 2 1 0 0; FComp 1 1 0 0] = Throw ExInvalidValue.
Proof. apply (C91_descending_rejected _ 1); cbn; [lia|lra]. Qed.
Example C91_even_case : interpEvenlySpaced [FComp 0 0 0 0; FComp 2 1 0 0; FComp 4 1 0 0] = Ok [FComp 0 0 0 0; FComp 2 1 0 0; FComp 4 1 0 0].
Proof. apply (C91_even_kept _ 2); cbn; try lia; try lra. intros [|[|[|k]]] H; try lia; cbn; lra. Qed.
