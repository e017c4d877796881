(** Proofs about the even resampling of a spectrum (MSpec.v) *)
From Coq Require Import Reals ZArith List Arith Lra Lia.
From Verif Require Import MErr MVec MStateOps MInterp MWaves MSpec SInterp SSpec SSpecB PInterp PWaves.
Import ListNotations.
Open Scope R_scope.

Lemma min_gap_some l d : exists e, min_gap l (Some d) = Some e /\ e <= d /\ (forall i, (S i < length l)%nat -> e <= nth (S i) l 0 - nth i l 0) /\
  (e = d \/ exists i, (S i < length l)%nat /\ e = nth (S i) l 0 - nth i l 0).
Proof.
  revert d. induction l as [|a [|b l] IH]; intros d.
  - exists d. split; [reflexivity|]. split; [lra|]. split; [intros i H; cbn in H; lia|left; reflexivity].
  - exists d. split; [reflexivity|]. split; [lra|]. split; [intros i H; cbn in H; lia|left; reflexivity].
  - cbn [min_gap]. destruct (Rlt_dec (b - a) d) as [L|L].
    + destruct (IH (b - a)) as (e & E & H1 & H2 & H3). exists e. split; [exact E|]. split; [lra|]. split.
      * intros [|i] Hi; [cbn; exact H1|]. apply H2. cbn in Hi |- *. lia.
      * right. destruct H3 as [->|(i & Hi & ->)]; [exists 0%nat; split; [cbn; lia|reflexivity]|exists (S i); split; [cbn in Hi |- *; lia|reflexivity]].
    + destruct (IH d) as (e & E & H1 & H2 & H3). exists e. split; [exact E|]. split; [lra|]. split.
      * intros [|i] Hi; [cbn; lra|]. apply H2. cbn in Hi |- *. lia.
      * destruct H3 as [->|(i & Hi & ->)]; [left; reflexivity|right; exists (S i); split; [cbn in Hi |- *; lia|reflexivity]].
Qed.
Lemma min_gap_spec l : (2 <= length l)%nat -> exists d, min_gap l None = Some d /\ smallest_gap l d.
Proof.
  destruct l as [|a [|b l]]; cbn [length]; try lia. intros _. cbn [min_gap]. destruct (min_gap_some (b :: l) (b - a)) as (e & E & H1 & H2 & H3).
  exists e. split; [exact E|]. split.
  - intros [|i] Hi; [cbn; exact H1|]. apply H2. cbn in Hi |- *. lia.
  - destruct H3 as [->|(i & Hi & ->)]; [exists 0%nat; split; [cbn; lia|reflexivity]|exists (S i); split; [cbn in Hi |- *; lia|reflexivity]].
Qed.
Lemma lerp_pick v j f y : pick v j f = Ok y -> lerp_at v j f = Ok y.
Proof.
  unfold pick, lerp_at. destruct j as [|j]; [discriminate|]. destruct (vget v j) as [a| | |]; cbn [obind]; try discriminate.
  destruct (vget v (S j)) as [b| | |]; cbn [obind]; try discriminate. intros H. assert (y = a + f * (b - a)) as -> by congruence. f_equal. unfold lerp. ring.
Qed.
Lemma even_loop_spec om re im be dw : increasing om -> (2 <= length om)%nat -> length re = length om -> length im = length om -> length be = length om -> 0 < dw ->
  forall n i j, admissible om j (INR i * dw) ->
  exists l, even_loop om re im be dw i n j = Ok l /\ length l = n /\
    forall k, (k < n)%nat -> let c := nth k l (FComp 0 0 0 0) in f_omega c = INR (i + k) * dw /\
      lin_interp om re (f_omega c) (f_re c) /\ lin_interp om im (f_omega c) (f_im c) /\ lin_interp om be (f_omega c) (f_beta c).
Proof.
  intros Hi Hn L1 L2 L3 Hd. induction n as [|n IH]; intros i j Ha.
  - exists []. repeat split; intros; lia.
  - cbn [even_loop].
    destruct (interp_from_hint om re j _ Hi Hn L1 Ha) as (j1 & f1 & y1 & E1 & J1 & P1 & I1 & M1).
    destruct (interp_from_hint om im j _ Hi Hn L2 Ha) as (j2 & f2 & y2 & E2 & J2 & P2 & I2 & M2).
    destruct (interp_from_hint om be j _ Hi Hn L3 Ha) as (j3 & f3 & y3 & E3 & J3 & P3 & I3 & M3).
    assert (j2 = j1 /\ f2 = f1 /\ j3 = j1 /\ f3 = f1) as (-> & -> & -> & ->) by (rewrite E1 in E2, E3; repeat split; congruence).
    rewrite E1. cbn [obind fst snd]. rewrite (lerp_pick _ _ _ _ P1), (lerp_pick _ _ _ _ P2), (lerp_pick _ _ _ _ P3). cbn [obind].
    destruct (IH (S i) j1) as (l & E & Ll & Hl).
    { destruct (le_lt_dec j1 1) as [L|L]; [left; exact L|right]. replace (Nat.min j1 (length om - 1)) with j1 by lia.
      assert (nth 0 om 0 < nth (j1 - 1) om 0) by (apply Hi; lia). rewrite S_INR. unfold Rmax in M1. destruct (Rle_dec (INR i * dw) (nth 0 om 0)); lra. }
    rewrite E. cbn [obind]. eexists. split; [reflexivity|]. split; [cbn; lia|]. intros [|k] Hk.
    + cbn [nth f_omega f_re f_im f_beta]. rewrite Nat.add_0_r. repeat split; first [apply I1|apply I2|apply I3].
    + cbn [nth]. replace (i + S k)%nat with (S i + k)%nat by lia. apply Hl. lia.
Qed.
Lemma last_nth (l : list R) : last l 0 = nth (length l - 1) l 0.
Proof.
  induction l as [|a [|b l] IH]; [reflexivity|reflexivity|]. change (last (a :: b :: l) 0) with (last (b :: l) 0). rewrite IH. cbn. replace (length l - 0)%nat with (length l) by lia. reflexivity.
Qed.
Lemma resample fs dw : let om := map f_omega fs in increasing om -> (2 <= length fs)%nat -> nth 0 om 0 = 0 -> smallest_gap om dw ->
  last om 0 < IZR (2 ^ 32 - 1) * dw ->
  exists l, interpEvenlySpaced fs = Ok l /\ even_spectrum fs dw l /\ (2 <= length l)%nat /\
    INR (length l - 1) * dw <= last om 0 < INR (length l) * dw.
Proof.
  intros om Hi Hn H0 [G1 (g & Hg & Eg)] Hs. unfold interpEvenlySpaced. fold om. assert (Lo : length om = length fs) by (unfold om; apply map_length).
  destruct (min_gap_spec om) as (d & -> & D1 & (i & Hi' & Ed)); [lia|].
  assert (d = dw) as -> by (apply Rle_antisym; [rewrite Eg; apply D1; lia|rewrite Ed; apply G1; lia]).
  assert (P : 0 < dw). { rewrite Eg. assert (nth g om 0 < nth (S g) om 0) by (apply Hi; lia). lra. }
  destruct (Rle_dec dw 0); [lra|]. cbv zeta. set (q := last om 0 / dw).
  assert (Q1 : 1 <= q). { unfold q. rewrite last_nth. apply Rmult_le_reg_r with dw; [lra|]. unfold Rdiv. rewrite Rmult_assoc, Rinv_l, Rmult_1_r, Rmult_1_l by lra.
    assert (dw <= nth 1 om 0 - nth 0 om 0) by (apply G1; lia). assert (nth 1 om 0 <= nth (length om - 1) om 0) by (apply incr_le; [exact Hi|lia]). lra. }
  assert (Qe : last om 0 = q * dw) by (unfold q; field; lra).
  assert (Q2 : q < IZR (2 ^ 32 - 1)). { apply Rmult_lt_reg_r with dw; [lra|]. rewrite <- Qe. exact Hs. }
  destruct (base_Int_part q) as [B1 B2]. assert (B3 : (1 <= Int_part q)%Z). { apply Z.lt_succ_r. apply lt_IZR. rewrite succ_IZR. lra. }
  assert (B4 : (Int_part q < 2 ^ 32 - 1)%Z) by (apply lt_IZR; lra).
  destruct (Z.ltb_spec (Int_part q) 0); [lia|]. destruct (Z.leb_spec (2 ^ 32 - 1) (Int_part q)); [lia|]. cbn [orb].
  destruct (even_loop_spec om (map f_re fs) (map f_im fs) (map f_beta fs) dw Hi ltac:(lia) ltac:(rewrite map_length; lia) ltac:(rewrite map_length; lia) ltac:(rewrite map_length; lia) P (S (Z.to_nat (Int_part q))) 0 1) as (l & E & Ll & Hl).
  { left. lia. }
  exists l. split; [exact E|]. split; [|split].
  - intros k Hk. rewrite Ll in Hk. specialize (Hl k Hk). cbn [Nat.add] in Hl. exact Hl.
  - lia.
  - assert (I : INR (Z.to_nat (Int_part q)) = IZR (Int_part q)) by (rewrite INR_IZR_INZ, Z2Nat.id by lia; reflexivity).
    rewrite Ll. cbn [Nat.sub]. rewrite Nat.sub_0_r, S_INR, I, Qe. split; nra.
Qed.
Lemma resample_descending fs i : (S i < length fs)%nat -> nth (S i) (map f_omega fs) 0 <= nth i (map f_omega fs) 0 -> interpEvenlySpaced fs = Throw ExInvalidValue.
Proof.
  intros Hi H. unfold interpEvenlySpaced. destruct (min_gap_spec (map f_omega fs)) as (d & -> & D1 & _); [rewrite map_length; lia|].
  assert (d <= nth (S i) (map f_omega fs) 0 - nth i (map f_omega fs) 0) by (apply D1; rewrite map_length; lia). destruct (Rle_dec d 0); [reflexivity|lra].
Qed.
Lemma lin_at xs ys k y : increasing xs -> length ys = length xs -> (2 <= length xs)%nat -> (k < length xs)%nat -> lin_interp xs ys (nth k xs 0) y -> y = nth k ys 0.
Proof.
  intros Hi L Hn Hk (A & B & C). destruct (Nat.eq_dec (S k) (length xs)) as [E|E].
  - replace k with (length xs - 1)%nat by lia. apply B. replace (length xs - 1)%nat with k by lia. lra.
  - assert (D : nth k xs 0 < nth (S k) xs 0) by (apply Hi; lia). specialize (C k ltac:(lia) ltac:(lra)). nra.
Qed.
Lemma resample_even fs dw : 0 < dw -> (2 <= length fs)%nat -> INR (length fs - 1) < IZR (2 ^ 32 - 1) ->
  (forall k, (k < length fs)%nat -> f_omega (nth k fs (FComp 0 0 0 0)) = INR k * dw) -> interpEvenlySpaced fs = Ok fs.
Proof.
  intros Hd Hn Hs H. set (om := map f_omega fs). assert (Lo : length om = length fs) by (unfold om; apply map_length).
  assert (N : forall (f : fcomp -> R) k, f (FComp 0 0 0 0) = 0 -> nth k (map f fs) 0 = f (nth k fs (FComp 0 0 0 0))).
  { intros f k F. rewrite <- F at 1. apply map_nth. }
  assert (O : forall k, (k < length fs)%nat -> nth k om 0 = INR k * dw) by (intros k Hk; unfold om; rewrite N by reflexivity; apply H; exact Hk).
  assert (I : increasing om). { intros i j Hij. rewrite !O by lia. apply Rmult_lt_compat_r; [exact Hd|]. apply lt_INR. lia. }
  assert (La : last om 0 = INR (length fs - 1) * dw) by (rewrite last_nth, Lo; apply O; lia).
  destruct (resample fs dw) as (l & E & S & L2 & B1 & B2); fold om; [exact I|exact Hn|rewrite O by lia; cbn; ring| |rewrite La; nra|].
  { split.
    - intros i Hi. rewrite !O by lia. rewrite S_INR. lra.
    - exists 0%nat. split; [lia|]. rewrite !O by lia. cbn. ring. }
  fold om in B1, B2. rewrite La in B1, B2. rewrite E. f_equal.
  assert (Ll : length l = length fs).
  { assert (INR (length l - 1) <= INR (length fs - 1)) by nra. assert (INR (length fs - 1) < INR (length l)) by nra.
    apply INR_le in H0. apply INR_lt in H1. lia. }
  apply nth_ext with (FComp 0 0 0 0) (FComp 0 0 0 0); [exact Ll|]. intros k Hk. destruct (S k Hk) as (S1 & S2 & S3 & S4). fold om in S2, S3, S4.
  rewrite S1 in S2, S3, S4. rewrite <- O in S2, S3, S4 by lia.
  apply lin_at in S2; [|exact I|rewrite map_length; lia|lia|lia]. apply lin_at in S3; [|exact I|rewrite map_length; lia|lia|lia]. apply lin_at in S4; [|exact I|rewrite map_length; lia|lia|lia].
  rewrite N in S2, S3, S4 by reflexivity. rewrite <- H in S1 by lia. destruct (nth k l _), (nth k fs _); cbn in *; congruence.
Qed.
Lemma last_lost : let fs := [FComp 0 0 0 0; FComp 1 0 0 0; FComp 2.5 3 0 0] in
  interpEvenlySpaced fs = Ok [FComp 0 0 0 0; FComp 1 0 0 0; FComp 2 2 0 0].
Proof.
  intros fs. destruct (resample fs 1) as (l & E & S & L2 & B1 & B2).
  - intros i j [H1 H2]. cbn in H2 |- *. destruct i as [|[|[|i]]], j as [|[|[|j]]]; try lia; cbn; lra.
  - cbn. lia.
  - reflexivity.
  - split; [intros [|[|i]] H; cbn in H |- *; try lia; lra|]. exists 0%nat. cbn. split; [lia|lra].
  - change (2 ^ 32 - 1)%Z with 4294967295%Z. cbn. lra.
  - rewrite E. f_equal. change (last (map f_omega fs) 0) with 2.5 in *. rewrite Rmult_1_r in *.
    assert (Ll : length l = 3%nat).
    { assert (length l - 1 < 3)%nat by (apply INR_lt; replace (INR 3) with 3 by (cbn; ring); lra).
      assert (2 < length l)%nat by (apply INR_lt; replace (INR 2) with 2 by (cbn; ring); lra). lia. }
    destruct l as [|c0 [|c1 [|c2 [|]]]]; try discriminate Ll.
    destruct (S 0%nat) as (O0 & X0 & Y0 & Z0); [cbn; lia|]. destruct (S 1%nat) as (O1 & X1 & Y1 & Z1); [cbn; lia|]. destruct (S 2%nat) as (O2 & X2 & Y2 & Z2); [cbn; lia|].
    cbn [nth] in *. replace (INR 0 * 1) with 0 in O0 by (cbn; ring). replace (INR 1 * 1) with 1 in O1 by (cbn; ring). replace (INR 2 * 1) with 2 in O2 by (cbn; ring).
    destruct c0 as [a0 b0 e0 g0], c1 as [a1 b1 e1 g1], c2 as [a2 b2 e2 g2]; cbn [f_omega f_re f_im f_beta] in *. subst a0 a1 a2.
    destruct X0 as (X0 & _), Y0 as (Y0 & _), Z0 as (Z0 & _), X1 as (_ & _ & X1), Y1 as (_ & _ & Y1), Z1 as (_ & _ & Z1), X2 as (_ & _ & X2), Y2 as (_ & _ & Y2), Z2 as (_ & _ & Z2).
    specialize (X1 0%nat). specialize (Y1 0%nat). specialize (Z1 0%nat). specialize (X2 1%nat). specialize (Y2 1%nat). specialize (Z2 1%nat). cbn in *.
    assert (0 <= 0) as R0 by lra. assert (0 <= 1 <= 1) as R1 by lra. assert (1 <= 2 <= 2.5) as R2 by lra.
    specialize (X0 R0). specialize (Y0 R0). specialize (Z0 R0). specialize (X1 ltac:(lia) R1). specialize (Y1 ltac:(lia) R1). specialize (Z1 ltac:(lia) R1).
    specialize (X2 ltac:(lia) R2). specialize (Y2 ltac:(lia) R2). specialize (Z2 ltac:(lia) R2).
    repeat f_equal; lra.
Qed.
