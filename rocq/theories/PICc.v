(** Proofs about the generation of initial conditions: the whole of it, and some cases. *)
From Coq Require Import Reals List Arith Bool Lra Lia.
From Verif Require Import MErr MVec MStateOps MStep SStep PStep MIC SIC PIC PICb.
Import ListNotations.
Open Scope R_scope.

Lemma INR_iters1 : INR (iters + 1) = 10.
Proof. unfold iters. cbn. lra. Qed.
Lemma dt_pos ICdt : 0 < ICdt -> 0 < ICdt / INR (iters + 1) / INR (iters + 1).
Proof. intro H. rewrite INR_iters1. lra. Qed.
Lemma dt_100 ICdt : ICdt / INR (iters + 1) / INR (iters + 1) = ICdt / 100.
Proof. rewrite INR_iters1. lra. Qed.

Lemma dbl_max_10 : 10 <= dbl_max.
Proof.
  unfold dbl_max. replace 1024%nat with (971 + 53)%nat by reflexivity. rewrite pow_add. assert (A : 1 <= 2 ^ 971) by (apply pow_R1_Rle; lra).
  assert (B : 2 ^ 4 <= 2 ^ 53) by (apply Rle_pow; [lra|lia]). assert (C : 2 ^ 4 = 16) by lra. rewrite C in B. generalize dependent (2 ^ 971). generalize dependent (2 ^ 53). intros. nra.
Qed.

Section P.
Variables (X : Type) (stp : drags -> X -> R -> outcome X) (nxt : X -> X) (ini : X -> outcome X) (settime : X -> R -> X) (tim : X -> R) (ten : X -> list R) (err : X -> R).
Variables (dtM ICTmax ICthresh ICDfac : R).
Let legacy := icLegacy X stp nxt ini settime tim ten dtM ICTmax ICthresh ICDfac.
Let stationary := icStationary X stp nxt ini tim err dtM ICTmax ICthresh.

Lemma legacy_inv fuel d ICdt x d' dt' s e : legacy fuel d ICdt x = (d', dt', Ok (s, e)) ->
  exists x1 s1, ini x = Ok x1 /\ relax X stp nxt tim ten dtM ICTmax ICthresh fuel (scale_drags ICDfac d) (ICdt / 100) (ic0 X (length (d_lines d)) x1) = Ok (s1, e) /\
  s = Ics X (settime (i_sys X s1) 0) (i_t X s1) (i_cur X s1) (i_last X s1) (i_iic X s1) (i_conv X s1) /\
  d' = scale_drags (1 / ICDfac) (scale_drags ICDfac d) /\ dt' = ICdt / 100.
Proof.
  unfold legacy, icLegacy. rewrite dt_100. destruct (ini x) as [x1| | |] eqn:E; try discriminate. intro H.
  destruct (relax X stp nxt tim ten dtM ICTmax ICthresh fuel (scale_drags ICDfac d) (ICdt / 100) (ic0 X (length (d_lines d)) x1)) as [[s1 e1]| | |] eqn:R1; try discriminate.
  assert (H1 : d' = scale_drags (1 / ICDfac) (scale_drags ICDfac d)) by congruence. assert (H2 : dt' = ICdt / 100) by congruence.
  assert (H3 : e = e1) by congruence. exists x1, s1. split; [reflexivity|]. subst e1. split; [exact R1|]. split; [congruence|]. split; assumption.
Qed.
Lemma legacy_drag fuel d ICdt x d' dt' r : ICDfac <> 0 -> legacy fuel d ICdt x = (d', dt', r) ->
  match r with Ok _ => d' = d | _ => d' = d \/ d' = scale_drags ICDfac d end.
Proof.
  intros HF. unfold legacy, icLegacy. destruct (ini x) as [x1|ex| |]; intro H; [|injection H as <- <- <-; now left..].
  destruct (relax X stp nxt tim ten dtM ICTmax ICthresh fuel (scale_drags ICDfac d) _ _) as [[s1 e1]|ex| |]; injection H as <- <- <-; try (now right). now apply scale_back.
Qed.
Lemma legacy_accepts fuel d ICdt x d' dt' s : 0 < dtM -> 0 < ICdt -> 0 <= ICthresh -> (forall x, length (ten x) = length (d_lines d)) ->
  legacy fuel d ICdt x = (d', dt', Ok (s, Broke)) ->
  exists h x1, length h = 10%nat /\ chained X stp nxt dtM (scale_drags ICDfac d) (ICdt / 100) h /\ hd_error h = Some x1 /\ i_sys X s = settime x1 0 /\
  forall y l, In y h -> (l < length (d_lines d))%nat -> within ICthresh (nth l (ten x1) 0) (nth l (ten y) 0).
Proof.
  intros HM Hd Hth HT H. apply legacy_inv in H as (x1 & s1 & E & HR & -> & _ & _).
  destruct (relax_accepts X stp nxt tim ten dtM ICTmax ICthresh (scale_drags ICDfac d) (ICdt / 100) (length (d_lines d)) HM ltac:(lra) HT fuel _ [] s1 Hth (inv0 _ _ _ _ _ _ _ _ _) HR) as ((h & A1 & A2 & A3 & A4) & _ & _).
  exists h, (i_sys X s1). split; [exact A1|]. split; [exact A2|]. split; [exact A3|]. split; [reflexivity|exact A4].
Qed.
Lemma legacy_time fuel d ICdt x d' dt' s e : 0 < dtM -> 0 < ICdt -> clock X stp nxt tim settime -> (forall x1, ini x = Ok x1 -> tim x1 = 0) ->
  legacy fuel d ICdt x = (d', dt', Ok (s, e)) ->
  tim (i_sys X s) = 0 /\ (i_t X s = 0 \/ i_t X s < ICTmax + ICdt / 100) /\ (e = TimedOut -> ICTmax - i_t X s <= tiny) /\
  (e = Broke -> i_conv X s = true /\ ICdt / 10 <= i_t X s) /\ (e = TimedOut -> i_conv X s = true -> i_t X s <= 9 / 100 * ICdt).
Proof.
  intros HM Hd HC HI H. apply legacy_inv in H as (x1 & s1 & E & HR & -> & _ & _). cbn [i_sys i_t i_conv].
  assert (T0 : i_t X (ic0 X (length (d_lines d)) x1) = tim (i_sys X (ic0 X (length (d_lines d)) x1))) by (cbn; symmetry; now apply HI).
  destruct (relax_end X stp nxt settime tim ten dtM ICTmax ICthresh HM HC (scale_drags ICDfac d) (ICdt / 100) ltac:(lra) fuel _ _ _ T0 HR) as (H1 & H2 & H3 & k & H4 & H5 & H6).
  split; [apply HC|]. split; [exact H2|]. split; [exact H3|]. cbn [ic0 i_t i_iic] in H4, H5, H6. split.
  - intros ->. split.
    + revert HR. generalize (ic0 X (length (d_lines d)) x1). clear. induction fuel as [|fuel IH]; intros s H; [discriminate|]. cbn [relax] in H.
      destruct (Rltb tiny (ICTmax - i_t X s)); [|discriminate]. destruct (advance X stp nxt tim dtM (S fuel) (scale_drags ICDfac d) (ICdt / 100) (i_sys X s, i_t X s)) as [[x t]| | |]; cbn [obind] in H; try discriminate.
      destruct (snd (assess X ten ICthresh s (fst (x, t)) (snd (x, t)))) eqn:B; [|eapply IH, H]. injection H as <-. revert B. unfold assess.
      destruct (iters <? i_iic X s)%nat; [destruct (negb _)|]; cbn; intro B; try discriminate. reflexivity.
    + assert (K : (10 <= k)%nat).
      { assert (iters < i_iic X s1)%nat; [|specialize (H5 eq_refl); unfold iters in *; lia]. revert HR. generalize (ic0 X (length (d_lines d)) x1). clear. induction fuel as [|fuel IH]; intros s H; [discriminate|]. cbn [relax] in H.
        destruct (Rltb tiny (ICTmax - i_t X s)); [|discriminate]. destruct (advance X stp nxt tim dtM (S fuel) (scale_drags ICDfac d) (ICdt / 100) (i_sys X s, i_t X s)) as [[x t]| | |]; cbn [obind] in H; try discriminate.
        destruct (snd (assess X ten ICthresh s (fst (x, t)) (snd (x, t)))) eqn:B; [|eapply IH, H]. injection H as <-. revert B. unfold assess.
        destruct (iters <? i_iic X s)%nat eqn:L; [destruct (negb _)|]; cbn; intro B; try discriminate. now apply Nat.ltb_lt. }
      apply le_INR in K. change (INR 10) with (INR (iters + 1)) in K. rewrite INR_iters1 in K. rewrite H4. nra.
  - intros -> HB. apply (relax_unsure X stp nxt tim ten dtM ICTmax ICthresh (scale_drags ICDfac d) (ICdt / 100) fuel _ _) in HR; [|cbn; unfold iters; lia|exact HB].
    specialize (H6 eq_refl). assert (K : (k <= 9)%nat) by (unfold iters in *; lia). apply le_INR in K. assert (E9 : INR 9 = 9) by (cbn; lra). rewrite E9 in K. rewrite H4. nra.
Qed.
Lemma legacy_ends d ICdt x x1 : 0 < dtM -> 0 < ICdt -> clock X stp nxt tim settime -> runs X stp -> ini x = Ok x1 -> tim x1 = 0 ->
  exists fuel0, forall fuel, (fuel0 <= fuel)%nat -> exists d' dt' s e, legacy fuel d ICdt x = (d', dt', Ok (s, e)).
Proof.
  intros HM Hd HC HR HI H0. assert (Hd' : 0 < ICdt / 100) by lra. destruct (relax_ends X stp nxt settime tim ten dtM ICTmax ICthresh HM HC (scale_drags ICDfac d) (ICdt / 100) Hd' HR) as [K HK].
  destruct (Rcomplements_nat (ICTmax / (ICdt / 100))) as [n Hn]. exists (S (n + K)). intros fuel Hf.
  destruct (HK n (ic0 X (length (d_lines d)) x1) fuel) as (s & e & E); [cbn; now symmetry| |lia|].
  - cbn. apply (Rmult_lt_compat_r (ICdt / 100)) in Hn; [|exact Hd']. unfold Rdiv in Hn at 1. rewrite Rmult_assoc, Rinv_l in Hn by lra. lra.
  - unfold legacy, icLegacy. rewrite HI, dt_100, E. eauto 8.
Qed.
Lemma stationary_accepts fuel d ICdt x prev s : 0 < dtM -> 0 < ICdt -> clock X stp nxt tim settime -> (forall x1, ini x = Ok x1 -> tim x1 = 0) -> (forall x, 0 <= err x) ->
  stationary fuel d ICdt x = Ok (prev, s, Broke) ->
  exists x1 y, ini x = Ok x1 /\ first_residual X stp nxt err dtM d x1 (s_err0 X s) /\ simulated X stp nxt dtM d ICdt y (s_sys X s) /\ (prev = err y \/ prev = dbl_max /\ y = x1) /\
  let e := err (s_sys X s) in (e = 0 \/ e < ICthresh * s_err0 X s \/ Rabs (prev - e) < ICthresh * prev) /\ tim (s_sys X s) < ICTmax + ICdt.
Proof.
  intros HM Hd HC HI He H. pose proof dbl_max_10 as Hb. unfold stationary, icStationary in H. destruct (ini x) as [x1| | |] eqn:E; cbn [obind] in H; try discriminate.
  specialize (HI x1 eq_refl). apply (settle_broke X stp nxt settime tim err dtM ICTmax ICthresh HM HC d ICdt Hd He) in H; cbn [s_t s_sys s_err0]; [|lra..]. cbn [s_sys s_err0] in H.
  destruct H as (y & H1 & H2 & H3 & H4 & H5 & _ & H7 & H8). exists x1, y. split; [reflexivity|]. split; [now apply H7|]. split; [exact H1|].
  split; [destruct H5 as [[-> ->]| ->]; [right; split; reflexivity|now left]|]. cbv zeta. rewrite <- H4. split; [exact H8|lra].
Qed.
Lemma stationary_ends d ICdt x x1 : 0 < dtM -> 0 < ICdt -> clock X stp nxt tim settime -> runs X stp -> ini x = Ok x1 -> tim x1 = 0 ->
  exists fuel0, forall fuel, (fuel0 <= fuel)%nat -> exists prev s e, stationary fuel d ICdt x = Ok (prev, s, e) /\ (s_t X s = 0 \/ s_t X s < ICTmax + ICdt) /\
  (e = TimedOut -> ICTmax - s_t X s <= tiny).
Proof.
  intros HM Hd HC HR HI H0. destruct (settle_ends X stp nxt settime tim err dtM ICTmax ICthresh HM HC d ICdt Hd HR) as [K HK].
  destruct (Rcomplements_nat (ICTmax / ICdt)) as [n Hn]. exists (S (n + K)). intros fuel Hf. unfold stationary, icStationary. rewrite HI. cbn [obind].
  destruct (HK n dbl_max (Sts X x1 0 dbl_max dbl_max) fuel) as (p & s & e & E & E2); [cbn; now symmetry|cbn; lra| |lia|].
  - cbn. apply (Rmult_lt_compat_r ICdt) in Hn; [|exact Hd]. unfold Rdiv in Hn at 1. rewrite Rmult_assoc, Rinv_l in Hn by lra. lra.
  - exists p, s, e. split; [exact E|]. split; [exact E2|]. intros ->. eapply settle_timed, E.
Qed.
Lemma init_spec fuel skip dyn d ICdt x d' x' : clock X stp nxt tim settime -> ICDfac <> 0 ->
  init_ic X stp nxt ini settime tim ten err dtM ICTmax ICthresh ICDfac fuel skip dyn d ICdt x = (d', Ok x') -> d' = d /\ tim x' = 0.
Proof.
  intros (_ & _ & HC) HF H. unfold init_ic in H. destruct skip; [|destruct dyn].
  - destruct (ini x); cbn in H; try discriminate. assert (d' = d) by congruence. assert (x' = settime a 0) by congruence. subst x'. split; [assumption|apply HC].
  - pose proof (legacy_drag fuel d ICdt x) as HD. unfold legacy in HD. destruct (icLegacy X stp nxt ini settime tim ten dtM ICTmax ICthresh ICDfac fuel d ICdt x) as [[d1 dt1] r].
    specialize (HD d1 dt1 r HF eq_refl). destruct r as [[s e]| | |]; cbn in H; try discriminate. injection H as <- <-. split; [exact HD|apply HC].
  - fold stationary in H. destruct (stationary fuel d ICdt x) as [[[p s] e]| | |]; cbn in H; try discriminate. injection H as <- <-. split; [reflexivity|apply HC].
Qed.
End P.
(** a system whose only state is the time; the tension of its line grows slowly, its residual stays *)
Definition slow_stp (_ : drags) (x h : R) : outcome R := Ok (x + h).
Definition slow_ten (x : R) : list R := [100 + x].
Definition slow_drags : drags := Drags [(1, 1)] [] [] [].
Definition slow_legacy (TmaxIC : R) := icLegacy R slow_stp (fun x => x) (fun x => Ok x) (fun _ t => t) (fun x => x) slow_ten 1 TmaxIC (1 / 1000) 5.
Definition slow_stationary := icStationary R slow_stp (fun x => x) (fun x => Ok x) (fun x => x) (fun _ => 5) 1 120 (1 / 1000).
Lemma slow_clock : clock R slow_stp (fun x => x) (fun x => x) (fun _ t => t).
Proof. split; [|split]; auto. unfold slow_stp. intros d x h x' H. congruence. Qed.
Lemma slow_runs : runs R slow_stp.
Proof. intros d x h. unfold slow_stp. eauto. Qed.
Lemma slow_advance n d k t : advance R slow_stp (fun x => x) (fun x => x) 1 (S (S n)) d (1 / 100) (INR k / 100, t) = Ok (INR (S k) / 100, INR (S k) / 100).
Proof.
  unfold advance. cbn [sub_loop fst snd]. rewrite (proj2 (Rltb_true 0 (1 / 100))) by lra. rewrite (proj2 (Rltb_false 1 (1 / 100))) by lra. unfold slow_stp. cbn [obind fst].
  rewrite (proj2 (Rltb_false 0 (1 / 100 - 1 / 100))) by lra. replace (INR k / 100 + 1 / 100) with (INR (S k) / 100) by (rewrite S_INR; lra). reflexivity.
Qed.
Lemma tiny_small : tiny < 1.
Proof. unfold tiny. rewrite <- Rinv_1. apply Rinv_lt_contravar; [rewrite Rmult_1_l; apply pow_lt; lra|]. apply Rlt_pow_R1; [lra|lia]. Qed.
Lemma slow_relax n k d cur last iic conv : (k <= 10)%nat ->
  relax R slow_stp (fun x => x) (fun x => x) slow_ten 1 120 (1 / 1000) (S (S n)) d (1 / 100) (Ics R (INR k / 100) (INR k / 100) cur last iic conv) =
  let r := assess R slow_ten (1 / 1000) (Ics R (INR k / 100) (INR k / 100) cur last iic conv) (INR (S k) / 100) (INR (S k) / 100) in
  if snd r then Ok (fst r, Broke) else relax R slow_stp (fun x => x) (fun x => x) slow_ten 1 120 (1 / 1000) (S n) d (1 / 100) (fst r).
Proof.
  intro Hk. apply le_INR in Hk. change (INR 10) with (INR (iters + 1)) in Hk. rewrite INR_iters1 in Hk. pose proof tiny_small as HT.
  set (m := S n). cbn [relax i_t i_sys]. rewrite (proj2 (Rltb_true tiny (120 - INR k / 100))) by lra. unfold m. rewrite slow_advance. reflexivity.
Qed.
Lemma slow_accepted fuel : exists s, slow_legacy 120 (20 + fuel) slow_drags 1 0 = (slow_drags, 1 / 100, Ok (s, Broke)) /\ i_t R s = 1 / 10.
Proof.
  unfold slow_legacy, icLegacy. rewrite dt_100, scale_back by lra. generalize (scale_drags 5 slow_drags) as d. intro d.
  replace (ic0 R (length (d_lines slow_drags)) 0) with (Ics R (INR 0 / 100) (INR 0 / 100) [0] [map INR (seq 0 9)] 1 true)
    by (unfold ic0; cbn [slow_drags d_lines length repeat]; replace (INR 0 / 100) with 0 by (cbn; lra); reflexivity).
  cbn [Nat.add].
  do 9 (rewrite slow_relax by lia; unfold assess; cbv zeta; cbn [i_iic i_cur i_last i_conv fst snd iters Nat.ltb Nat.leb]).
  rewrite slow_relax by lia. unfold assess. cbv zeta. cbn [i_iic i_cur i_last i_conv fst snd iters Nat.ltb Nat.leb].
  match goal with |- context [max_error ?c ?l] => assert (M : gtb (max_error c l) (Fin (1 / 1000)) = false) end.
  - apply max_error_le; [lra|]. intros c l b HI Hb. unfold roll in HI. cbn [slow_ten map combine fst snd firstn iters Nat.sub seq] in HI. destruct HI as [HI|[]].
    assert (Hc : c = 100 + INR 10 / 100) by congruence.
    assert (Hl : forall z, In z l -> 100 + 1 / 100 <= z <= 100 + 9 / 100).
    { injection HI as _ <-. intros z Hz. repeat (destruct Hz as [<-|Hz]; [lra|]). destruct Hz. }
    specialize (Hl b Hb). rewrite Hc. assert (E10 : INR 10 = 10) by (cbn; lra). rewrite E10. unfold rel_error. destruct (Req_EM_T b 0) as [Z|Z]; [lra|]. cbn. apply Rltb_false.
    replace ((100 + 10 / 100) / b - 1) with ((100 + 10 / 100 - b) / b) by (field; lra).
    rewrite Rabs_pos_eq; [|apply Rmult_le_pos; [lra|left; apply Rinv_0_lt_compat; lra]]. apply (Rmult_le_reg_r b); [lra|]. unfold Rdiv at 1. rewrite Rmult_assoc, Rinv_l by exact Z. lra.
  - rewrite M. cbn [negb fst snd]. eexists. split; [reflexivity|]. cbn [i_t]. cbn; lra.
Qed.
Lemma slow_unmoved fuel : exists prev s, slow_stationary (4 + fuel) slow_drags 1 0 = Ok (prev, s, Broke) /\ s_sys R s = 2.
Proof.
  unfold slow_stationary, icStationary. cbn [obind Nat.add]. pose proof tiny_small as HT. pose proof dbl_max_10 as HB.
  cbn [settle s_t s_sys s_err s_err0]. rewrite (proj2 (Rltb_true tiny (120 - 0))) by lra. cbn [sub_loop].
  try rewrite (proj2 (Rltb_true 0 1)) by lra. try rewrite (proj2 (Rltb_false 1 1)) by lra. unfold sstep at 1. cbn [slow_stp obind s_sys s_t s_err0].
  try rewrite (proj2 (Rltb_false 0 (1 - 1))) by lra. cbn [obind]. destruct (Req_EM_T 0 0) as [_|]; [|congruence].
  unfold settled at 1. cbn [s_err s_err0]. destruct (Req_EM_T 5 0) as [|_]; [lra|]. unfold less_rel at 1. destruct (Req_EM_T 5 0) as [|_]; [lra|]. rewrite (proj2 (Rltb_false (5 / 5) (1 / 1000))) by lra.
  unfold less_rel at 1. destruct (Req_EM_T dbl_max 0) as [|_]; [lra|]. rewrite (proj2 (Rltb_false (Rabs (dbl_max - 5) / dbl_max) (1 / 1000))).
  2:{ rewrite Rabs_pos_eq by lra. apply (Rmult_le_reg_r dbl_max); [lra|]. unfold Rdiv at 2. rewrite Rmult_assoc, Rinv_l by lra. lra. }
  cbn [orb s_t s_sys s_err s_err0]. rewrite (proj2 (Rltb_true tiny (120 - (0 + 1)))) by lra. unfold sstep at 1. cbn [slow_stp obind s_sys s_t s_err0].
  cbn [sub_loop]. try rewrite (proj2 (Rltb_true 0 1)) by lra. try rewrite (proj2 (Rltb_false 1 1)) by lra. unfold sstep at 1. cbn [slow_stp obind s_sys s_t s_err0].
  try rewrite (proj2 (Rltb_false 0 (1 - 1))) by lra. cbn [obind]. destruct (Req_EM_T (0 + 1) 0) as [|_]; [lra|].
  unfold settled at 1. cbn [s_err s_err0]. destruct (Req_EM_T 5 0) as [|_]; [lra|]. unfold less_rel at 1. destruct (Req_EM_T 5 0) as [|_]; [lra|]. rewrite (proj2 (Rltb_false (5 / 5) (1 / 1000))) by lra.
  unfold less_rel at 1. destruct (Req_EM_T 5 0) as [|_]; [lra|]. rewrite (proj2 (Rltb_true (Rabs (5 - 5) / 5) (1 / 1000))) by (rewrite Rminus_diag_eq, Rabs_R0 by reflexivity; lra).
  cbn [orb]. eexists; eexists; split; [reflexivity|]. cbn. lra.
Qed.
