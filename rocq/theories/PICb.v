(** Proofs about the generation of initial conditions: how long it takes, and the stationary solver. *)
From Coq Require Import Reals List Arith Bool Lra Lia.
From Verif Require Import MErr MVec MStateOps MStep SStep PStep MIC SIC PIC.
Import ListNotations.
Open Scope R_scope.

Section P.
Variables (X : Type) (stp : drags -> X -> R -> outcome X) (nxt : X -> X) (ini : X -> outcome X) (settime : X -> R -> X) (tim : X -> R) (ten : X -> list R) (err : X -> R).
Variables (dtM ICTmax ICthresh ICDfac : R).
Hypothesis HM : 0 < dtM.
Hypothesis HC : clock X stp nxt tim settime.

Lemma ofold_time d l : forall x y, ofold (stp d) l x = Ok y -> tim y = tim x + rsum0 l.
Proof.
  induction l as [|h l IH]; intros x y H; cbn in H; [injection H as <-; cbn; lra|]. destruct (stp d x h) as [x'| | |] eqn:E; cbn in H; try discriminate.
  apply IH in H. rewrite H, (proj1 HC _ _ _ _ E). change (rsum0 (h :: l)) with (h + rsum0 l). lra.
Qed.
Lemma simulated_time d dt x y : simulated X stp nxt dtM d dt x y -> tim y = tim x + dt.
Proof. intros (l & (_ & HS & _) & HO). apply ofold_time in HO. rewrite HO, HS, (proj1 (proj2 HC)). reflexivity. Qed.
Lemma ofold_runs Y (f : Y -> R -> outcome Y) : (forall x h, exists x', f x h = Ok x') -> forall l x, exists y, ofold f l x = Ok y.
Proof. intros H l. induction l as [|h l IH]; intro x; cbn; [eauto|]. destruct (H x h) as [x' ->]. cbn. apply IH. Qed.
(** one period succeeds if the steps do *)
Lemma period_runs Y (f : Y -> R -> outcome Y) dt : 0 < dt -> (forall x h, exists x', f x h = Ok x') ->
  exists K, forall fuel x, (K < fuel)%nat -> exists y, sub_loop R Y Rltb Rminus 0 f fuel dtM x dt = Ok y.
Proof.
  intros Hd H. destruct (loop_exact Y f dtM dt HM Hd) as (l & _ & HE). exists (length l). intros fuel x Hf. rewrite HE by exact Hf. now apply ofold_runs.
Qed.

(** dynamic relaxation *)
Section Relax.
Variables (d : drags) (dt : R).
Hypothesis Hdt : 0 < dt.
Let relax := relax X stp nxt tim ten dtM ICTmax ICthresh.
Lemma assess_t s x t : i_t X (fst (assess X ten ICthresh s x t)) = t /\ i_sys X (fst (assess X ten ICthresh s x t)) = x.
Proof. unfold assess. destruct (iters <? i_iic X s)%nat; [destruct (negb _)|]; split; reflexivity. Qed.
Lemma relax_end fuel : forall s s' e, i_t X s = tim (i_sys X s) -> relax fuel d dt s = Ok (s', e) ->
  i_t X s' = tim (i_sys X s') /\ (i_t X s' = i_t X s \/ i_t X s' < ICTmax + dt) /\ (e = TimedOut -> ICTmax - i_t X s' <= tiny) /\
  exists k, i_t X s' = i_t X s + INR k * dt /\ (e = Broke -> i_iic X s' + 1 = i_iic X s + k)%nat /\ (e = TimedOut -> i_iic X s' = i_iic X s + k)%nat.
Proof.
  induction fuel as [|fuel IH]; intros s s' e Ht H; [discriminate|]. unfold relax in H. cbn [MIC.relax] in H. fold relax in H.
  destruct (Rltb tiny (ICTmax - i_t X s)) eqn:G.
  2:{ injection H as <- <-. apply Rltb_false in G. split; [exact Ht|]. split; [now left|]. split; [auto|]. exists 0%nat. cbn. split; [lra|]. split; [discriminate|]. intros _. lia. }
  apply Rltb_true in G. pose proof tiny_pos as HT. destruct (MIC.advance X stp nxt tim dtM (S fuel) d dt (i_sys X s, i_t X s)) as [[x t]| | |] eqn:E; cbn [obind fst snd] in H; try discriminate.
  apply advance_spec in E as [E ->]; [|assumption..]. apply simulated_time in E.
  destruct (assess_t s x (tim x)) as [A1 A2]. destruct (snd (assess X ten ICthresh s x (tim x))) eqn:B.
  - injection H as <- <-. rewrite A1, A2. split; [reflexivity|]. split; [right; lra|]. split; [discriminate|]. exists 1%nat. split; [cbn; lra|]. split; [|discriminate]. intros _.
    revert B. unfold assess. destruct (iters <? i_iic X s)%nat; [destruct (negb _)|]; cbn; intro B; try discriminate. reflexivity.
  - assert (HI : i_iic X (fst (assess X ten ICthresh s x (tim x))) = S (i_iic X s)).
    { revert B. unfold assess. destruct (iters <? i_iic X s)%nat; [destruct (negb _)|]; cbn; intro B; try discriminate; reflexivity. }
    apply IH in H; [|congruence]. destruct H as (H1 & H2 & H3 & k & H4 & H5 & H6). split; [exact H1|]. split; [right; destruct H2 as [H2|H2]; [rewrite H2, A1; lra|exact H2]|]. split; [exact H3|].
    exists (S k). split; [rewrite S_INR, H4, A1; lra|]. split; intro He; [specialize (H5 He)|specialize (H6 He)]; rewrite HI in *; lia.
Qed.
Lemma relax_ends : runs X stp -> exists K, forall n s fuel, i_t X s = tim (i_sys X s) -> ICTmax - i_t X s <= INR n * dt -> (n + K < fuel)%nat ->
  exists s' e, relax fuel d dt s = Ok (s', e).
Proof.
  intro HR. destruct (period_runs (X * R) (fun xt h => x' <- stp d (fst xt) h ;; Ok (x', tim x')) dt Hdt) as [K HK].
  { intros [x t] h. destruct (HR d x h) as [x' E]. cbn. rewrite E. cbn. eauto. }
  exists K. induction n as [|n IH]; intros s fuel Ht Hn Hf; (destruct fuel as [|fuel]; [lia|]); unfold relax; cbn [MIC.relax]; fold relax; pose proof tiny_pos as HT.
  - cbn in Hn. rewrite (proj2 (Rltb_false tiny (ICTmax - i_t X s))) by lra. eauto.
  - destruct (Rltb tiny (ICTmax - i_t X s)) eqn:G; [|eauto]. destruct (HK (S fuel) (nxt (i_sys X s), i_t X s)) as [[x t] E]; [lia|].
    change (advance X stp nxt tim dtM (S fuel) d dt (i_sys X s, i_t X s) = Ok (x, t)) in E. rewrite E. cbn [obind fst snd].
    apply advance_spec in E as [E ->]; [|assumption..]. apply simulated_time in E. destruct (assess_t s x (tim x)) as [A1 A2].
    destruct (snd (assess X ten ICthresh s x (tim x))); [eauto|]. apply IH; [congruence| |lia]. rewrite A1. rewrite S_INR in Hn. lra.
Qed.
Lemma relax_unsure fuel : forall s s', (i_conv X s = true -> i_iic X s <= S iters)%nat -> relax fuel d dt s = Ok (s', TimedOut) -> i_conv X s' = true -> (i_iic X s' <= S iters)%nat.
Proof.
  induction fuel as [|fuel IH]; intros s s' HI H; [discriminate|]. unfold relax in H. cbn [MIC.relax] in H. fold relax in H.
  destruct (Rltb tiny (ICTmax - i_t X s)) eqn:G; [|injection H as <-; exact HI].
  destruct (MIC.advance X stp nxt tim dtM (S fuel) d dt (i_sys X s, i_t X s)) as [[x t]| | |] eqn:E; cbn [obind fst snd] in H; try discriminate.
  destruct (snd (assess X ten ICthresh s x t)) eqn:B; [discriminate|]. apply IH with (2 := H). revert B. unfold assess.
  destruct (iters <? i_iic X s)%nat eqn:L; [destruct (negb _); cbn; discriminate|]. cbn. intros _ _. apply Nat.ltb_ge in L. lia.
Qed.
End Relax.

(** the stationary solver *)
Section Settle.
Variables (d : drags) (dt : R).
Hypothesis Hdt : 0 < dt.
Let settle := settle X stp nxt tim err dtM ICTmax ICthresh.
Let sst := sstep X stp tim err d.
Hypothesis Herr : forall x, 0 <= err x.
Lemma sfold l : forall s s', s_t X s = tim (s_sys X s) -> 0 <= tim (s_sys X s) -> Forall (fun h => 0 < h) l -> ofold sst l s = Ok s' ->
  ofold (stp d) l (s_sys X s) = Ok (s_sys X s') /\ s_t X s' = tim (s_sys X s') /\ (l <> [] -> s_err X s' = err (s_sys X s')) /\
  (0 < tim (s_sys X s) -> s_err0 X s' = s_err0 X s) /\
  (tim (s_sys X s) = 0 -> forall h l', l = h :: l' -> exists x1, stp d (s_sys X s) h = Ok x1 /\ s_err0 X s' = err x1).
Proof.
  induction l as [|h l IH]; intros s s' Ht H0 HF H; cbn in H.
  { injection H as <-. split; [reflexivity|]. split; [exact Ht|]. split; [easy|]. split; [reflexivity|discriminate]. }
  inversion HF as [|h' l' Hh HF']; subst h' l'. cbn [ofold]. unfold sst, sstep in H. destruct (stp d (s_sys X s) h) as [x'| | |] eqn:E; cbn [obind] in *; try discriminate.
  assert (E' := proj1 HC _ _ _ _ E). assert (Q : sst s h = Ok (Sts X x' (tim x') (err x') (if Req_EM_T (s_t X s) 0 then err x' else s_err0 X s))) by (unfold sst, sstep; rewrite E; reflexivity).
  destruct l as [|h2 l].
  - cbn in H. injection H as <-. cbn [s_sys s_t s_err s_err0 ofold]. split; [reflexivity|]. split; [reflexivity|]. split; [reflexivity|]. split.
    + intro P. destruct (Req_EM_T (s_t X s) 0); [lra|reflexivity].
    + intros P h1 l1 Hl. injection Hl as <- <-. exists x'. split; [exact E|]. destruct (Req_EM_T (s_t X s) 0); [reflexivity|congruence].
  - apply IH in H; [|reflexivity|cbn [s_sys]; lra|exact HF']. cbn [s_sys s_err0] in H. destruct H as (H1 & H2 & H3 & H4 & _).
    split; [exact H1|]. split; [exact H2|]. split; [intros _; apply H3; discriminate|]. specialize (H4 ltac:(lra)). split.
    + intro P. rewrite H4. destruct (Req_EM_T (s_t X s) 0); [lra|reflexivity].
    + intros P h1 l1 Hl. injection Hl as <- <-. exists x'. split; [exact E|]. rewrite H4. destruct (Req_EM_T (s_t X s) 0); [reflexivity|congruence].
Qed.
Lemma less_rel_spec a b : 0 < b \/ (0 <= b) -> less_rel ICthresh a b = true -> a < ICthresh * b.
Proof.
  intros Hb H. unfold less_rel in H. destruct (Req_EM_T b 0) as [|Hn]; [discriminate|]. apply Rltb_true in H.
  assert (P : 0 < b) by (destruct Hb; [assumption|lra]). apply (Rmult_lt_compat_r b) in H; [|exact P]. unfold Rdiv in H. rewrite Rmult_assoc, Rinv_l, Rmult_1_r in H; [lra|exact Hn].
Qed.
(** the residual of the first step *)
Definition first_residual (x : X) (e0 : R) : Prop := exists h x1, 0 < h <= dtM /\ stp d (nxt x) h = Ok x1 /\ e0 = err x1.
Lemma one_period fuel s s' : s_t X s = tim (s_sys X s) -> 0 <= tim (s_sys X s) ->
  sub_loop R (sts X) Rltb Rminus 0 sst fuel dtM (Sts X (nxt (s_sys X s)) (s_t X s) (s_err X s) (s_err0 X s)) dt = Ok s' ->
  simulated X stp nxt dtM d dt (s_sys X s) (s_sys X s') /\ s_t X s' = tim (s_sys X s') /\ tim (s_sys X s') = tim (s_sys X s) + dt /\ s_err X s' = err (s_sys X s') /\
  (0 < tim (s_sys X s) -> s_err0 X s' = s_err0 X s) /\ (tim (s_sys X s) = 0 -> first_residual (s_sys X s) (s_err0 X s')).
Proof.
  intros Ht H0 H. apply cut_unfuel in H as (l & HL & HN & HO); [|assumption..]. pose proof (proj1 (proj2 HC) (s_sys X s)) as HX.
  assert (HF : Forall (fun h => 0 < h <= dtM) l) by apply HL.
  apply sfold in HO; cbn [s_sys s_t]; [|congruence|lra|eapply Forall_impl; [|exact HF]; cbn; intros; lra]. cbn [s_sys s_err0] in HO. destruct HO as (H1 & H2 & H3 & H4 & H5). rewrite HX in *.
  assert (HS : simulated X stp nxt dtM d dt (s_sys X s) (s_sys X s')) by (exists l; split; assumption).
  split; [exact HS|]. split; [exact H2|]. split; [exact (simulated_time _ _ _ _ HS)|]. split; [now apply H3|]. split; [exact H4|].
  intro P. destruct l as [|h l]; [easy|]. destruct (H5 P h l eq_refl) as (x1 & E & Q). exists h, x1. inversion HF; subst. split; [assumption|]. split; assumption.
Qed.
Lemma settle_broke fuel : forall prev s prev' s', s_t X s = tim (s_sys X s) -> 0 <= tim (s_sys X s) -> 0 < prev -> 0 <= s_err0 X s ->
  settle fuel d dt prev s = Ok (prev', s', Broke) ->
  exists y, simulated X stp nxt dtM d dt y (s_sys X s') /\ s_t X s' = tim (s_sys X s') /\ s_t X s' < ICTmax + dt /\ s_err X s' = err (s_sys X s') /\
  ((prev' = prev /\ y = s_sys X s) \/ prev' = err y) /\
  (0 < tim (s_sys X s) -> s_err0 X s' = s_err0 X s) /\ (tim (s_sys X s) = 0 -> first_residual (s_sys X s) (s_err0 X s')) /\
  (s_err X s' = 0 \/ s_err X s' < ICthresh * s_err0 X s' \/ Rabs (prev' - s_err X s') < ICthresh * prev').
Proof.
  induction fuel as [|fuel IH]; intros prev s prev' s' Ht H0 Hp He H; [discriminate|]. unfold settle in H. cbn [MIC.settle] in H. fold settle in H.
  destruct (Rltb tiny (ICTmax - s_t X s)) eqn:GT; [|discriminate]. apply Rltb_true in GT. pose proof tiny_pos as HT.
  destruct (sub_loop R (sts X) Rltb Rminus 0 (sstep X stp tim err d) (S fuel) dtM _ dt) as [s1| | |] eqn:E; cbn [obind] in H; try discriminate.
  apply one_period in E; [|assumption..]. destruct E as (E1 & E2 & E3 & E4 & E5 & E6).
  assert (He1 : 0 <= s_err0 X s1). { destruct (Rle_lt_or_eq_dec _ _ H0) as [P|P]; [rewrite E5; assumption|]. destruct E6 as (h & x1 & _ & _ & ->); [congruence|apply Herr]. }
  destruct (settled X ICthresh prev s1) eqn:G.
  - injection H as <- <-. exists (s_sys X s). split; [exact E1|]. split; [exact E2|]. split; [lra|]. split; [exact E4|]. split; [now left|]. split; [exact E5|]. split; [exact E6|].
    unfold settled in G. apply orb_true_iff in G as [G|G]; [apply orb_true_iff in G as [G|G]|].
    + left. destruct (Req_EM_T (s_err X s1) 0); [assumption|discriminate].
    + right; left. apply less_rel_spec in G; [exact G|lra].
    + right; right. apply less_rel_spec in G; [exact G|lra].
  - assert (Hne : s_err X s1 <> 0). { intro Q. unfold settled in G. rewrite Q in G. destruct (Req_EM_T 0 0); [|congruence]. cbn in G. discriminate. }
    assert (Hpos : 0 < s_err X s1) by (rewrite E4 in *; specialize (Herr (s_sys X s1)); lra).
    apply IH in H; [|assumption|lra|assumption|exact He1]. destruct H as (y & F1 & F2 & F3 & F4 & F5 & F6 & _ & F8).
    assert (F6' : s_err0 X s' = s_err0 X s1) by (apply F6; lra). exists y. split; [exact F1|]. split; [exact F2|]. split; [exact F3|]. split; [exact F4|].
    split; [right; destruct F5 as [[-> ->]|F5]; [exact E4|exact F5]|]. rewrite F6' in *. split; [exact E5|]. split; [exact E6|exact F8].
Qed.
Lemma settle_timed fuel : forall prev s prev' s', settle fuel d dt prev s = Ok (prev', s', TimedOut) -> ICTmax - s_t X s' <= tiny.
Proof.
  induction fuel as [|fuel IH]; intros prev s prev' s' H; [discriminate|]. unfold settle in H. cbn [MIC.settle] in H. fold settle in H.
  destruct (Rltb tiny (ICTmax - s_t X s)) eqn:GT; [|injection H as _ <-; now apply Rltb_false in GT].
  destruct (sub_loop R (sts X) Rltb Rminus 0 (sstep X stp tim err d) (S fuel) dtM _ dt) as [s1| | |]; cbn [obind] in H; try discriminate.
  destruct (settled X ICthresh prev s1); [discriminate|]. eapply IH, H.
Qed.
Lemma settle_ends : runs X stp -> exists K, forall n prev s fuel, s_t X s = tim (s_sys X s) -> 0 <= tim (s_sys X s) -> ICTmax - s_t X s <= INR n * dt -> (n + K < fuel)%nat ->
  exists prev' s' e, settle fuel d dt prev s = Ok (prev', s', e) /\ (s_t X s' = s_t X s \/ s_t X s' < ICTmax + dt).
Proof.
  intro HR. destruct (period_runs (sts X) sst dt Hdt) as [K HK].
  { intros s h. unfold sst, sstep. destruct (HR d (s_sys X s) h) as [x' ->]. cbn. eauto. }
  exists K. induction n as [|n IH]; intros prev s fuel Ht H0 Hn Hf; (destruct fuel as [|fuel]; [lia|]); unfold settle; cbn [MIC.settle]; fold settle; pose proof tiny_pos as HT.
  - cbn in Hn. rewrite (proj2 (Rltb_false tiny (ICTmax - s_t X s))) by lra. eauto 6.
  - destruct (Rltb tiny (ICTmax - s_t X s)) eqn:G; [|eauto 6]. apply Rltb_true in G. destruct (HK (S fuel) (Sts X (nxt (s_sys X s)) (s_t X s) (s_err X s) (s_err0 X s))) as [s1 E]; [lia|].
    fold sst. rewrite E. cbn [obind]. apply one_period in E; [|assumption..]. destruct E as (E1 & E2 & E3 & E4 & _).
    destruct (settled X ICthresh prev s1); [exists prev, s1, Broke; split; [reflexivity|right; lra]|].
    destruct (IH (s_err X s1) s1 fuel) as (p' & s' & e & E5 & E6); [assumption|lra|rewrite S_INR in Hn; lra|lia|]. exists p', s', e. split; [exact E5|]. right. destruct E6; lra.
Qed.
End Settle.
End P.
