(** Proofs about the generation of initial conditions. *)
From Coq Require Import Reals List Arith Bool Lra Lia.
From Verif Require Import MErr MVec MStateOps MStep SStep PStep MIC SIC.
Import ListNotations.
Open Scope R_scope.

Lemma tiny_pos : 0 < tiny.
Proof. apply Rinv_0_lt_compat, pow_lt. lra. Qed.
(** drag coefficients *)
Lemma scale_back k d : k <> 0 -> scale_drags (1 / k) (scale_drags k d) = d.
Proof.
  intro Hk. assert (E : forall a, a * k * (1 / k) = a) by (intro; field; assumption). destruct d as [l p r b]. unfold scale_drags. cbn [d_lines d_points d_rods d_bodies]. rewrite !map_map. f_equal.
  - rewrite <- (map_id l) at 2. apply map_ext. intros [a c]. cbn. now rewrite !E.
  - rewrite <- (map_id p) at 2. apply map_ext. intro a. apply E.
  - rewrite <- (map_id r) at 2. apply map_ext. intros [[a c] e]. now rewrite !E.
  - rewrite <- (map_id b) at 2. apply map_ext. intros [[a1 a2 a3] [b1 b2 b3]]. unfold v6scale, vscale; cbn. f_equal; f_equal; field; assumption.
Qed.
Lemma Forall2_image {A} (P : A -> A -> Prop) f l : (forall x, P x (f x)) -> Forall2 P l (map f l).
Proof. intro H. induction l; cbn; constructor; auto. Qed.
Lemma scale_times k d : drag_times k d (scale_drags k d).
Proof.
  unfold drag_times, scale_drags. cbn [d_lines d_points d_rods d_bodies]. repeat split; apply Forall2_image.
  - intros [a b]. cbn. split; ring.
  - intro a. ring.
  - intros [[a b] c]. cbn. repeat split; ring.
  - intros [[a1 a2 a3] [b1 b2 b3]]. cbn. repeat split; ring.
Qed.
Lemma scale_lines k d : length (d_lines (scale_drags k d)) = length (d_lines d).
Proof. cbn. apply map_length. Qed.

(** the largest relative difference *)
Lemma gtb_worse m ab th : gtb m th = true -> gtb (worse m ab) th = true.
Proof.
  unfold worse. destruct (gtb (rel_error (fst ab) (snd ab)) m) eqn:E; [|trivial]. destruct (rel_error (fst ab) (snd ab)) as [x| |], m as [y| |], th as [z| |]; cbn in *; try discriminate; auto.
  apply Rltb_true in E. intro H. apply Rltb_true in H. apply Rltb_true. lra.
Qed.
Lemma gtb_worse_new m ab th : gtb (rel_error (fst ab) (snd ab)) (Fin th) = true -> m <> NaN -> gtb (worse m ab) (Fin th) = true.
Proof.
  unfold worse. intros H Hm. destruct (gtb (rel_error (fst ab) (snd ab)) m) eqn:E; [exact H|].
  destruct (rel_error (fst ab) (snd ab)) as [x| |], m as [y| |]; cbn in *; try discriminate; try congruence.
  apply Rltb_true in H. apply Rltb_false in E. apply Rltb_true. lra.
Qed.
Lemma worse_nan m ab : m <> NaN -> worse m ab <> NaN.
Proof. unfold worse. intro H. destruct (gtb (rel_error (fst ab) (snd ab)) m) eqn:E; [|exact H]. intro F. rewrite F in E. cbn in E. destruct m; discriminate. Qed.
Lemma inner_keep c l : forall m th, gtb m th = true -> gtb (fold_left (fun m l => worse m (c, l)) l m) th = true.
Proof. induction l as [|a l IH]; intros m th H; cbn; [exact H|]. apply IH, gtb_worse, H. Qed.
Lemma inner_nan c l : forall m, m <> NaN -> fold_left (fun m l => worse m (c, l)) l m <> NaN.
Proof. induction l as [|a l IH]; intros m H; cbn; [exact H|]. apply IH, worse_nan, H. Qed.
Lemma inner_new c l b : In b l -> forall m th, gtb (rel_error c b) (Fin th) = true -> m <> NaN -> gtb (fold_left (fun m l => worse m (c, l)) l m) (Fin th) = true.
Proof.
  induction l as [|a l IH]; intros HI m th H Hm; [easy|]. cbn. destruct HI as [->|HI]; [apply inner_keep, gtb_worse_new; assumption|].
  apply IH; [assumption..|]. now apply worse_nan.
Qed.
Lemma max_error_le cur last th : 0 <= th -> (forall c l b, In (c, l) (combine cur last) -> In b l -> gtb (rel_error c b) (Fin th) = false) ->
  gtb (max_error cur last) (Fin th) = false.
Proof.
  intros Hth H. unfold max_error. assert (G : gtb (Fin 0) (Fin th) = false) by (apply Rltb_false; exact Hth). revert G. generalize (Fin 0). revert H. generalize (combine cur last) as ls.
  induction ls as [|[c l] ls IH]; intros H m Hm; cbn [fold_left fst snd]; [exact Hm|]. apply IH; [intros c' l' b HI; apply H; now right|].
  assert (H' : forall b, In b l -> gtb (rel_error c b) (Fin th) = false) by (intros b Hb; apply (H c l b); [now left|exact Hb]). clear - H' Hm.
  revert m Hm. induction l as [|b l IH]; intros m Hm; cbn [fold_left]; [exact Hm|]. apply IH; [intros; apply H'; now right|]. unfold worse. cbn [fst snd].
  destruct (gtb (rel_error c b) m); [apply H'; now left|exact Hm].
Qed.
Definition outer := fun (m : ratio) (cl : R * list R) => fold_left (fun m l => worse m (fst cl, l)) (snd cl) m.
Lemma outer_keep ls : forall m th, gtb m th = true -> gtb (fold_left outer ls m) th = true.
Proof. induction ls as [|a ls IH]; intros m th H; cbn; [exact H|]. apply IH, inner_keep, H. Qed.
Lemma outer_new ls c l b : In (c, l) ls -> In b l -> forall m th, gtb (rel_error c b) (Fin th) = true -> m <> NaN -> gtb (fold_left outer ls m) (Fin th) = true.
Proof.
  induction ls as [|a ls IH]; intros HI Hb m th H Hm; [easy|]. cbn. destruct HI as [->|HI]; [apply outer_keep; unfold outer; cbn; apply inner_new with (b := b); assumption|].
  apply IH; [assumption..|]. now apply inner_nan.
Qed.
Lemma max_error_all cur last th c l b : gtb (max_error cur last) (Fin th) = false -> In (c, l) (combine cur last) -> In b l -> gtb (rel_error c b) (Fin th) = false.
Proof.
  intros H HI Hb. destruct (gtb (rel_error c b) (Fin th)) eqn:E; [|reflexivity]. unfold max_error in H.
  change (gtb (fold_left outer (combine cur last) (Fin 0)) (Fin th) = false) in H. rewrite (outer_new _ c l b HI Hb _ _ E) in H by discriminate. discriminate.
Qed.
Lemma rel_within a b th : gtb (rel_error a b) (Fin th) = false -> within th a b.
Proof.
  unfold rel_error, within. destruct (Req_EM_T b 0) as [->|Hb].
  - destruct (Req_EM_T a 0) as [->|Ha]; cbn; [|discriminate]. intros _. rewrite Rminus_0_r, Rabs_R0. lra.
  - cbn. intro H. apply Rltb_false in H. replace (a - b) with ((a / b - 1) * b) by (field; assumption). rewrite Rabs_mult. apply Rmult_le_compat_r; [apply Rabs_pos|exact H].
Qed.

Section P.
Variables (X : Type) (stp : drags -> X -> R -> outcome X) (nxt : X -> X) (ini : X -> outcome X) (settime : X -> R -> X) (tim : X -> R) (ten : X -> list R) (err : X -> R).
Variables (dtM ICTmax ICthresh ICDfac : R).
Let relax := relax X stp nxt tim ten dtM ICTmax ICthresh.
Let advance := advance X stp nxt tim dtM.
Let assess := assess X ten ICthresh.
Let ic0 := ic0 X.

Lemma ofold_pair d l : forall x t y u, ofold (fun xt h => x' <- stp d (fst xt) h ;; Ok (x', tim x')) l (x, t) = Ok (y, u) ->
  ofold (stp d) l x = Ok y /\ (l <> [] -> u = tim y) /\ (l = [] -> u = t).
Proof.
  induction l as [|h l IH]; intros x t y u H; cbn in H; [injection H as <- <-; split; [reflexivity|split; [easy|reflexivity]]|].
  cbn. destruct (stp d x h) as [x'| | |] eqn:E; cbn in *; try discriminate. apply IH in H as (H1 & H2 & H3). split; [exact H1|]. split; [|discriminate].
  intros _. destruct l as [|h' l]; [|apply H2; discriminate]. rewrite H3 by reflexivity. cbn in H1. now injection H1 as <-.
Qed.
Lemma cut_unfuel (Y : Type) (f : Y -> R -> outcome Y) fuel dt x y : 0 < dtM -> 0 < dt -> sub_loop R Y Rltb Rminus 0 f fuel dtM x dt = Ok y ->
  exists l, cut dtM dt l /\ l <> [] /\ ofold f l x = Ok y.
Proof.
  intros HM Hd H. destruct (loop_exact Y f dtM dt HM Hd) as (l & HC & HE). exists l. split; [exact HC|].
  assert (HN : l <> []). { intros ->. destruct HC as (_ & HS & _). cbn in HS. lra. } split; [exact HN|].
  rewrite <- (HE x (fuel + S (length l))%nat) by lia. clear HE HC. revert fuel dt x H Hd.
  assert (G : forall fuel dt x, sub_loop R Y Rltb Rminus 0 f fuel dtM x dt = Ok y -> sub_loop R Y Rltb Rminus 0 f (fuel + S (length l)) dtM x dt = Ok y).
  { induction fuel as [|fuel IH]; intros dt' x H; [discriminate|]. cbn [sub_loop Nat.add] in *. destruct (Rltb 0 dt'); [|exact H].
    destruct (f x (if Rltb dtM dt' then dtM else dt')); cbn [obind] in *; try discriminate. now apply IH. }
  intros. now apply G.
Qed.
Lemma advance_spec fuel d dt x t y u : 0 < dtM -> 0 < dt -> advance fuel d dt (x, t) = Ok (y, u) -> simulated X stp nxt dtM d dt x y /\ u = tim y.
Proof.
  intros HM Hd H. unfold advance, MIC.advance in H. cbn [fst snd] in H. apply cut_unfuel in H as (l & HC & HN & HO); [|assumption..].
  apply ofold_pair in HO as (H1 & H2 & _). split; [exists l; split; assumption|now apply H2].
Qed.

(** what the loop remembers *)
Lemma roll_length cur last : length cur = length last -> length (roll cur last) = length last.
Proof. intro H. unfold roll. rewrite map_length, combine_length. lia. Qed.
Lemma roll_nth cur last l : (l < length last)%nat -> length cur = length last -> nth l (roll cur last) [] = nth l cur 0 :: firstn (iters - 1) (nth l last []).
Proof.
  intros Hl HL. unfold roll. set (f := fun cl => fst cl :: firstn (iters - 1) (snd cl)).
  rewrite (nth_indep _ [] (f (0, []))) by (rewrite map_length, combine_length; lia). rewrite map_nth. rewrite combine_nth by exact HL. reflexivity.
Qed.
Variables (d : drags) (dt : R) (nl : nat).
Hypothesis HM : 0 < dtM.
Hypothesis Hdt : 0 < dt.
Hypothesis Hten : forall x, length (ten x) = nl.
Record inv (s : ics X) (h : list X) : Prop := Inv {
  v_iic : i_iic X s = S (length h);
  v_cur : length (i_cur X s) = nl;
  v_len : length (i_last X s) = nl;
  v_lens : forall l, (l < nl)%nat -> length (nth l (i_last X s) []) = iters;
  v_hd : forall x h', h = x :: h' -> i_sys X s = x /\ i_cur X s = ten x;
  v_last : forall l j x, (l < nl)%nat -> (j < iters)%nat -> nth_error h (S j) = Some x -> nth j (nth l (i_last X s) []) 0 = nth l (ten x) 0;
  v_chain : chained X stp nxt dtM d dt h
}.
Lemma inv0 x : inv (ic0 nl x) [].
Proof.
  unfold ic0, MIC.ic0. split; cbn [i_iic i_cur i_last i_sys]; try (rewrite ?repeat_length; easy).
  - intros l Hl. rewrite (nth_indep _ [] (map INR (seq 0 iters))) by (rewrite repeat_length; exact Hl); rewrite nth_repeat. now rewrite map_length, seq_length.
Qed.
Lemma inv_roll s h x : inv s h -> simulated X stp nxt dtM d dt (i_sys X s) x ->
  forall t iic conv, iic = S (S (length h)) -> inv (Ics X x t (ten x) (roll (i_cur X s) (i_last X s)) iic conv) (x :: h).
Proof.
  intros I HS t iic conv Hi. destruct I as [i1 i2 i3 i4 i5 i6 i7]. assert (HL : length (i_cur X s) = length (i_last X s)) by congruence.
  split; cbn [i_iic i_cur i_last i_sys].
  - exact Hi.
  - apply Hten.
  - rewrite roll_length; [exact i3|exact HL].
  - intros l Hl. rewrite roll_nth by (congruence || lia). cbn [length]. rewrite firstn_length, i4 by exact Hl. reflexivity.
  - intros y h' E. injection E as <- <-. auto.
  - intros l j y Hl Hj E. rewrite roll_nth by (congruence || lia). cbn [nth_error] in E. destruct j as [|j].
    + destruct h as [|z h]; [discriminate|]. cbn in E. injection E as <-. cbn. destruct (i5 z h eq_refl) as [_ ->]. reflexivity.
    + cbn [nth]. rewrite <- (i6 l j y Hl) by (lia || exact E). set (q := nth l (i_last X s) []). clearbody q. clear - Hj.
      assert (J : (j < iters - 1)%nat) by lia. rewrite <- (firstn_skipn (iters - 1) q) at 2.
      destruct (Nat.lt_ge_cases j (length (firstn (iters - 1) q))) as [H|H]; [now rewrite app_nth1|].
      rewrite (nth_overflow (firstn _ _)) by exact H. rewrite firstn_length in H. symmetry. apply nth_overflow. rewrite firstn_skipn. lia.
  - destruct h as [|z h]; [exact I|]. split; [|exact i7]. destruct (i5 z h eq_refl) as [<- _]. exact HS.
Qed.
Lemma checked s h x : inv s h -> (iters <= length h)%nat -> gtb (max_error (ten x) (roll (i_cur X s) (i_last X s))) (Fin ICthresh) = false ->
  forall l j y, (l < nl)%nat -> (j < iters)%nat -> nth_error h j = Some y -> within ICthresh (nth l (ten x) 0) (nth l (ten y) 0).
Proof.
  intros I Hh HG l j y Hl Hj E. destruct I as [i1 i2 i3 i4 i5 i6 i7]. assert (HL : length (i_cur X s) = length (i_last X s)) by congruence.
  assert (EQ : nth l (ten y) 0 = nth j (nth l (roll (i_cur X s) (i_last X s)) []) 0).
  { rewrite roll_nth by (congruence || lia). destruct j as [|j].
    - destruct h as [|z h]; [discriminate|]. cbn in E. injection E as <-. cbn. now destruct (i5 z h eq_refl) as [_ ->].
    - cbn [nth]. rewrite <- (i6 l j y Hl) by (lia || exact E). specialize (i4 l Hl). set (q := nth l (i_last X s) []) in *. clearbody q.
      rewrite <- (firstn_skipn (iters - 1) q) at 1. rewrite app_nth1; [reflexivity|]. rewrite firstn_length, i4. cbn. unfold iters in Hj. lia. }
  apply rel_within. rewrite EQ. apply (max_error_all _ _ _ _ (nth l (roll (i_cur X s) (i_last X s)) []) _ HG).
  - rewrite <- combine_nth by (rewrite roll_length, Hten; congruence). apply nth_In. rewrite combine_length, roll_length, Hten by exact HL. lia.
  - apply nth_In. rewrite roll_nth by (congruence || lia). cbn [length]. rewrite firstn_length, i4 by exact Hl. unfold iters in *. lia.
Qed.
(** the loop *)
Definition accepted (s : ics X) : Prop := exists h, length h = S iters /\ chained X stp nxt dtM d dt h /\ hd_error h = Some (i_sys X s) /\
  forall y l, In y h -> (l < nl)%nat -> within ICthresh (nth l (ten (i_sys X s)) 0) (nth l (ten y) 0).
Lemma chained_firstn n : forall h, chained X stp nxt dtM d dt h -> chained X stp nxt dtM d dt (firstn n h).
Proof.
  induction n as [|n IH]; intros h H; [exact I|]. destruct h as [|x [|y h]]; [exact I|destruct n; exact I|]. destruct n as [|n]; [exact I|].
  destruct H as [H1 H2]. split; [exact H1|]. exact (IH (y :: h) H2).
Qed.
Lemma relax_accepts fuel : forall s h s', 0 <= ICthresh -> inv s h -> relax fuel d dt s = Ok (s', Broke) -> accepted s' /\ i_conv X s' = true /\ i_t X s' = tim (i_sys X s').
Proof.
  induction fuel as [|fuel IH]; intros s h s' Hth I H; [discriminate|]. unfold relax in H. cbn [MIC.relax] in H. fold relax in H.
  destruct (Rltb tiny (ICTmax - i_t X s)); [|discriminate]. destruct (MIC.advance X stp nxt tim dtM (S fuel) d dt (i_sys X s, i_t X s)) as [[x t]| | |] eqn:E; cbn [obind] in H; try discriminate.
  apply advance_spec in E as [E ->]; [|assumption..]. cbn [fst snd] in H. unfold MIC.assess in H.
  assert (HI := v_iic _ _ I). destruct (iters <? i_iic X s)%nat eqn:Ei.
  - apply Nat.ltb_lt in Ei. destruct (gtb (max_error (ten x) (roll (i_cur X s) (i_last X s))) (Fin ICthresh)) eqn:G; cbn [negb fst snd] in H.
    + eapply IH; [exact Hth| |exact H]. apply inv_roll; [exact I|exact E|lia].
    + injection H as <-. cbn [i_sys i_t i_conv]. split; [|split; reflexivity]. assert (Hh : (iters <= length h)%nat) by lia.
      exists (x :: firstn iters h). split; [cbn [length]; rewrite firstn_length; lia|]. split; [|split; [reflexivity|]].
      * apply (chained_firstn (S iters) (x :: h)). apply (v_chain _ _ (inv_roll s h x I E 0 _ true eq_refl)).
      * intros y l HIn Hl. destruct HIn as [<-|HIn]; [unfold within; rewrite Rminus_diag_eq, Rabs_R0 by reflexivity; apply Rmult_le_pos; [exact Hth|apply Rabs_pos]|].
        destruct (In_nth_error _ _ HIn) as [j Hj]. assert (Jl : (j < iters)%nat). { assert (j < length (firstn iters h))%nat by (apply nth_error_Some; congruence). rewrite firstn_length in H; lia. }
        apply (checked s h x I Hh G l j y Hl Jl). rewrite <- Hj. rewrite <- (firstn_skipn iters h) at 1. apply nth_error_app1. rewrite firstn_length. lia.
  - cbn [fst snd] in H. eapply IH; [exact Hth| |exact H]. apply inv_roll; [exact I|exact E|lia].
Qed.
End P.
