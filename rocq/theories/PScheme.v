(** Proofs about the time schemes that hold for all oracles. *)
From Coq Require Import Reals List Arith Bool Lra Lia.
From Verif Require Import MErr MVec MInterp PInterp MStateOps MScheme.
Import ListNotations.
Open Scope R_scope.

(** peel one bind of a successful computation *)
Ltac peel H x E := match type of H with obind ?e _ = Ok _ => destruct e as [x| | |] eqn:E; cbn [obind] in H; try discriminate H end.

Lemma obind_ext {A B} (e : outcome A) (f g : A -> outcome B) : (forall a, e = Ok a -> f a = g a) -> obind e f = obind e g.
Proof. intro H. destruct e; cbn; auto. Qed.

Section G.
Variables (S D Env : Type) (o : sops S D).
Variable cal : Env -> D -> outcome (Env * D).
Variable lim : Env -> R -> R -> R.
Variable setmask : Env -> R -> outcome Env.
Variable conv : D -> D -> bool.
Notation tsch := (tsch S D Env).
Notation TT := (tt S D Env). Notation TL := (tl S D Env). Notation ENV := (env S D Env).
Notation RR := (rr S D Env). Notation RD := (rd S D Env).
Notation set_t := (set_t S D Env). Notation set_tl := (set_tl S D Env). Notation set_env := (set_env S D Env).
Notation put_r := (put_r S D Env). Notation put_d := (put_d S D Env). Notation calc := (calc S D Env cal).
Notation axpy := (axpy S D Env o). Notation copy_d := (copy_d S D Env). Notation mix_d := (mix_d S D Env o).

Definition keeps (s s' : tsch) := TT s' = TT s /\ TL s' = TL s.
Lemma keeps_refl s : keeps s s. Proof. now split. Qed.
Lemma keeps_trans a b c : keeps a b -> keeps b c -> keeps a c.
Proof. unfold keeps. intuition congruence. Qed.
Lemma put_r_keeps s i x s' : put_r s i x = Ok s' -> keeps s s'.
Proof. unfold put_r. intro H. peel H l E. injection H as <-. now split. Qed.
Lemma put_d_keeps s i x s' : put_d s i x = Ok s' -> keeps s s'.
Proof. unfold put_d. intro H. peel H l E. injection H as <-. now split. Qed.
Lemma calc_keeps s i s' : calc s i = Ok s' -> keeps s s'.
Proof. unfold MScheme.calc. intro H. peel H d E. peel H ed E'. apply put_d_keeps in H. exact H. Qed.
Lemma axpy_keeps s a b c k s' : axpy s a b c k = Ok s' -> keeps s s'.
Proof. unfold MScheme.axpy. intro H. peel H x He1. peel H y He2. peel H z He3. peel H w He4. now apply put_r_keeps in H. Qed.
Lemma copy_d_keeps s a b s' : copy_d s a b = Ok s' -> keeps s s'.
Proof. unfold MScheme.copy_d. intro H. peel H x He1. now apply put_d_keeps in H. Qed.
Lemma mix_d_keeps s a b f s' : mix_d s a b f = Ok s' -> keeps s s'.
Proof. unfold MScheme.mix_d. intro H. peel H x He1. peel H y He2. peel H z He3. now apply put_d_keeps in H. Qed.
Lemma nm_apply_keeps g b dt s s' : nm_apply S D Env o g b dt s = Ok s' -> keeps s s'.
Proof. unfold nm_apply. intro H. peel H x He1. peel H y He2. peel H z He3. peel H w He4. peel H w' He5. peel H w'' He6. now apply put_r_keeps in H. Qed.
Lemma wi_apply_keeps g b s s' : wi_apply S D Env o g b s = Ok s' -> keeps s s'.
Proof. unfold wi_apply. intro H. peel H x He1. peel H y He2. peel H z He3. peel H w He4. peel H w' He5. peel H w'' He6. now apply put_r_keeps in H. Qed.
Lemma accept_keeps s s' : accept S D Env s = Ok s' -> keeps s s'.
Proof. unfold accept. intro H. peel H x He1. peel H y He2. apply put_r_keeps in He2. apply copy_d_keeps in H. now apply (keeps_trans _ y). Qed.
Lemma ab_shift_keeps s s' : ab_shift S D Env s = Ok s' -> keeps s s'.
Proof.
  unfold ab_shift. intro H. peel H a He1. peel H b He2. peel H c He3.
  apply copy_d_keeps in He1, He2, He3, H. eauto using keeps_trans.
Qed.
Lemma make_stat_keeps s dt s' : make_stat S D Env o s dt = Ok s' -> keeps s s'.
Proof.
  unfold make_stat. intro H. peel H a He1. peel H b He2. peel H c He3. apply put_d_keeps in He3. injection H as <-. exact He3.
Qed.

Section U.
Variable upd : Env -> R -> R -> S -> outcome Env.
Notation update := (update S D Env upd). Notation finish := (finish S D Env upd).
Notation step := (step S D Env o upd cal lim setmask conv).

Lemma update_keeps s d i s' : update s d i = Ok s' -> keeps s s'.
Proof. unfold MScheme.update. intro H. peel H x He1. peel H e He2. injection H as <-. now split. Qed.
Lemma finish_time s dt s' : finish s dt = Ok s' -> TT s' = TT s /\ TL s' = TL s + dt.
Proof. unfold MScheme.finish. intro H. peel H x He1. apply update_keeps in He1 as [A B]. injection H as <-. cbn. now rewrite A, B. Qed.

(** what the objects were told last: final time, final local time, final state *)
Definition final (s' : tsch) := exists e x, vget (RR s') 0 = Ok x /\ upd e (TT s') (TL s') x = Ok (ENV s').
Lemma finish_final s dt s' : finish s dt = Ok s' -> final s'.
Proof.
  unfold MScheme.finish, MScheme.update. intro H. peel H x He1. injection H as <-.
  peel He1 y He2. peel He1 e He3. injection He1 as <-. exists (ENV s), y. cbn. split; [exact He2|]. now rewrite Rplus_comm.
Qed.

Ltac K := repeat match goal with
  | H : put_r _ _ _ = Ok _ |- _ => apply put_r_keeps in H
  | H : put_d _ _ _ = Ok _ |- _ => apply put_d_keeps in H
  | H : calc _ _ = Ok _ |- _ => apply calc_keeps in H
  | H : axpy _ _ _ _ _ = Ok _ |- _ => apply axpy_keeps in H
  | H : copy_d _ _ _ = Ok _ |- _ => apply copy_d_keeps in H
  | H : mix_d _ _ _ _ = Ok _ |- _ => apply mix_d_keeps in H
  | H : update _ _ _ = Ok _ |- _ => apply update_keeps in H
  | H : nm_apply _ _ _ _ _ _ _ _ = Ok _ |- _ => apply nm_apply_keeps in H
  | H : wi_apply _ _ _ _ _ _ _ = Ok _ |- _ => apply wi_apply_keeps in H
  | H : accept _ _ _ _ = Ok _ |- _ => apply accept_keeps in H
  | H : ab_shift _ _ _ _ = Ok _ |- _ => apply ab_shift_keeps in H
  | H : make_stat _ _ _ _ _ _ = Ok _ |- _ => apply make_stat_keeps in H
  end.
Ltac peels H := repeat match type of H with obind _ _ = Ok _ => let x := fresh "s" in let E := fresh "E" in peel H x E end.
Ltac fin := unfold keeps in *; cbn [MScheme.tt MScheme.tl MScheme.set_t MScheme.set_tl MScheme.set_env MScheme.set_nst MScheme.set_rr MScheme.set_rd MScheme.set_boost MScheme.set_err] in *;
  repeat match goal with H : _ /\ _ |- _ => destruct H end; split; lra.

Lemma ie_loop_keeps iters c k dt n s s' : ie_loop S D Env o upd cal iters c k dt n s = Ok s' -> keeps s s'.
Proof.
  revert s; induction n as [|n IH]; intros s H; [injection H as <-; apply keeps_refl|]. cbn [ie_loop] in H.
  peel H a He1. peel H b He2. peel H d He3. peel H e He4. apply IH in H. K.
  assert (keeps d e).
  { destruct (0 <? n)%nat; [peel He4 x He5; K; eauto using keeps_trans|injection He4 as <-; apply keeps_refl]. }
  eauto using keeps_trans.
Qed.
Lemma an_loop_keeps iters c k dt n s s' : an_loop S D Env o upd cal conv iters c k dt n s = Ok s' -> keeps s s'.
Proof.
  revert s; induction n as [|n IH]; intros s H; [injection H as <-; apply keeps_refl|]. cbn [an_loop] in H.
  peel H a He1. peel H b He2. peel H d He3. peel H x He4. peel H fx He5. peel H e He6. K.
  assert (keeps d e).
  { destruct (0 <? n)%nat; [peel He6 y He7; K; eauto using keeps_trans|injection He6 as <-; apply keeps_refl]. }
  assert (keeps e s') by (destruct (conv x fx); [injection H as <-; apply keeps_refl|now apply IH]).
  eauto using keeps_trans.
Qed.
Lemma nm_loop_keeps iters c g b0 dt n s s' : nm_loop S D Env o upd cal iters c g b0 dt n s = Ok s' -> keeps s s'.
Proof.
  revert s; induction n as [|n IH]; intros s H; [injection H as <-; apply keeps_refl|]. cbn [nm_loop] in H.
  peel H a He1. peel H b He2. peel H d He3. peel H e He4. apply IH in H. K.
  assert (keeps d e).
  { destruct (0 <? n)%nat; [peel He4 x He5; K; eauto using keeps_trans|injection He4 as <-; apply keeps_refl]. }
  eauto using keeps_trans.
Qed.
Lemma wi_loop_keeps iters c tdt n s s' : wi_loop S D Env o upd cal iters c tdt n s = Ok s' -> keeps s s'.
Proof.
  revert s; induction n as [|n IH]; intros s H; [injection H as <-; apply keeps_refl|]. cbn [wi_loop] in H.
  peel H a He1. peel H b He2. peel H d He3. peel H e He4. apply IH in H. K.
  assert (keeps d e).
  { destruct (0 <? n)%nat; [peel He4 x He5; K; eauto using keeps_trans|injection He4 as <-; apply keeps_refl]. }
  eauto using keeps_trans.
Qed.

(** the amount of time by which a scheme advances the clock *)
Definition advance (c : scheme) (dt : R) : R := match c with Wilson _ th => (2 * th - 1) * dt | _ => dt end.
Lemma step_time c s dt s' : step c s dt = Ok s' -> TT s' = TT s + advance c dt /\ TL s' = TL s + dt /\ final s'.
Proof.
  intro H. rewrite <- and_assoc. destruct c; cbn [MScheme.step advance] in *.
  - unfold step_st in H. peel H a He1. peel H b He2. peel H d He3. peel H e He4.
    assert (keeps d e).
    { destruct (Req_EM_T _ _); [injection He4 as <-; apply keeps_refl|].
      destruct (Rge_dec _ _); [injection He4 as <-; now split|].
      peels He4. K. unfold keeps in *; cbn in *. intuition congruence. }
    set (e' := if Rgt_dec _ _ then _ else _) in H.
    assert (keeps e e') by (unfold e'; destruct (Rgt_dec _ _); [now split|destruct (Rlt_dec _ _); now split]).
    peel H x He5. peel H ff He6. peel H gg He7. pose proof (finish_final _ _ _ H). apply finish_time in H. K. split; [fin|assumption].
  - unfold step_euler in H. peels H. pose proof (finish_final _ _ _ H). apply finish_time in H. K. split; [fin|assumption].
  - unfold step_leuler, step_euler in H. peels H. pose proof (finish_final _ _ _ H). apply finish_time in H. K. split; [fin|assumption].
  - unfold step_heun in H. peels H. pose proof (finish_final _ _ _ H). apply finish_time in H. K. split; [fin|assumption].
  - unfold step_rk2 in H. peels H. pose proof (finish_final _ _ _ H). apply finish_time in H. K. split; [fin|assumption].
  - unfold step_rk4 in H. peels H. pose proof (finish_final _ _ _ H). apply finish_time in H. K. split; [fin|assumption].
  - unfold step_ab in H. peel H a He1. peel H b He2. peel H d He3.
    assert (keeps b d) by (destruct (local && _); [peel He3 x He4; injection He3 as <-; now split|injection He3 as <-; apply keeps_refl]).
    peels H. pose proof (finish_final _ _ _ H). apply finish_time in H. K. split; [fin|assumption].
  - unfold step_ie in H. peel H a He1. peel H b He2. peel H d He3. apply ie_loop_keeps in He2.
    pose proof (finish_final _ _ _ H). apply finish_time in H. K. split; [fin|assumption].
  - unfold step_an in H. peel H a He1. peel H b He2. apply an_loop_keeps in He1.
    pose proof (finish_final _ _ _ H). apply finish_time in H. K. split; [fin|assumption].
  - unfold step_nm in H. peel H a He1. peel H b He2. peel H d He3. peel H e He4. peel H ff He5. apply nm_loop_keeps in He3.
    pose proof (finish_final _ _ _ H). apply finish_time in H. K. split; [fin|assumption].
  - unfold step_wi in H. peel H a He1. peel H b He2. peel H d He3. peel H e He4. apply wi_loop_keeps in He2.
    pose proof (finish_final _ _ _ H). apply finish_time in H. K. split; [fin|assumption].
Qed.
End U.

(** Two oracles that agree on consistent times within the step give the same step:
    the objects are only ever asked about such times. *)
Section X.
Variables (u1 u2 : Env -> R -> R -> S -> outcome Env) (c0 lo hi : R).
Hypothesis same : forall e t l x, t - l = c0 -> lo <= l <= hi -> u1 e t l x = u2 e t l x.
Notation step1 := (step S D Env o u1 cal lim setmask conv).
Notation step2 := (step S D Env o u2 cal lim setmask conv).
Lemma update_ext s d i : TT s - (d + TL s) = c0 -> lo <= d + TL s <= hi -> update S D Env u1 s d i = update S D Env u2 s d i.
Proof. intros A B. unfold update. apply obind_ext. intros x _. now rewrite same. Qed.
Lemma finish_ext s d : TT s - (d + TL s) = c0 -> lo <= d + TL s <= hi -> finish S D Env u1 s d = finish S D Env u2 s d.
Proof. intros A B. unfold finish. now rewrite update_ext. Qed.

Ltac K := repeat match goal with
  | H : put_r _ _ _ = Ok _ |- _ => apply put_r_keeps in H
  | H : put_d _ _ _ = Ok _ |- _ => apply put_d_keeps in H
  | H : calc _ _ = Ok _ |- _ => apply calc_keeps in H
  | H : axpy _ _ _ _ _ = Ok _ |- _ => apply axpy_keeps in H
  | H : copy_d _ _ _ = Ok _ |- _ => apply copy_d_keeps in H
  | H : mix_d _ _ _ _ = Ok _ |- _ => apply mix_d_keeps in H
  | H : update _ _ _ _ _ _ _ = Ok _ |- _ => apply update_keeps in H
  | H : nm_apply _ _ _ _ _ _ _ _ = Ok _ |- _ => apply nm_apply_keeps in H
  | H : wi_apply _ _ _ _ _ _ _ = Ok _ |- _ => apply wi_apply_keeps in H
  | H : accept _ _ _ _ = Ok _ |- _ => apply accept_keeps in H
  | H : ab_shift _ _ _ _ = Ok _ |- _ => apply ab_shift_keeps in H
  | H : make_stat _ _ _ _ _ _ = Ok _ |- _ => apply make_stat_keeps in H
  | H : ie_loop _ _ _ _ _ _ _ _ _ _ _ _ = Ok _ |- _ => apply ie_loop_keeps in H
  | H : an_loop _ _ _ _ _ _ _ _ _ _ _ _ _ = Ok _ |- _ => apply an_loop_keeps in H
  | H : nm_loop _ _ _ _ _ _ _ _ _ _ _ _ _ = Ok _ |- _ => apply nm_loop_keeps in H
  end.
Ltac num := unfold keeps in *; cbn [MScheme.tt MScheme.tl MScheme.set_t MScheme.set_tl MScheme.set_env MScheme.set_nst MScheme.set_rr MScheme.set_rd MScheme.set_boost MScheme.set_err] in *;
  repeat match goal with H : _ /\ _ |- _ => destruct H end; try split; nra.
Ltac walk := repeat match goal with
  | |- obind (update S D Env u1 ?s ?d ?i) _ = _ => rewrite (update_ext s d i) by num; apply obind_ext; intros; K
  | |- obind ?e _ = obind ?e _ => apply obind_ext; intros; K
  | |- finish S D Env u1 ?s ?d = _ => apply finish_ext; num
  end.

Lemma ie_loop_ext iters c k dt n s : TT s - (k * dt + TL s) = c0 -> lo <= k * dt + TL s <= hi ->
  ie_loop S D Env o u1 cal iters c k dt n s = ie_loop S D Env o u2 cal iters c k dt n s.
Proof.
  revert s; induction n as [|n IH]; intros s A B; [reflexivity|]. cbn [ie_loop]. walk.
  assert (keeps a1 a2).
  { destruct (0 <? n)%nat; [peel H2 x He1; K; eauto using keeps_trans|injection H2 as <-; apply keeps_refl]. }
  apply IH; num.
Qed.
Lemma an_loop_ext iters c k dt n s : TT s - (k * dt + TL s) = c0 -> lo <= k * dt + TL s <= hi ->
  an_loop S D Env o u1 cal conv iters c k dt n s = an_loop S D Env o u2 cal conv iters c k dt n s.
Proof.
  revert s; induction n as [|n IH]; intros s A B; [reflexivity|]. cbn [an_loop]. walk.
  assert (keeps a1 a4).
  { destruct (0 <? n)%nat; [peel H4 x He1; K; eauto using keeps_trans|injection H4 as <-; apply keeps_refl]. }
  destruct (conv _ _); [reflexivity|]. apply IH; num.
Qed.
Lemma nm_loop_ext iters c g b dt n s : TT s - (dt + TL s) = c0 -> lo <= dt + TL s <= hi ->
  nm_loop S D Env o u1 cal iters c g b dt n s = nm_loop S D Env o u2 cal iters c g b dt n s.
Proof.
  revert s; induction n as [|n IH]; intros s A B; [reflexivity|]. cbn [nm_loop]. walk.
  assert (keeps a1 a2).
  { destruct (0 <? n)%nat; [peel H2 x He1; K; eauto using keeps_trans|injection H2 as <-; apply keeps_refl]. }
  apply IH; num.
Qed.

(** schemes that evaluate inside of the step *)
Definition inside (c : scheme) : Prop :=
  match c with Wilson _ _ => False | ImplicitEuler _ k | AndersonEuler _ k => 0 <= k <= 1 | _ => True end.
Lemma step_ext c s dt : inside c -> 0 <= dt -> TT s - TL s = c0 -> lo <= TL s -> TL s + dt <= hi -> step1 c s dt = step2 c s dt.
Proof.
  intros Hc Hd A B C. destruct c; cbn [step inside] in *.
  - unfold step_st. walk.
    match goal with |- obind ?x _ = obind ?y _ => assert (EQ : x = y) end.
    { destruct (Req_EM_T _ _); [reflexivity|]. destruct (Rge_dec _ _); [reflexivity|]. walk. reflexivity. }
    rewrite EQ. apply obind_ext. intros d Hd'.
    assert (keeps a1 d).
    { clear EQ. destruct (Req_EM_T _ _); [injection Hd' as <-; apply keeps_refl|].
      destruct (Rge_dec _ _); [injection Hd' as <-; now split|].
      repeat match type of Hd' with obind _ _ = Ok _ => let x := fresh "s" in let E := fresh "E" in peel Hd' x E end.
      K. unfold keeps in *; cbn in *. intuition congruence. }
    set (e' := if Rgt_dec _ _ then _ else _).
    assert (keeps d e') by (unfold e'; destruct (Rgt_dec _ _); [now split|destruct (Rlt_dec _ _); now split]).
    clearbody e'. walk.
  - unfold step_euler. walk.
  - unfold step_leuler, step_euler. walk.
  - unfold step_heun. walk.
  - unfold step_rk2. walk.
  - unfold step_rk4. walk.
  - unfold step_ab. walk.
    assert (keeps a0 a1) by (destruct (local && _); [peel H1 x He4; injection H1 as <-; now split|injection H1 as <-; apply keeps_refl]).
    walk.
  - unfold step_ie. walk. rewrite ie_loop_ext by num. walk.
  - unfold step_an. rewrite an_loop_ext by num. walk.
  - unfold step_nm. walk. rewrite nm_loop_ext by num. walk.
  - contradiction.
Qed.
End X.
End G.
