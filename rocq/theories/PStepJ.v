(** An invariant of the objects kept by Update, the derivatives and the mask is kept by every scheme, whatever the lengths of
    its steps; and a step ends with an Update of objects that have the invariant. *)
From Coq Require Import Reals List Arith Bool Lra Lia.
From Verif Require Import MErr MVec MInterp PInterp MStateOps MScheme PScheme PStepInv.
Import ListNotations.
Open Scope R_scope.

Section J.
Variables (S D Env : Type) (o : sops S D).
Variable upd : Env -> R -> R -> S -> outcome Env.
Variable cal : Env -> D -> outcome (Env * D).
Variable lim : Env -> R -> R -> R.
Variable setmask : Env -> R -> outcome Env.
Variable conv : D -> D -> bool.
Notation tsch := (tsch S D Env).
Notation TT := (tt S D Env). Notation TL := (tl S D Env). Notation ENV := (env S D Env).
Notation RR := (rr S D Env).
Notation calc := (calc S D Env cal).
Notation copy_d := (copy_d S D Env). Notation mix_d := (mix_d S D Env o).
Notation update := (update S D Env upd). Notation finish := (finish S D Env upd).
Notation step := (step S D Env o upd cal lim setmask conv).
Notation pure := (pure S D Env).

Variable J : Env -> Prop.
Hypothesis Hu : forall e t l x e', J e -> upd e t l x = Ok e' -> J e'.
Hypothesis Hc : forall e d e' d', J e -> cal e d = Ok (e', d') -> J e'.
Hypothesis Hm : forall e dt e', J e -> setmask e dt = Ok e' -> J e'.

Definition SJ (s : tsch) := J (ENV s).
Lemma pureJ s s' : SJ s -> pure s s' -> SJ s'. Proof. unfold SJ. intros A [_ E]. now rewrite E. Qed.
Lemma calcJ s i s' : SJ s -> calc s i = Ok s' -> SJ s'.
Proof. unfold MScheme.calc. intros A H. peel H x He1. peel H y He2. destruct y as [e d]. apply put_d_pure in H as [_ E]. unfold SJ. rewrite E. cbn. exact (Hc _ _ _ _ A He2). Qed.
Lemma updJ s d i s' : SJ s -> update s d i = Ok s' -> SJ s'.
Proof. unfold MScheme.update. intros A H. peel H x He1. peel H y He2. injection H as <-. exact (Hu _ _ _ _ _ A He2). Qed.
Definition finalJ (s' : tsch) := exists e x, J e /\ vget (RR s') 0 = Ok x /\ upd e (TT s') (TL s') x = Ok (ENV s').
Lemma finJ s d s' : SJ s -> finish s d = Ok s' -> finalJ s'.
Proof.
  unfold MScheme.finish, MScheme.update. intros A H. peel H x He1. injection H as <-. peel He1 y He2. peel He1 e He3. injection He1 as <-.
  exists (ENV s), y. cbn. split; [exact A|]. split; [exact He2|]. now rewrite Rplus_comm.
Qed.
Lemma ieJ iters c k dt n s s' : SJ s -> ie_loop S D Env o upd cal iters c k dt n s = Ok s' -> SJ s'.
Proof.
  revert s; induction n as [|n IH]; intros s A H; [injection H as <-; exact A|]. cbn [ie_loop] in H.
  peel H a He1. peel H b He2. peel H d He3. peel H e He4. apply axpy_pure in He1. apply (pureJ _ _ A) in He1. apply (updJ _ _ _ _ He1) in He2.
  apply (calcJ _ _ _ He2) in He3. apply mixcopy in He4. apply (pureJ _ _ He3) in He4. eauto.
Qed.
Lemma anJ iters c k dt n s s' : SJ s -> an_loop S D Env o upd cal conv iters c k dt n s = Ok s' -> SJ s'.
Proof.
  revert s; induction n as [|n IH]; intros s A H; [injection H as <-; exact A|]. cbn [an_loop] in H.
  peel H a He1. peel H b He2. peel H d He3. peel H y He5. peel H z He6. peel H e He4. apply axpy_pure in He1. apply (pureJ _ _ A) in He1. apply (updJ _ _ _ _ He1) in He2.
  apply (calcJ _ _ _ He2) in He3. apply mixcopy in He4. apply (pureJ _ _ He3) in He4. destruct (conv y z); [injection H as <-; exact He4|eauto].
Qed.
Lemma nmJ iters c g b0 dt n s s' : SJ s -> nm_loop S D Env o upd cal iters c g b0 dt n s = Ok s' -> SJ s'.
Proof.
  revert s; induction n as [|n IH]; intros s A H; [injection H as <-; exact A|]. cbn [nm_loop] in H.
  peel H a He1. peel H b He2. peel H d He3. peel H e He4. apply nm_apply_pure in He1. apply (pureJ _ _ A) in He1. apply (updJ _ _ _ _ He1) in He2.
  apply (calcJ _ _ _ He2) in He3. apply mixcopy in He4. apply (pureJ _ _ He3) in He4. eauto.
Qed.
Lemma wiJ iters c tdt n s s' : SJ s -> wi_loop S D Env o upd cal iters c tdt n s = Ok s' -> SJ s'.
Proof.
  revert s; induction n as [|n IH]; intros s A H; [injection H as <-; exact A|]. cbn [wi_loop] in H.
  peel H a He1. peel H b He2. peel H d He3. peel H e He4. apply wi_apply_pure in He1. apply (pureJ _ _ A) in He1. apply (updJ _ _ _ _ He1) in He2.
  apply (calcJ _ _ _ He2) in He3. apply mixcopy in He4. apply (pureJ _ _ He3) in He4. eauto.
Qed.
Ltac toPure := repeat match goal with
  | H : MScheme.put_r _ _ _ _ _ _ = Ok _ |- _ => apply put_r_pure in H
  | H : MScheme.put_d _ _ _ _ _ _ = Ok _ |- _ => apply put_d_pure in H
  | H : MScheme.axpy _ _ _ _ _ _ _ _ _ = Ok _ |- _ => apply axpy_pure in H
  | H : MScheme.copy_d _ _ _ _ _ _ = Ok _ |- _ => apply copy_d_pure in H
  | H : MScheme.nm_apply _ _ _ _ _ _ _ _ = Ok _ |- _ => apply nm_apply_pure in H
  | H : MScheme.wi_apply _ _ _ _ _ _ _ = Ok _ |- _ => apply wi_apply_pure in H
  | H : MScheme.accept _ _ _ _ = Ok _ |- _ => apply accept_pure in H
  | H : MScheme.ab_shift _ _ _ _ = Ok _ |- _ => apply ab_shift_pure in H
  | H : MScheme.make_stat _ _ _ _ _ _ = Ok _ |- _ => apply make_stat_pure in H
  end.
Lemma tJ s t : SJ s -> SJ (set_t S D Env s t). Proof. exact (fun A => A). Qed.
Lemma nJ s t : SJ s -> SJ (set_nst S D Env s t). Proof. exact (fun A => A). Qed.
Ltac go := repeat match goal with
  | A : SJ ?s, H : PStepInv.pure _ _ _ ?s _ |- _ => apply (pureJ _ _ A) in H; clear A
  | A : SJ ?s, H : PStepInv.pure _ _ _ (MScheme.set_t _ _ _ ?s ?t) _ |- _ => apply (pureJ _ _ (tJ _ t A)) in H; clear A
  | A : SJ ?s, H : MScheme.calc _ _ _ _ ?s _ = Ok _ |- _ => apply (calcJ _ _ _ A) in H; clear A
  | A : SJ ?s, H : MScheme.update _ _ _ _ ?s _ _ = Ok _ |- _ => apply (updJ _ _ _ _ A) in H; clear A
  end.
Ltac done0 := match goal with
  | A : SJ ?s, H : MScheme.finish _ _ _ _ _ _ = Ok _ |- _ => refine (finJ _ _ _ _ H); exact A
  end.
Lemma step_J c s dt s' : SJ s -> step c s dt = Ok s' -> finalJ s'.
Proof.
  intros A H. destruct c; cbn [MScheme.step] in *.
  - unfold step_st in H. peel H a He1. peel H b He2. peel H d He3. peel H e He4. toPure. go.
    assert (B : SJ e).
    { destruct (Req_EM_T _ _); [injection He4 as <-; assumption|]. destruct (Rge_dec _ _); [injection He4 as <-; assumption|].
      set (d' := set_boost S D Env d _) in He4. assert (B : SJ d') by assumption. clearbody d'. clear He3. peels He4. toPure. go. assumption. }
    set (e' := if Rgt_dec _ _ then _ else _) in H.
    assert (B' : SJ e') by (unfold e'; destruct (Rgt_dec _ _); [exact B|destruct (Rlt_dec _ _); exact B]). clearbody e'. clear He3 B.
    peels H. toPure. go. done0.
  - unfold step_euler in H. peels H. toPure. go. done0.
  - unfold step_leuler, step_euler in H. peel H e He1. assert (B : SJ (set_env S D Env s e)) by exact (Hm _ _ _ A He1).
    set (z := set_env S D Env s e) in *. clearbody z. clear A. peels H. toPure. go. done0.
  - unfold step_heun in H. peels H. toPure. go. done0.
  - unfold step_rk2 in H. peels H. toPure. go. done0.
  - unfold step_rk4 in H. peels H. toPure. go. done0.
  - unfold step_ab in H. peel H a He1. peel H b He2. peel H d He3. toPure. go.
    assert (B : SJ d).
    { destruct (local && _); [|injection He3 as <-; assumption]. peel He3 x He4. injection He3 as <-. exact (Hm _ _ _ He2 He4). }
    clear He2. peels H. toPure. go. done0.
  - unfold step_ie in H. peel H a He1. peel H b He2. peel H d He3. toPure. go. apply ieJ in He2; [|exact He1]. clear He1. go. done0.
  - unfold step_an in H. peel H a He1. peel H b He2. toPure. apply anJ in He1; [|exact A]. clear A. go. done0.
  - unfold step_nm in H. peel H a He1. peel H b He2. peel H d He3. peel H e He4. peel H ff He5. toPure. go. apply nmJ in He3; [|exact He2]. clear He2. go. done0.
  - unfold step_wi in H. peel H a He1. peel H b He2. peel H d He3. peel H e He4. toPure. go.
    apply wiJ in He2; [|exact He1]. clear He1. go. done0.
Qed.
End J.
