(** What the objects know is only changed by Update, the derivatives and the mask: an
    invariant of the objects is kept by every scheme. *)
From Coq Require Import Reals List Arith Bool Lra Lia.
From Verif Require Import MErr MVec MInterp PInterp MStateOps MScheme PScheme.
Import ListNotations.
Open Scope R_scope.

(** schemes whose inner evaluations are after the beginning of the step *)
Definition ahead (c : scheme) : Prop :=
  match c with ImplicitEuler _ k | AndersonEuler _ k => 0 < k | Wilson _ th => 0 < th | _ => True end.

Ltac peels H := repeat match type of H with obind _ _ = Ok _ => let x := fresh "s" in let E := fresh "E" in peel H x E end.
Section I.
Variables (S D Env : Type) (o : sops S D).
Variable upd : Env -> R -> R -> S -> outcome Env.
Variable cal : Env -> D -> outcome (Env * D).
Variable lim : Env -> R -> R -> R.
Variable setmask : Env -> R -> outcome Env.
Variable conv : D -> D -> bool.
Notation tsch := (tsch S D Env).
Notation TT := (tt S D Env). Notation TL := (tl S D Env). Notation ENV := (env S D Env).
Notation RR := (rr S D Env). Notation RD := (rd S D Env).
Notation put_r := (put_r S D Env). Notation put_d := (put_d S D Env). Notation calc := (calc S D Env cal).
Notation axpy := (axpy S D Env o). Notation copy_d := (copy_d S D Env). Notation mix_d := (mix_d S D Env o).
Notation update := (update S D Env upd). Notation finish := (finish S D Env upd).
Notation step := (step S D Env o upd cal lim setmask conv).

(** [P0] as long as the objects have only been told the time [lo], [P] afterwards *)
Variables (lo : R) (P0 P : Env -> Prop).
Hypothesis H01 : forall e, P0 e -> P e.
Hypothesis Hu0 : forall e t x e', P0 e -> upd e t lo x = Ok e' -> P0 e'.
Hypothesis Hu : forall e t l x e', lo < l -> P e -> upd e t l x = Ok e' -> P e'.
Hypothesis Hc0 : forall e d e' d', P0 e -> cal e d = Ok (e', d') -> P0 e'.
Hypothesis Hc : forall e d e' d', P e -> cal e d = Ok (e', d') -> P e'.
Hypothesis Hm0 : forall e dt e', P0 e -> setmask e dt = Ok e' -> P0 e'.

Definition pure (s s' : tsch) := TL s' = TL s /\ ENV s' = ENV s.
Lemma pure_trans a b c : pure a b -> pure b c -> pure a c. Proof. unfold pure. intuition congruence. Qed.
Lemma put_r_pure s i x s' : put_r s i x = Ok s' -> pure s s'.
Proof. unfold MScheme.put_r. intro H. peel H l E. injection H as <-. now split. Qed.
Lemma put_d_pure s i x s' : put_d s i x = Ok s' -> pure s s'.
Proof. unfold MScheme.put_d. intro H. peel H l E. injection H as <-. now split. Qed.
Lemma axpy_pure s a b c k s' : axpy s a b c k = Ok s' -> pure s s'.
Proof. unfold MScheme.axpy. intro H. peel H x He1. peel H y He2. peel H z He3. peel H w He4. now apply put_r_pure in H. Qed.
Lemma copy_d_pure s a b s' : copy_d s a b = Ok s' -> pure s s'.
Proof. unfold MScheme.copy_d. intro H. peel H x He1. now apply put_d_pure in H. Qed.
Lemma mix_d_pure s a b k s' : mix_d s a b k = Ok s' -> pure s s'.
Proof. unfold MScheme.mix_d. intro H. peel H x He1. peel H y He2. peel H z He3. now apply put_d_pure in H. Qed.
Lemma nm_apply_pure g b dt s s' : nm_apply S D Env o g b dt s = Ok s' -> pure s s'.
Proof. unfold nm_apply. intro H. peels H. now apply put_r_pure in H. Qed.
Lemma wi_apply_pure g b s s' : wi_apply S D Env o g b s = Ok s' -> pure s s'.
Proof. unfold wi_apply. intro H. peels H. now apply put_r_pure in H. Qed.
Lemma accept_pure s s' : accept S D Env s = Ok s' -> pure s s'.
Proof. unfold accept. intro H. peel H x He1. peel H y He2. apply copy_d_pure in H. apply put_r_pure in He2. eauto using pure_trans. Qed.
Lemma ab_shift_pure s s' : ab_shift S D Env s = Ok s' -> pure s s'.
Proof. unfold ab_shift. intro H. peel H x He1. peel H y He2. peel H z He3. apply copy_d_pure in H, He1, He2, He3. eauto using pure_trans. Qed.
Lemma make_stat_pure s dt s' : make_stat S D Env o s dt = Ok s' -> pure s s'.
Proof. unfold make_stat. intro H. peel H x He1. peel H y He2. peel H z He3. injection H as <-. apply put_d_pure in He3. exact He3. Qed.

Definition St0 (s : tsch) := TL s = lo /\ P0 (ENV s).
Definition St (s : tsch) := TL s = lo /\ P (ENV s).
Lemma St01 s : St0 s -> St s. Proof. intros [A B]. split; [exact A|now apply H01]. Qed.
Lemma pure0 s s' : St0 s -> pure s s' -> St0 s'. Proof. unfold St0. intros [A B] [C E]. now rewrite C, E. Qed.
Lemma pure1 s s' : St s -> pure s s' -> St s'. Proof. unfold St. intros [A B] [C E]. now rewrite C, E. Qed.
Lemma calc0 s i s' : St0 s -> calc s i = Ok s' -> St0 s'.
Proof. unfold MScheme.calc. intros [A B] H. peel H x He1. peel H y He2. destruct y as [e d]. apply put_d_pure in H as [C E]. split; [now rewrite C|]. rewrite E. cbn. eauto. Qed.
Lemma calc1 s i s' : St s -> calc s i = Ok s' -> St s'.
Proof. unfold MScheme.calc. intros [A B] H. peel H x He1. peel H y He2. destruct y as [e d]. apply put_d_pure in H as [C E]. split; [now rewrite C|]. rewrite E. cbn. eauto. Qed.
Lemma upd0 s i s' : St0 s -> update s 0 i = Ok s' -> St0 s'.
Proof. unfold MScheme.update. intros [A B] H. peel H x He1. peel H y He2. injection H as <-. split; [exact A|]. cbn. rewrite A, Rplus_0_l in He2. eauto. Qed.
Lemma upd1 s d i s' : 0 < d -> St s -> update s d i = Ok s' -> St s'.
Proof. unfold MScheme.update. intros Hd [A B] H. peel H x He1. peel H y He2. injection H as <-. split; [exact A|]. cbn. eapply Hu; [|exact B|exact He2]. lra. Qed.
Lemma fin1 s d s' : 0 < d -> St s -> finish s d = Ok s' -> P (ENV s').
Proof. unfold MScheme.finish. intros Hd A H. peel H x He1. injection H as <-. cbn. now apply (upd1 _ _ _ _ Hd A) in He1 as [_ B]. Qed.

Lemma mixcopy n (a b : nat) k s s' : (if (0 <? n)%nat then x <- mix_d s a b k ;; copy_d x b a else Ok s) = Ok s' -> pure s s'.
Proof. destruct (0 <? n)%nat; intro H; [peel H x He1; apply mix_d_pure in He1; apply copy_d_pure in H; eauto using pure_trans|injection H as <-; now split]. Qed.
Lemma ie1 iters c k dt n s s' : 0 < k * dt -> St s -> ie_loop S D Env o upd cal iters c k dt n s = Ok s' -> St s'.
Proof.
  intro Hk. revert s; induction n as [|n IH]; intros s A H; [injection H as <-; exact A|]. cbn [ie_loop] in H.
  peel H a He1. peel H b He2. peel H d He3. peel H e He4. apply axpy_pure in He1. apply (pure1 _ _ A) in He1. apply (upd1 _ _ _ _ Hk He1) in He2.
  apply (calc1 _ _ _ He2) in He3. apply mixcopy in He4. apply (pure1 _ _ He3) in He4. eauto.
Qed.
Lemma an1 iters c k dt n s s' : 0 < k * dt -> St s -> an_loop S D Env o upd cal conv iters c k dt n s = Ok s' -> St s'.
Proof.
  intro Hk. revert s; induction n as [|n IH]; intros s A H; [injection H as <-; exact A|]. cbn [an_loop] in H.
  peel H a He1. peel H b He2. peel H d He3. peel H y He5. peel H z He6. peel H e He4. apply axpy_pure in He1. apply (pure1 _ _ A) in He1. apply (upd1 _ _ _ _ Hk He1) in He2.
  apply (calc1 _ _ _ He2) in He3. apply mixcopy in He4. apply (pure1 _ _ He3) in He4. destruct (conv y z); [injection H as <-; exact He4|eauto].
Qed.
Lemma nm1 iters c g b0 dt n s s' : 0 < dt -> St s -> nm_loop S D Env o upd cal iters c g b0 dt n s = Ok s' -> St s'.
Proof.
  intro Hk. revert s; induction n as [|n IH]; intros s A H; [injection H as <-; exact A|]. cbn [nm_loop] in H.
  peel H a He1. peel H b He2. peel H d He3. peel H e He4. apply nm_apply_pure in He1. apply (pure1 _ _ A) in He1. apply (upd1 _ _ _ _ Hk He1) in He2.
  apply (calc1 _ _ _ He2) in He3. apply mixcopy in He4. apply (pure1 _ _ He3) in He4. eauto.
Qed.
Lemma wi1 iters c tdt n s s' : 0 < tdt -> St s -> wi_loop S D Env o upd cal iters c tdt n s = Ok s' -> St s'.
Proof.
  intro Hk. revert s; induction n as [|n IH]; intros s A H; [injection H as <-; exact A|]. cbn [wi_loop] in H.
  peel H a He1. peel H b He2. peel H d He3. peel H e He4. apply wi_apply_pure in He1. apply (pure1 _ _ A) in He1. apply (upd1 _ _ _ _ Hk He1) in He2.
  apply (calc1 _ _ _ He2) in He3. apply mixcopy in He4. apply (pure1 _ _ He3) in He4. eauto.
Qed.
Lemma retime (s : tsch) t : pure s (set_t S D Env s t). Proof. now split. Qed.
Lemma restep (s : tsch) n : pure s (set_nst S D Env s n). Proof. now split. Qed.
Ltac toPure := repeat match goal with
  | H : MScheme.put_r _ _ _ _ _ _ = Ok _ |- _ => apply put_r_pure in H
  | H : MScheme.put_d _ _ _ _ _ _ = Ok _ |- _ => apply put_d_pure in H
  | H : MScheme.axpy _ _ _ _ _ _ _ _ _ = Ok _ |- _ => apply axpy_pure in H
  | H : MScheme.copy_d _ _ _ _ _ _ = Ok _ |- _ => apply copy_d_pure in H
  | H : MScheme.nm_apply _ _ _ _ _ _ _ _ = Ok _ |- _ => apply nm_apply_pure in H
  | H : MScheme.wi_apply _ _ _ _ _ _ _ = Ok _ |- _ => apply wi_apply_pure in H
  | H : MScheme.accept _ _ _ _ = Ok _ |- _ => apply accept_pure in H
  | H : MScheme.ab_shift _ _ _ _ = Ok _ |- _ => apply ab_shift_pure in H
  | H : MScheme.make_stat _ _ _ _ _ _ = Ok _ |- _ => apply make_stat_pure in H
  end.
(** run forward from the current fact A about state s *)
Ltac go := repeat match goal with
  | A : St0 ?s, H : pure ?s _ |- _ => apply (pure0 _ _ A) in H; clear A
  | A : St0 ?s, H : pure (MScheme.set_t _ _ _ ?s _) _ |- _ => apply (pure0 _ _ (pure0 _ _ A (retime _ _))) in H; clear A
  | A : St0 ?s, H : MScheme.calc _ _ _ _ ?s _ = Ok _ |- _ => apply (calc0 _ _ _ A) in H; clear A
  | A : St0 ?s, H : MScheme.update _ _ _ _ ?s 0 _ = Ok _ |- _ => apply (upd0 _ _ _ A) in H; clear A
  | A : St0 ?s, H : MScheme.update _ _ _ _ ?s _ _ = Ok _ |- _ => apply St01 in A
  | A : St ?s, H : pure ?s _ |- _ => apply (pure1 _ _ A) in H; clear A
  | A : St ?s, H : pure (MScheme.set_t _ _ _ ?s _) _ |- _ => apply (pure1 _ _ (pure1 _ _ A (retime _ _))) in H; clear A
  | A : St ?s, H : MScheme.calc _ _ _ _ ?s _ = Ok _ |- _ => apply (calc1 _ _ _ A) in H; clear A
  | A : St ?s, H : MScheme.update _ _ _ _ ?s _ _ = Ok _ |- _ => apply (fun p => upd1 _ _ _ _ p A) in H; [clear A|lra]
  end.
Ltac done0 := match goal with
  | A : St0 ?s, H : MScheme.finish _ _ _ _ _ _ = Ok _ |- _ => apply St01 in A; done0
  | A : St ?s, H : MScheme.finish _ _ _ _ ?s _ = Ok _ |- _ => refine (fin1 _ _ _ _ A H); lra
  | A : St ?s, H : MScheme.finish _ _ _ _ (MScheme.set_t _ _ _ ?s _) _ = Ok _ |- _ => refine (fin1 _ _ _ _ (pure1 _ _ A (retime _ _)) H); lra
  | A : St ?s, H : MScheme.finish _ _ _ _ (MScheme.set_t _ _ _ (MScheme.set_nst _ _ _ ?s _) _) _ = Ok _ |- _ => refine (fin1 _ _ _ _ (pure1 _ _ (pure1 _ _ A (restep _ _)) (retime _ _)) H); lra
  end.

Lemma step_inv c s dt s' : ahead c -> 0 < dt -> St0 s -> step c s dt = Ok s' -> P (ENV s').
Proof.
  intros Hc1 Hdt A H. destruct c; cbn [MScheme.step ahead] in *.
  - unfold step_st in H. peel H a He1. peel H b He2. peel H d He3. peel H e He4. toPure. go.
    assert (B : St0 e).
    { destruct (Req_EM_T _ _); [injection He4 as <-; assumption|]. destruct (Rge_dec _ _); [injection He4 as <-; assumption|].
      set (d' := set_boost S D Env d _) in He4. assert (B : St0 d') by assumption. clearbody d'. clear He3. peels He4. toPure. go. assumption. }
    set (e' := if Rgt_dec _ _ then _ else _) in H.
    assert (B' : St0 e') by (unfold e'; destruct (Rgt_dec _ _); [exact B|destruct (Rlt_dec _ _); exact B]). clearbody e'. clear He3 B.
    peels H. toPure. go. done0.
  - unfold step_euler in H. peels H. toPure. go. done0.
  - unfold step_leuler, step_euler in H. peel H e He1. assert (B : St0 (set_env S D Env s e)) by (destruct A; split; [assumption|cbn; eauto]).
    set (z := set_env S D Env s e) in *. clearbody z. clear A. peels H. toPure. go. done0.
  - unfold step_heun in H. peels H. toPure. go. done0.
  - unfold step_rk2 in H. peels H. toPure. go. done0.
  - unfold step_rk4 in H. peels H. toPure. go. done0.
  - unfold step_ab in H. peel H a He1. peel H b He2. peel H d He3. toPure. go.
    assert (B : St0 d).
    { destruct (local && _); [|injection He3 as <-; assumption]. peel He3 x He4. injection He3 as <-. destruct He2; split; [assumption|cbn; eauto]. }
    clear He2. peels H. toPure. go. done0.
  - unfold step_ie in H. peel H a He1. peel H b He2. peel H d He3. toPure. go. apply St01 in He1. apply ie1 in He2; [|now apply Rmult_lt_0_compat|exact He1]. clear He1. go. done0.
  - unfold step_an in H. peel H a He1. peel H b He2. toPure. apply an1 in He1; [|now apply Rmult_lt_0_compat|exact (pure1 _ _ (St01 _ A) (retime _ _))]. clear A. go. done0.
  - unfold step_nm in H. peel H a He1. peel H b He2. peel H d He3. peel H e He4. peel H ff He5. toPure. go. apply St01 in He2. apply nm1 in He3; [|assumption|exact He2]. clear He2. go. done0.
  - unfold step_wi in H. peel H a He1. peel H b He2. peel H d He3. peel H e He4. toPure. go. apply St01 in He1.
    apply wi1 in He2; [|now apply Rmult_lt_0_compat|exact He1]. clear He1. go. done0.
Qed.
End I.
