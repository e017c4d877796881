(** What one step of each scheme computes when the objects follow a differential equation. *)
From Coq Require Import Reals List Arith Bool Lra Lia.
From Verif Require Import MErr MVec MInterp PInterp MStateOps SStateOps PStateOps MScheme SScheme PScheme PSchemeTot PSchemeSys.
Import ListNotations.
Open Scope R_scope.

Lemma moved_unique sh x k d y y' : moved sh x k d y -> moved sh x k d y' -> y = y'.
Proof.
  intros [[R1 S1] H1] [[R2 S2] H2]. assert (HS : shape y = shape y') by congruence.
  destruct (madd_s_ok y y' R1 R2 HS) as (_ & _ & _ & _ & _ & L).
  apply flat_inj; try assumption. apply (nth_ext _ _ 0 0); [exact L|].
  intros i _. specialize (H1 i); specialize (H2 i). unfold sc in *. lra.
Qed.

Section O.
Variables (Env : Type) (sh : shp) (f : R -> mst -> mdst) (cur : Env -> R * mst).
Variable upd : Env -> R -> R -> mst -> outcome Env.
Variable cal : Env -> mdst -> outcome (Env * mdst).
Variable lim : Env -> R -> R -> R.
Variable setmask : Env -> R -> outcome Env.
Variable conv : mdst -> mdst -> bool.
Hypothesis HF : follows sh f cur upd cal.
Notation step := (step mst mdst Env system_ops upd cal lim setmask conv).
Notation tsch := (tsch mst mdst Env).
Notation TT := (tt mst mdst Env). Notation RR := (rr mst mdst Env). Notation RD := (rd mst mdst Env). Notation NST := (nst mst mdst Env).

Ltac open := cbv beta iota zeta delta [MScheme.step step_euler step_heun step_rk2 step_rk4 step_ab ab_shift ab_formula plus_d minus_d update calc axpy copy_d mix_d put_r put_d finish
   set_t set_tl set_env set_rr set_rd set_nst set_err set_boost tt tl env rr rd nst err boost vget vset nth_error obind
   o_sadd o_scale o_dadd o_dsub o_ssub o_dmix o_newmark o_wilson system_ops fst snd andb].
Ltac one :=
  match goal with
  | |- context [upd ?e ?t ?l ?x] => match goal with Hx : okS sh x |- _ => let e' := fresh "e" in let E := fresh "E" in let C := fresh "C" in
      destruct (fol_upd _ _ _ _ _ HF e t l x Hx) as (e' & E & C); rewrite E; clear E end
  | C : cur ?e = _ |- context [cal ?e ?d] => match goal with Hd : okD sh d |- _ => let e' := fresh "e" in let E := fresh "E" in let C' := fresh "C" in
      destruct (fol_cal _ _ _ _ _ HF e d _ _ C Hd) as (e' & E & C'); rewrite E; clear E C end
  | |- context [mscale_d ?d ?k] => match goal with Hd : okD sh d |- _ => let z := fresh "z" in let E := fresh "E" in let Z := fresh "OK" in let Q := fresh "Q" in
      destruct (c_scale _ _ _ (system_closed sh) d k Hd) as (z & E & Z); cbn in E; pose proof (scale_sc d k z (proj1 Hd) E) as Q; rewrite E; clear E end
  | |- context [madd_s ?a ?b] => match goal with Ha : okS sh a, Hb : okS sh b |- _ => let z := fresh "y" in let E := fresh "E" in let Z := fresh "OK" in let Q := fresh "Q" in
      destruct (c_sadd _ _ _ (system_closed sh) a b Ha Hb) as (z & E & Z); cbn in E; pose proof (add_sc sh a b z Ha Hb E) as Q; rewrite E; clear E end
  | |- context [msub_s ?a ?b] => match goal with Ha : okS sh a, Hb : okS sh b |- _ => let z := fresh "y" in let E := fresh "E" in let Z := fresh "OK" in let Q := fresh "Q" in
      destruct (c_ssub _ _ _ (system_closed sh) a b Ha Hb) as (z & E & Z); cbn in E; pose proof (sub_sc_all sh a b z Ha Hb E) as Q; rewrite E; clear E end
  | |- context [madd_d ?a ?b] => match goal with Ha : okD sh a, Hb : okD sh b |- _ => let z := fresh "d" in let E := fresh "E" in let Z := fresh "OK" in let Q := fresh "Q" in
      destruct (c_dadd _ _ _ (system_closed sh) a b Ha Hb) as (z & E & Z); cbn in E; pose proof (dadd_dc sh a b z Ha Hb E) as Q; rewrite E; clear E end
  | |- context [msub_d ?a ?b] => match goal with Ha : okD sh a, Hb : okD sh b |- _ => let z := fresh "d" in let E := fresh "E" in let Z := fresh "OK" in let Q := fresh "Q" in
      destruct (c_dsub _ _ _ (system_closed sh) a b Ha Hb) as (z & E & Z); cbn in E; pose proof (dsub_dc sh a b z Ha Hb E) as Q; rewrite E; clear E end
  | C : cur ?e = (?t, ?x), Hx : okS sh ?x |- _ => lazymatch goal with _ : okD sh (f t x) |- _ => fail | _ => pose proof (fol_f _ _ _ _ _ HF t x Hx) end
  end.
Ltac run := repeat (open; one); open.
Ltac fin := eexists; split; [reflexivity|]; split; [repeat split; open; repeat (constructor; try assumption)|].

Lemma euler_run s x dt : ready sh Euler s -> state0 s x ->
  exists s', step Euler s dt = Ok s' /\ ready sh Euler s' /\ exists x', state0 s' x' /\ moved sh x dt (f (TT s) x) x'.
Proof.
  intros (A & B & FS & FD) H0. destruct s as [t l e rs ds n er bo]. cbn in A, B, FS, FD, H0.
  destruct rs as [|x0 [|? ?]]; try discriminate. destruct ds as [|d0 [|? ?]]; try discriminate. injection H0 as ->.
  pose proof (Forall_inv FS) as Hx. pose proof (Forall_inv FD) as Hd. run. fin.
  eexists; split; [reflexivity|]. split; [assumption|]. intro i. rewrite Q0, Q. reflexivity.
Qed.
Lemma heun_run s x d dt : ready sh Heun s -> state0 s x -> deriv0 s d ->
  exists s', step Heun s dt = Ok s' /\ ready sh Heun s' /\ exists p x', moved sh x dt d p /\ state0 s' x' /\ deriv0 s' (f (TT s) p) /\
   okS sh x' /\ forall i, sc x' i = sc x i + dt / 2 * (dc d i + dc (f (TT s) p) i).
Proof.
  intros (A & B & FS & FD) H0 H1. destruct s as [t l e rs ds n er bo]. cbn in A, B, FS, FD, H0, H1.
  destruct rs as [|x0 [|? ?]]; try discriminate. destruct ds as [|d0 [|d1 [|? ?]]]; try discriminate. injection H0 as ->. injection H1 as ->.
  pose proof (Forall_inv FS) as Hx. pose proof (Forall_inv FD) as Hd. run. fin.
  exists y. eexists. split; [split; [assumption|intro i; rewrite Q0, Q; reflexivity]|]. split; [reflexivity|]. split; [reflexivity|]. split; [assumption|].
  intro i. rewrite Q3, Q2, Q1, Q0, Q. lra.
Qed.
Lemma rk2_run s x dt : ready sh RK2 s -> state0 s x ->
  exists s', step RK2 s dt = Ok s' /\ ready sh RK2 s' /\ exists m x', state0 s' x' /\
    moved sh x (dt / 2) (f (TT s) x) m /\ moved sh x dt (f (TT s + dt / 2) m) x'.
Proof.
  intros (A & B & FS & FD) H0. destruct s as [t l e rs ds n er bo]. cbn in A, B, FS, FD, H0.
  destruct rs as [|x0 [|x1 [|? ?]]]; try discriminate. destruct ds as [|d0 [|d1 [|? ?]]]; try discriminate. injection H0 as ->.
  pose proof (Forall_inv FS) as Hx. pose proof (Forall_inv FD) as Hd. pose proof (Forall_inv (Forall_inv_tail FD)) as Hd1. run. fin.
  replace (0.5 * dt) with (dt / 2) in * by lra. cbn.
  exists y. eexists. split; [reflexivity|]. split; (split; [assumption|intro i]).
  - rewrite Q0, Q. reflexivity.
  - rewrite Q2, Q1. reflexivity.
Qed.
Lemma rk4_run s x dt : ready sh RK4 s -> state0 s x ->
  exists s', step RK4 s dt = Ok s' /\ ready sh RK4 s' /\ exists x2 x3 x4 x', state0 s' x' /\
    let k1 := f (TT s) x in let k2 := f (TT s + dt / 2) x2 in let k3 := f (TT s + dt / 2) x3 in let k4 := f (TT s + dt) x4 in
    moved sh x (dt / 2) k1 x2 /\ moved sh x (dt / 2) k2 x3 /\ moved sh x dt k3 x4 /\
    okS sh x' /\ forall i, sc x' i = sc x i + dt / 6 * (dc k1 i + 2 * dc k2 i + 2 * dc k3 i + dc k4 i).
Proof.
  intros (A & B & FS & FD) H0. destruct s as [t l e rs ds n er bo]. cbn in A, B, FS, FD, H0.
  destruct rs as [|x0 [|x1 [|x2 [|x3 [|x4 [|? ?]]]]]]; try discriminate. destruct ds as [|d0 [|d1 [|d2 [|d3 [|? ?]]]]]; try discriminate. injection H0 as ->.
  pose proof (Forall_inv FS) as Hx. pose proof (Forall_inv FD) as Hd. pose proof (Forall_inv (Forall_inv_tail FD)) as Hd1.
  pose proof (Forall_inv (Forall_inv_tail (Forall_inv_tail FD))) as Hd2.
  pose proof (Forall_inv (Forall_inv_tail (Forall_inv_tail (Forall_inv_tail FD)))) as Hd3.
  pose proof (Forall_inv (Forall_inv_tail FS)) as Hx1. pose proof (Forall_inv (Forall_inv_tail (Forall_inv_tail FS))) as Hx2.
  pose proof (Forall_inv (Forall_inv_tail (Forall_inv_tail (Forall_inv_tail FS)))) as Hx3.
  pose proof (Forall_inv (Forall_inv_tail (Forall_inv_tail (Forall_inv_tail (Forall_inv_tail FS))))) as Hx4. run. fin.
  replace (t + 0.5 * dt + 0.5 * dt) with (t + dt) in * by lra. replace (0.5 * dt) with (dt / 2) in * by lra. cbn zeta. cbn [tt].
  exists y, y0, y1. eexists. split; [reflexivity|]. split; [split; [assumption|intro i; rewrite Q0, Q; reflexivity]|].
  split; [split; [assumption|intro i; rewrite Q2, Q1; reflexivity]|]. split; [split; [assumption|intro i; rewrite Q4, Q3; reflexivity]|].
  split; [assumption|]. intro i. rewrite Q10, Q9, Q8, Q7, Q6, Q5. lra.
Qed.

(** Adams-Bashforth: weights of the new and of the previous derivative *)
Definition ab_new (n : nat) : R := match n with 0%nat => 1 | 1%nat => 3 / 2 | 2%nat => 23 / 12 | 3%nat => 55 / 24 | _ => 1901 / 720 end.
Definition ab_old_rigid (n : nat) : R := match n with 0%nat => 0 | 1%nat => 1 / 2 | 2%nat => 21 / 12 | 3%nat => 105 / 24 | _ => 6915 / 720 end.
Lemma ab_run order s x d dt : ready sh (AB order false) s -> state0 s x -> deriv0 s d ->
  exists s', step (AB order false) s dt = Ok s' /\ ready sh (AB order false) s' /\ NST s' = Nat.min (NST s + 1) order /\
   deriv0 s' (f (TT s) x) /\ exists x', state0 s' x' /\ okS sh x' /\
   forall i, sc x' i = sc x i + dt * (ab_new (NST s) * dc (f (TT s) x) i + (if rigid_entry sh i then ab_old_rigid (NST s) else 1 - ab_new (NST s)) * dc d i).
Proof.
  intros (A & B & FS & FD) H0 H1. destruct s as [t l e rs ds n er bo]. cbn in A, B, FS, FD, H0, H1.
  destruct rs as [|x0 [|? ?]]; try discriminate. destruct ds as [|d0 [|d1 [|d2 [|d3 [|d4 [|? ?]]]]]]; try discriminate. injection H0 as ->. injection H1 as ->.
  pose proof (Forall_inv FS) as Hx. pose proof (Forall_inv FD) as Hd.
  destruct n as [|[|[|[|n]]]]; run; (fin; split; [reflexivity|]; split; [reflexivity|];
    eexists; split; [reflexivity|]; split; [assumption|]; intro i; cbn [tt nst ab_new ab_old_rigid];
    repeat match goal with Q : forall j : nat, sc ?y j = _ |- context [sc ?y _] => rewrite Q end; destruct (rigid_entry sh i); lra).
Qed.
End O.

(** antiderivatives of a polynomial of degree at most 3 *)
Lemma same_derivative (F G h : R -> R) : (forall x, derivable_pt_lim F x (h x)) -> (forall x, derivable_pt_lim G x (h x)) ->
  forall a b, F b - F a = G b - G a.
Proof.
  intros HF HG a b.
  assert (HD : forall x, derivable_pt_lim (F - G)%F x 0). { intro x. replace 0 with (h x - h x) by lra. now apply derivable_pt_lim_minus. }
  assert (D : derivable (F - G)%F) by (intro x; exists 0; apply HD).
  assert (C : constant (F - G)%F). { apply (null_derivative_1 _ D). intro x. apply derive_pt_eq_0, HD. }
  specialize (C a b). unfold minus_fct in C. lra.
Qed.
Lemma cubic_integral F a0 a1 a2 a3 : antiderivative F (cubic a0 a1 a2 a3) -> forall a b,
  F b - F a = a0 * (b - a) + a1 / 2 * (b * b - a * a) + a2 / 3 * (b * b * b - a * a * a) + a3 / 4 * (b * b * b * b - a * a * a * a).
Proof.
  intros HF a b. rewrite (same_derivative F (fun t => a0 * t + a1 / 2 * (t * t) + a2 / 3 * (t * t * t) + a3 / 4 * (t * t * t * t)) _ HF); [lra|].
  intro t. unfold cubic.
  assert (D2 : derivable_pt_lim (id * id)%F t (2 * t)). { replace (2 * t) with (1 * id t + id t * 1) by (unfold id; lra). apply derivable_pt_lim_mult; apply derivable_pt_lim_id. }
  assert (D3 : derivable_pt_lim (id * id * id)%F t (3 * (t * t))). { replace (3 * (t * t)) with (2 * t * id t + (id * id)%F t * 1) by (unfold mult_fct, id; lra). apply derivable_pt_lim_mult; [exact D2|apply derivable_pt_lim_id]. }
  assert (D4 : derivable_pt_lim (id * id * id * id)%F t (4 * (t * t * t))). { replace (4 * (t * t * t)) with (3 * (t * t) * id t + (id * id * id)%F t * 1) by (unfold mult_fct, id; lra). apply derivable_pt_lim_mult; [exact D3|apply derivable_pt_lim_id]. }
  replace (a0 + a1 * t + a2 * (t * t) + a3 * (t * t * t)) with (a0 * 1 + a1 / 2 * (2 * t) + a2 / 3 * (3 * (t * t)) + a3 / 4 * (4 * (t * t * t))) by lra.
  apply (derivable_pt_lim_plus (mult_real_fct a0 id + mult_real_fct (a1 / 2) (id * id) + mult_real_fct (a2 / 3) (id * id * id))%F (mult_real_fct (a3 / 4) (id * id * id * id))).
  - apply derivable_pt_lim_plus; [apply derivable_pt_lim_plus|]; apply derivable_pt_lim_scal; try assumption. apply derivable_pt_lim_id.
  - apply derivable_pt_lim_scal; assumption.
Qed.
