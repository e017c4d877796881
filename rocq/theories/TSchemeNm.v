(** Implicit Newmark and Wilson schemes and the stationary solver: C59 (lines and points), C77, C78, C79 *)
From Coq Require Import Reals List Arith Bool Lra Lia.
From Verif Require Import MErr MVec MInterp PInterp MStateOps SStateOps PStateOps MScheme SScheme PScheme PSchemeTot PSchemeSys PSchemeOrd PSchemeEq PSchemeNm PSchemeNmB.
Import ListNotations.
Open Scope R_scope.

Section Implicit.
Variables (Env : Type) (sh : shp) (f : R -> mst -> mdst) (cur : Env -> R * mst)
  (upd : Env -> R -> R -> mst -> outcome Env) (cal : Env -> mdst -> outcome (Env * mdst))
  (lim : Env -> R -> R -> R) (setmask : Env -> R -> outcome Env) (conv : mdst -> mdst -> bool).
Hypothesis HF : follows sh f cur upd cal.
Notation step := (step mst mdst Env system_ops upd cal lim setmask conv).
Notation time := (tt mst mdst Env).

(** *** C77.  The step is a Newmark step with the rates at the last iterate y, which is one itself *)
Theorem C77_newmark_method : forall iters g be s x d0 dt, (1 <= iters)%nat -> ready sh (Newmark iters g be) s -> state0 s x -> deriv0 s d0 ->
  exists s' b y x', step (Newmark iters g be) s dt = Ok s' /\ ready sh (Newmark iters g be) s' /\ (iters = 1%nat -> b = d0) /\
    nm_moved sh g be dt x d0 b y /\ nm_moved sh g be dt x d0 (f (time s + dt) y) x' /\ state0 s' x' /\ deriv0 s' (f (time s + dt) y).
Proof. exact (nm_method Env sh f cur upd cal lim setmask conv HF). Qed.
(** uniform acceleration is integrated exactly, whatever the number of iterations and the weights;
    the premises hold again after the step *)
Theorem C77_constant_acceleration : forall iters g be s x d0 dt p v a0, (1 <= iters)%nat -> ready sh (Newmark iters g be) s -> state0 s x -> deriv0 s d0 -> mate sh p v ->
  (forall t y, okS sh y -> dc (f t y) p = sc y v /\ dc (f t y) v = a0) -> dc d0 p = sc x v -> dc d0 v = a0 ->
  exists s' x' d', step (Newmark iters g be) s dt = Ok s' /\ ready sh (Newmark iters g be) s' /\ state0 s' x' /\ deriv0 s' d' /\
    dc d' p = sc x' v /\ dc d' v = a0 /\ sc x' v = sc x v + a0 * dt /\ sc x' p = sc x p + sc x v * dt + a0 * (dt * dt) / 2.
Proof. exact (nm_constant Env sh f cur upd cal lim setmask conv HF). Qed.
(** when the iterations have converged the energy of an oscillator is kept for every step size *)
Theorem C77_converged_energy : forall iters s x d0 dt p v k, (1 <= iters)%nat -> ready sh (Newmark iters (1 / 2) (1 / 4)) s -> state0 s x -> deriv0 s d0 -> mate sh p v ->
  (forall t y, okS sh y -> dc (f t y) p = sc y v /\ dc (f t y) v = - k * sc y p) -> dc d0 p = sc x v -> dc d0 v = - k * sc x p ->
  exists s' x' d', step (Newmark iters (1 / 2) (1 / 4)) s dt = Ok s' /\ state0 s' x' /\ deriv0 s' d' /\
   (dc d' v = - k * sc x' p -> osc_energy k (sc x' p) (sc x' v) = osc_energy k (sc x p) (sc x v)).
Proof. exact (nm_energy Env sh f cur upd cal lim setmask conv HF). Qed.
(** Finding: with one iteration the rate of a position kept for the next step is not the velocity *)
Theorem C77_one_iteration_lag_refuted : forall g be s x d0 dt p v A, ready sh (Newmark 1 g be) s -> state0 s x -> deriv0 s d0 -> mate sh p v ->
  (forall t y, okS sh y -> dc (f t y) p = sc y v /\ dc (f t y) v = A t) -> dc d0 p = sc x v -> dc d0 v = A (time s) ->
  exists s' x' d', step (Newmark 1 g be) s dt = Ok s' /\ state0 s' x' /\ deriv0 s' d' /\
    sc x' v = newmark_v g dt (sc x v) (A (time s)) (A (time s + dt)) /\ dc d' p = sc x' v + g * dt * (A (time s) - A (time s + dt)).
Proof. exact (nm_lag Env sh f cur upd cal lim setmask conv HF). Qed.

(** *** C78.  Finding: a body in free fall falls theta times as far as it should *)
Theorem C78_wilson_free_fall_refuted : forall th s x d0 dt p v a0, ready sh (Wilson 1 th) s -> state0 s x -> deriv0 s d0 -> mate sh p v ->
  (forall t y, okS sh y -> dc (f t y) p = sc y v /\ dc (f t y) v = a0) -> dc d0 p = sc x v -> dc d0 v = a0 ->
  exists s' x', step (Wilson 1 th) s dt = Ok s' /\ state0 s' x' /\
    sc x' v = sc x v + a0 * dt /\ sc x' p = sc x p + sc x v * dt + th * (a0 * (dt * dt) / 2).
Proof. exact (wi_constant Env sh f cur upd cal lim setmask conv HF). Qed.

(** *** C59 for systems without rods and bodies *)
Theorem C59_newmark_partial : snd (fst sh) = 0%nat -> snd sh = 0%nat -> forall x, equilibrium sh f x -> forall iters g be s dt, quiet3 sh x s ->
  exists s', step (Newmark iters g be) s dt = Ok s' /\ quiet3 sh x s'.
Proof. intros Hr Hb x HX. exact (eq_nm Env sh f cur upd cal lim setmask conv HF Hr Hb x HX). Qed.
Theorem C59_wilson_partial : snd (fst sh) = 0%nat -> snd sh = 0%nat -> forall x, equilibrium sh f x -> forall iters th s dt, quiet3 sh x s ->
  exists s', step (Wilson iters th) s dt = Ok s' /\ quiet3 sh x s'.
Proof. intros Hr Hb x HX. exact (eq_wi Env sh f cur upd cal lim setmask conv HF Hr Hb x HX). Qed.
End Implicit.
Print Assumptions C77_newmark_method. Print Assumptions C77_constant_acceleration. Print Assumptions C77_converged_energy. Print Assumptions C77_one_iteration_lag_refuted.
Print Assumptions C78_wilson_free_fall_refuted. Print Assumptions C59_newmark_partial. Print Assumptions C59_wilson_partial.

(** *** C79 *)
Theorem C79_step_factor : forall S D Env (o : sops S D) upd cal lim setmask conv s dt s',
  step S D Env o upd cal lim setmask conv Stationary s dt = Ok s' ->
  exists k, (k = 1 <-> err S D Env s = 0) /\ (k = 1 \/ k = 101 / 100 \/ k = 100 / 101) /\ boost S D Env s' = Rmax (1 / 10) (Rmin 50 (k * boost S D Env s)).
Proof. exact stationary_factor. Qed.
Print Assumptions C79_step_factor.

(** a point in free fall between a line with two inner nodes: entries 12..14 and 15..17 *)
Definition sh1 : shp := ([2%nat], 1%nat, 0%nat, 0%nat).
Example C77_mates : mate sh1 14 17 /\ mate sh1 0 6 /\ mate sh1 5 11.
Proof.
  split; [|split].
  - right. exists 0%nat, 2%nat. cbn. repeat split; lia.
  - left. exists 0%nat, 0%nat. cbn. repeat split; lia.
  - left. exists 0%nat, 5%nat. cbn. repeat split; lia.
Qed.
Definition fall (t : R) (s : mst) : mdst :=
  Md (map (fun l : lst => Dr (vel l) (map (fun _ => V3 0 0 (-9.81)) (vel l))) (s_lines s)) (map (fun p : pst => Dr (vel p) (V3 0 0 (-9.81))) (s_points s)) [] [].
Definition x1 : mst := Ms [St [V3 1 2 3; V3 4 5 6] [V3 0 0 1; V3 0 1 0]] [St (V3 1 2 3) (V3 0 0 4)] [] [].
Example C77_hypotheses_met : follows sh1 fall (fun e => e) (upd1 fall) (cal1 fall) /\
  (let s := Ts mst mdst env1 7 0 (0, x1) [x1; x1] [fall 0 x1; fall 0 x1; fall 0 x1] 0 0 1 in
   ready sh1 (Newmark 3 (1 / 2) (1 / 4)) s /\ ready sh1 (Wilson 1 1.37) s) /\
  (forall t y, okS sh1 y -> dc (fall t y) 14 = sc y 17 /\ dc (fall t y) 17 = -9.81) /\ dc (fall 0 x1) 14 = sc x1 17.
Proof.
  split; [|split; [|split]].
  - apply follows1. intros t x [Rx Sx]. unfold shape, sh1 in Sx. injection Sx as Hl Hp _ _. split.
    + unfold regulard, fall. cbn [d_lines]. unfold regular in Rx. clear - Rx. induction Rx; constructor; [cbn; now rewrite map_length|assumption].
    + unfold shaped, fall, sh1. cbn [d_lines d_points d_rods d_bodies length]. rewrite map_length, Hp, map_map. cbn [dvel]. rewrite <- Hl.
      replace (map (fun x0 : lst => length (vel x0)) (s_lines x)) with (map (fun l : stv (list v3) (list v3) => length (pos l)) (s_lines x)); [now rewrite Hl|].
      unfold regular in Rx. clear - Rx. induction Rx as [|z zs Hz _ IH]; [reflexivity|]. cbn [map]. now rewrite Hz, IH.
  - split; (split; [reflexivity|split; [reflexivity|split; repeat constructor]]).
  - intros t y [Ry Sy]. destruct y as [ls ps rs bs]. unfold shape, sh1 in Sy. cbn in Sy. injection Sy as Hl Hp _ _.
    destruct ls as [|l [|? ?]]; try discriminate. destruct ps as [|p [|? ?]]; try discriminate. destruct l as [pl vl]. cbn in Hl. injection Hl as Hl.
    unfold regular in Ry. cbn in Ry. pose proof (Forall_inv Ry) as Hv. cbn in Hv. destruct pl as [|? [|? [|? ?]]]; try discriminate. destruct vl as [|? [|? [|? ?]]]; try discriminate.
    destruct p as [[a b c] [a' b' c']]. unfold dc, sc. cbn. split; reflexivity.
  - reflexivity.
Qed.
