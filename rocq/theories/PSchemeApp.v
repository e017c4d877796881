(** Exactness of the explicit schemes, and the defects of Heun and Adams-Bashforth. *)
From Coq Require Import Reals List Arith Bool Lra Lia.
From Verif Require Import MErr MVec MInterp PInterp MStateOps SStateOps PStateOps MScheme SScheme PScheme PSchemeTot PSchemeSys PSchemeOrd.
Import ListNotations.
Open Scope R_scope.

Section A.
Variables (Env : Type) (sh : shp) (f : R -> mst -> mdst) (cur : Env -> R * mst).
Variable upd : Env -> R -> R -> mst -> outcome Env.
Variable cal : Env -> mdst -> outcome (Env * mdst).
Variable lim : Env -> R -> R -> R.
Variable setmask : Env -> R -> outcome Env.
Variable conv : mdst -> mdst -> bool.
Hypothesis HF : follows sh f cur upd cal.
Notation step := (step mst mdst Env system_ops upd cal lim setmask conv).
Notation TT := (tt mst mdst Env). Notation NST := (nst mst mdst Env).

Lemma euler_exact s x dt i a0 F : ready sh Euler s -> state0 s x -> (forall t y, okS sh y -> dc (f t y) i = cubic a0 0 0 0 t) -> antiderivative F (cubic a0 0 0 0) ->
  exists s' x', step Euler s dt = Ok s' /\ state0 s' x' /\ sc x' i = sc x i + (F (TT s + dt) - F (TT s)).
Proof.
  intros G H0 Hf HA. destruct (euler_run Env sh f cur upd cal lim setmask conv HF s x dt G H0) as (s' & E & G' & x' & H0' & Hm & M).
  exists s', x'. split; [exact E|]. split; [exact H0'|]. rewrite M, (cubic_integral F a0 0 0 0 HA), Hf; [unfold cubic; lra|].
  destruct G as (L & _ & FS & _). unfold state0 in H0. apply nth_error_In in H0. rewrite Forall_forall in FS. auto.
Qed.
Lemma in_ready c s x : ready sh c s -> state0 (Env := Env) s x -> okS sh x.
Proof. intros (_ & _ & FS & _) H0. apply nth_error_In in H0. rewrite Forall_forall in FS. auto. Qed.
Lemma rk2_exact s x dt i a0 a1 F : ready sh RK2 s -> state0 s x -> (forall t y, okS sh y -> dc (f t y) i = cubic a0 a1 0 0 t) -> antiderivative F (cubic a0 a1 0 0) ->
  exists s' x', step RK2 s dt = Ok s' /\ state0 s' x' /\ sc x' i = sc x i + (F (TT s + dt) - F (TT s)).
Proof.
  intros G H0 Hf HA. destruct (rk2_run Env sh f cur upd cal lim setmask conv HF s x dt G H0) as (s' & E & G' & m & x' & H0' & (Om & M) & Ox & M').
  exists s', x'. split; [exact E|]. split; [exact H0'|]. rewrite M', (cubic_integral F a0 a1 0 0 HA), Hf by exact Om. unfold cubic. lra.
Qed.
Lemma rk4_exact s x dt i a0 a1 a2 a3 F : ready sh RK4 s -> state0 s x -> (forall t y, okS sh y -> dc (f t y) i = cubic a0 a1 a2 a3 t) -> antiderivative F (cubic a0 a1 a2 a3) ->
  exists s' x', step RK4 s dt = Ok s' /\ state0 s' x' /\ sc x' i = sc x i + (F (TT s + dt) - F (TT s)).
Proof.
  intros G H0 Hf HA. destruct (rk4_run Env sh f cur upd cal lim setmask conv HF s x dt G H0) as (s' & E & G' & x2 & x3 & x4 & x' & H0' & (O2 & _) & (O3 & _) & (O4 & _) & O' & M).
  exists s', x'. split; [exact E|]. split; [exact H0'|].
  rewrite M, (cubic_integral F a0 a1 a2 a3 HA), !Hf by (try assumption; now apply (in_ready RK4 s)). unfold cubic. field.
Qed.
(** Newton: position entry p, velocity entry v, acceleration depending on time *)
Lemma rk2_newton s x dt p v a0 : ready sh RK2 s -> state0 s x ->
  (forall t y, okS sh y -> dc (f t y) p = sc y v /\ dc (f t y) v = a0) ->
  exists s' x', step RK2 s dt = Ok s' /\ state0 s' x' /\ sc x' v = sc x v + a0 * dt /\ sc x' p = sc x p + sc x v * dt + a0 * (dt * dt) / 2.
Proof.
  intros G H0 Hf. pose proof (in_ready _ _ _ G H0) as Hx.
  destruct (rk2_run Env sh f cur upd cal lim setmask conv HF s x dt G H0) as (s' & E & G' & m & x' & H0' & (Om & M) & Ox & M').
  exists s', x'. split; [exact E|]. split; [exact H0'|]. rewrite !M'. destruct (Hf (TT s + dt / 2) m Om) as [-> ->].
  rewrite M. destruct (Hf (TT s) x Hx) as [_ ->]. split; lra.
Qed.
Lemma rk4_newton s x dt p v a0 a1 a2 V P : ready sh RK4 s -> state0 s x ->
  (forall t y, okS sh y -> dc (f t y) p = sc y v /\ dc (f t y) v = cubic a0 a1 a2 0 t) ->
  antiderivative V (cubic a0 a1 a2 0) -> antiderivative P V -> V (TT s) = sc x v ->
  exists s' x', step RK4 s dt = Ok s' /\ state0 s' x' /\ sc x' v = V (TT s + dt) /\ sc x' p = sc x p + (P (TT s + dt) - P (TT s)).
Proof.
  intros G H0 Hf HV HP HV0. pose proof (in_ready _ _ _ G H0) as Hx.
  destruct (rk4_run Env sh f cur upd cal lim setmask conv HF s x dt G H0) as (s' & E & G' & x2 & x3 & x4 & x' & H0' & (O2 & M2) & (O3 & M3) & (O4 & M4) & O' & M).
  exists s', x'. split; [exact E|]. split; [exact H0'|]. rewrite !M.
  destruct (Hf (TT s) x Hx) as [Px Vx], (Hf (TT s + dt / 2) x2 O2) as [P2 V2], (Hf (TT s + dt / 2) x3 O3) as [P3 V3], (Hf (TT s + dt) x4 O4) as [P4 V4].
  rewrite Px, Vx, P2, V2, P3, V3, P4, V4, M2, M3, M4, Vx, V2, V3.
  pose proof (cubic_integral V a0 a1 a2 0 HV) as IV. set (t := TT s) in *.
  (* V is the cubic k0 + a0 t + a1/2 t^2 + a2/3 t^3 *)
  assert (HP' : antiderivative P (cubic (V 0) a0 (a1 / 2) (a2 / 3))).
  { intro u. replace (cubic (V 0) a0 (a1 / 2) (a2 / 3) u) with (V u); [apply HP|]. specialize (IV 0 u). unfold cubic. lra. }
  pose proof (cubic_integral P _ _ _ _ HP' t (t + dt)) as IP. pose proof (IV t (t + dt)) as I1. pose proof (IV 0 t) as I0.
  rewrite <- HV0. replace (V (t + dt)) with (V t + (V (t + dt) - V t)) by lra. rewrite I1, IP. replace (V t) with (V 0 + (V t - V 0)) by lra. rewrite I0.
  unfold cubic. split; field.
Qed.
(** linear decay or growth of an entry: one step multiplies by a Taylor polynomial of exp *)
Lemma euler_linear s x dt i la : ready sh Euler s -> state0 s x -> (forall t y, okS sh y -> dc (f t y) i = la * sc y i) ->
  exists s' x', step Euler s dt = Ok s' /\ state0 s' x' /\ sc x' i = taylor 1 (la * dt) * sc x i.
Proof.
  intros G H0 Hf. pose proof (in_ready _ _ _ G H0) as Hx.
  destruct (euler_run Env sh f cur upd cal lim setmask conv HF s x dt G H0) as (s' & E & G' & x' & H0' & Hm & M).
  exists s', x'. split; [exact E|]. split; [exact H0'|]. rewrite M, Hf by exact Hx. unfold taylor. cbn. field.
Qed.
Lemma rk2_linear s x dt i la : ready sh RK2 s -> state0 s x -> (forall t y, okS sh y -> dc (f t y) i = la * sc y i) ->
  exists s' x', step RK2 s dt = Ok s' /\ state0 s' x' /\ sc x' i = taylor 2 (la * dt) * sc x i.
Proof.
  intros G H0 Hf. pose proof (in_ready _ _ _ G H0) as Hx.
  destruct (rk2_run Env sh f cur upd cal lim setmask conv HF s x dt G H0) as (s' & E & G' & m & x' & H0' & (Om & M) & Ox & M').
  exists s', x'. split; [exact E|]. split; [exact H0'|]. rewrite M', Hf, M, Hf by assumption. unfold taylor. cbn. field.
Qed.
Lemma rk4_linear s x dt i la : ready sh RK4 s -> state0 s x -> (forall t y, okS sh y -> dc (f t y) i = la * sc y i) ->
  exists s' x', step RK4 s dt = Ok s' /\ state0 s' x' /\ sc x' i = taylor 4 (la * dt) * sc x i.
Proof.
  intros G H0 Hf. pose proof (in_ready _ _ _ G H0) as Hx.
  destruct (rk4_run Env sh f cur upd cal lim setmask conv HF s x dt G H0) as (s' & E & G' & x2 & x3 & x4 & x' & H0' & (O2 & M2) & (O3 & M3) & (O4 & M4) & O' & M).
  exists s', x'. split; [exact E|]. split; [exact H0'|]. rewrite M, !Hf by assumption. rewrite M4, Hf, M3, Hf, M2, Hf by assumption. unfold taylor. cbn. field.
Qed.
(** Heun: with a derivative depending on time only, the step adds the mean of the
    derivative at the start of the step and the one kept from the previous step *)
Lemma heun_lag s x d dt i a0 a1 F : ready sh Heun s -> state0 s x -> deriv0 s d -> dc d i = cubic a0 a1 0 0 (TT s - dt) ->
  (forall t y, okS sh y -> dc (f t y) i = cubic a0 a1 0 0 t) -> antiderivative F (cubic a0 a1 0 0) ->
  exists s' x' d', step Heun s dt = Ok s' /\ ready sh Heun s' /\ state0 s' x' /\ deriv0 s' d' /\ dc d' i = cubic a0 a1 0 0 (TT s' - dt) /\
    sc x' i = sc x i + (F (TT s) - F (TT s - dt)).
Proof.
  intros G H0 H1 Hd Hf HA. destruct (heun_run Env sh f cur upd cal lim setmask conv HF s x d dt G H0 H1) as (s' & E & G' & p & x' & (Op & _) & H0' & H1' & O' & M).
  exists s', x', (f (TT s) p). do 3 (split; [assumption|]). split; [assumption|]. destruct (step_time _ _ _ _ _ _ _ _ _ _ _ _ _ E) as (HT & _). cbn in HT.
  split; [rewrite HT, Hf by exact Op; f_equal; lra|]. rewrite M, Hd, Hf, (cubic_integral F a0 a1 0 0 HA) by exact Op. unfold cubic. lra.
Qed.
(** Adams-Bashforth *)
Notation AB' k := (AB k false).
Lemma ab_constant k s x d dt i a0 F : ready sh (AB' k) s -> state0 s x -> deriv0 s d -> (NST s = 0%nat \/ dc d i = a0) -> rigid_entry sh i = false ->
  (forall t y, okS sh y -> dc (f t y) i = cubic a0 0 0 0 t) -> antiderivative F (cubic a0 0 0 0) ->
  exists s' x' d', step (AB' k) s dt = Ok s' /\ ready sh (AB' k) s' /\ state0 s' x' /\ deriv0 s' d' /\ dc d' i = a0 /\ sc x' i = sc x i + (F (TT s + dt) - F (TT s)).
Proof.
  intros G H0 H1 Hd Hr Hf HA. pose proof (in_ready _ _ _ G H0) as Hx.
  destruct (ab_run Env sh f cur upd cal lim setmask conv HF k s x d dt G H0 H1) as (s' & E & G' & N & H1' & x' & H0' & O' & M).
  exists s', x', (f (TT s) x). do 4 (split; [assumption|]). split; [rewrite Hf by exact Hx; unfold cubic; lra|].
  rewrite M, Hr, Hf, (cubic_integral F a0 0 0 0 HA) by exact Hx. unfold cubic. destruct Hd as [-> | ->]; cbn [ab_new]; lra.
Qed.
Lemma ab_rigid k s x d dt i a0 : ready sh (AB' k) s -> state0 s x -> deriv0 s d -> dc d i = a0 -> rigid_entry sh i = true ->
  (forall t y, okS sh y -> dc (f t y) i = a0) -> (1 <= NST s)%nat -> exists s' x', step (AB' k) s dt = Ok s' /\ state0 s' x' /\
    sc x' i - sc x i = nth (NST s) [1; 2; 44 / 12; 160 / 24] (8816 / 720) * (a0 * dt).
Proof.
  intros G H0 H1 Hd Hr Hf HN. pose proof (in_ready _ _ _ G H0) as Hx.
  destruct (ab_run Env sh f cur upd cal lim setmask conv HF k s x d dt G H0 H1) as (s' & E & G' & N & H1' & x' & H0' & O' & M).
  exists s', x'. do 2 (split; [assumption|]). rewrite M, Hr, Hf, Hd by exact Hx. destruct (NST s) as [|[|[|[|[|n]]]]]; cbn; try lia; lra.
Qed.
Lemma ab_linear k s x d dt i a0 a1 F : ready sh (AB' k) s -> state0 s x -> deriv0 s d -> dc d i = cubic a0 a1 0 0 (TT s - dt) -> rigid_entry sh i = false ->
  (forall t y, okS sh y -> dc (f t y) i = cubic a0 a1 0 0 t) -> antiderivative F (cubic a0 a1 0 0) ->
  exists s' x', step (AB' k) s dt = Ok s' /\ state0 s' x' /\ sc x' i = sc x i + (F (TT s + dt) - F (TT s)) + (ab_new (NST s) - 3 / 2) * (a1 * (dt * dt)).
Proof.
  intros G H0 H1 Hd Hr Hf HA. pose proof (in_ready _ _ _ G H0) as Hx.
  destruct (ab_run Env sh f cur upd cal lim setmask conv HF k s x d dt G H0 H1) as (s' & E & G' & N & H1' & x' & H0' & O' & M).
  exists s', x'. do 2 (split; [assumption|]). rewrite M, Hr, Hf, Hd, (cubic_integral F a0 a1 0 0 HA) by exact Hx. unfold cubic. lra.
Qed.
(** n steps from a scheme that has made none *)
Lemma ab_steps k n s x dt : ready sh (AB' k) s -> state0 s x -> NST s = 0%nat ->
  exists s' x', steps (step (AB' k)) n s dt = Ok s' /\ ready sh (AB' k) s' /\ state0 s' x' /\ NST s' = Nat.min n k /\ TT s' = TT s + INR n * dt /\
    ((1 <= n)%nat -> exists y, okS sh y /\ deriv0 s' (f (TT s' - dt) y)).
Proof.
  intros G H0 HN. induction n as [|n (s1 & x1 & Es & G1 & H1 & N1 & T1 & D1)].
  - exists s, x. cbn. split; [reflexivity|]. do 2 (split; [assumption|]). split; [lia|]. split; [lra|lia].
  - assert (Hd : exists d, deriv0 s1 d).
    { destruct G1 as (_ & L & _ & _). unfold deriv0. cbn in L. destruct (rd mst mdst Env s1); [discriminate|]. eexists; reflexivity. }
    destruct Hd as (d & Hd). destruct (ab_run Env sh f cur upd cal lim setmask conv HF k s1 x1 d dt G1 H1 Hd) as (s' & E & G' & N & H1' & x' & H0' & O' & M).
    exists s', x'. cbn [steps]. rewrite Es. cbn [obind]. do 3 (split; [assumption|]). split; [lia|].
    destruct (step_time _ _ _ _ _ _ _ _ _ _ _ _ _ E) as (HT & _). cbn [advance] in HT. split; [rewrite HT, T1, S_INR; lra|].
    intros _. exists x1. split; [now apply (in_ready (AB' k) s1)|]. replace (TT s' - dt) with (TT s1) by lra. exact H1'.
Qed.
End A.
