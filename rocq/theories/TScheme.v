(** Properties C19-C22, C57, C59: state arithmetic and time integration schemes.
    The objects of the system enter as arbitrary functions [upd] (being given a time and a
    state), [cal] (answering derivatives), [lim] and [setmask]. *)
From Coq Require Import Reals List Arith Lra Lia.
From Verif Require Import MErr MVec MInterp MStateOps SStateOps PStateOps MScheme SScheme PScheme PSchemeTot PSchemeSys PSchemeOrd PSchemeApp PSchemeEq.
Import ListNotations.
Open Scope R_scope.

(** C22 *)
Theorem C22_sum_of_states : forall a b, regular a -> regular b -> shape a = shape b ->
  exists c, madd_s a b = Ok c /\ flat c = each Rplus (flat a) (flat b) /\ shape c = shape a.
Proof. intros a b Ra Rb H. destruct (madd_s_ok a b Ra Rb H) as (c & A & B & C & _). exact (ex_intro _ c (conj A (conj B C))). Qed.
Print Assumptions C22_sum_of_states.
Theorem C22_sum_of_mismatched_states_is_an_error : forall a b, regular a -> regular b -> shape a <> shape b -> madd_s a b = Throw ExInvalidValue.
Proof. exact madd_s_throw. Qed.
Print Assumptions C22_sum_of_mismatched_states_is_an_error.
Theorem C22_difference_of_mismatched_states_is_an_error : forall a b, regular a -> regular b -> shape a <> shape b -> msub_s a b = Throw ExInvalidValue.
Proof. exact msub_s_throw. Qed.
Print Assumptions C22_difference_of_mismatched_states_is_an_error.
Theorem C22_scaling : forall d k, regulard d -> exists c, mscale_d d k = Ok c /\ flat c = map (Rmult k) (flatd d) /\ shape c = shaped d.
Proof. intros d k R. destruct (mscale_d_ok d k R) as (c & A & B & C & _). exact (ex_intro _ c (conj A (conj B C))). Qed.
Print Assumptions C22_scaling.
Theorem C22_sum_of_derivatives : forall a b, regulard a -> regulard b ->
  (shaped a = shaped b -> exists c, madd_d a b = Ok c /\ flatd c = each Rplus (flatd a) (flatd b)) /\
  (shaped a <> shaped b -> madd_d a b = Throw ExInvalidValue).
Proof. intros a b Ra Rb. destruct (madd_d_spec a b Ra Rb) as [H K]. split; [|exact K]. intro E. destruct (H E) as (c & A & B & _). now exists c. Qed.
Print Assumptions C22_sum_of_derivatives.
Theorem C22_difference_of_derivatives : forall a b, regulard a -> regulard b ->
  (shaped a = shaped b -> exists c, msub_d a b = Ok c /\ flatd c = each Rminus (flatd a) (flatd b)) /\
  (shaped a <> shaped b -> msub_d a b = Throw ExInvalidValue).
Proof. intros a b Ra Rb. destruct (msub_d_spec a b Ra Rb) as [H K]. split; [|exact K]. intro E. destruct (H E) as (c & A & B & _). now exists c. Qed.
Print Assumptions C22_difference_of_derivatives.
(** without rods and bodies *)
Theorem C22_difference_of_states_partial : forall a b, regular a -> regular b -> s_rods a = [] -> s_bodies a = [] -> shape a = shape b ->
  exists c, msub_s a b = Ok c /\ flat c = each Rminus (flat a) (flat b) /\ shape c = shape a /\ regular c.
Proof. exact sub_partial. Qed.
Print Assumptions C22_difference_of_states_partial.
Theorem C22_add_then_subtract_partial : forall a b, regular a -> regular b -> s_rods a = [] -> s_bodies a = [] -> shape a = shape b ->
  exists c, madd_s a b = Ok c /\ msub_s c b = Ok a.
Proof. exact add_sub_cancel. Qed.
Print Assumptions C22_add_then_subtract_partial.
(** Finding: for rods and bodies the difference is the sum *)
Theorem C22_rigid_difference_refuted : exists a c, regular a /\ msub_s a a = Ok c /\ madd_s a a = Ok c /\ nth 0 (flat c) 0 = 2.
Proof. exact sub_rigid_refuted. Qed.
Print Assumptions C22_rigid_difference_refuted.
Theorem C22_difference_entry_by_entry : forall sh a b c, okS sh a -> okS sh b -> msub_s a b = Ok c ->
  forall i, sc c i = if rigid_entry sh i then sc a i + sc b i else sc a i - sc b i.
Proof. exact sub_sc_all. Qed.
Print Assumptions C22_difference_entry_by_entry.
(** Finding: Mix does not check the sizes *)
Theorem C22_mix_mismatch_refuted : exists a b f, regular a /\ regular b /\ shape a <> shape b /\ mmix_s a b f = UB.
Proof. exact mix_ub. Qed.
Print Assumptions C22_mix_mismatch_refuted.

(** C19 *)
Theorem C19_step_advances_time : forall S D Env (o : sops S D) cal lim setmask conv upd c s dt s',
  (forall n th, c <> Wilson n th) -> step S D Env o upd cal lim setmask conv c s dt = Ok s' ->
  tt S D Env s' = tt S D Env s + dt /\ tl S D Env s' = tl S D Env s + dt.
Proof.
  intros until s'. intros Hc H. destruct (step_time S D Env o cal lim setmask conv upd c s dt s' H) as (A & B & _).
  destruct c; try (now split). exfalso. now apply (Hc iters theta).
Qed.
Print Assumptions C19_step_advances_time.
(** at the end of the step the objects have been given the final time and state *)
Theorem C19_objects_are_left_at_the_final_time : forall S D Env (o : sops S D) cal lim setmask conv upd c s dt s',
  step S D Env o upd cal lim setmask conv c s dt = Ok s' ->
  exists e x, vget (rr S D Env s') 0 = Ok x /\ upd e (tt S D Env s') (tl S D Env s') x = Ok (env S D Env s').
Proof. intros until s'. intro H. destruct (step_time S D Env o cal lim setmask conv upd c s dt s' H) as (_ & _ & C). exact C. Qed.
Print Assumptions C19_objects_are_left_at_the_final_time.
(** during the step the objects are only given times of the step, at which time and
    local time agree: what they would do at other times does not matter *)
Theorem C19_only_times_of_the_step : forall S D Env (o : sops S D) cal lim setmask conv u1 u2 c0 lo hi,
  (forall e t l x, t - l = c0 -> lo <= l <= hi -> u1 e t l x = u2 e t l x) ->
  forall c s dt, inside c -> 0 <= dt -> tt S D Env s - tl S D Env s = c0 -> lo <= tl S D Env s -> tl S D Env s + dt <= hi ->
  step S D Env o u1 cal lim setmask conv c s dt = step S D Env o u2 cal lim setmask conv c s dt.
Proof. intros S D Env o cal lim setmask conv u1 u2 c0 lo hi H. apply step_ext. exact H. Qed.
Print Assumptions C19_only_times_of_the_step.
(** a step of a system whose arrays have the right sizes never fails by itself *)
Theorem C19_step_succeeds : forall Env upd cal lim setmask conv sh,
  (forall (e : Env) t l x, okS sh x -> exists e', upd e t l x = Ok e') ->
  (forall e d, okD sh d -> exists e' d', cal e d = Ok (e', d') /\ okD sh d') ->
  (forall e dt, exists e', setmask e dt = Ok e') ->
  forall c s dt, ready sh c s -> exists s', step mst mdst Env system_ops upd cal lim setmask conv c s dt = Ok s' /\ ready sh c s'.
Proof. intros Env upd cal lim setmask conv sh Hu Hc Hm c s dt. exact (step_total mst mdst Env system_ops (okS sh) (okD sh) (system_closed sh) upd cal lim setmask conv Hu Hc Hm c s dt). Qed.
Print Assumptions C19_step_succeeds.
(** Finding: the Wilson scheme advances by (2 theta - 1) dt, 1.74 dt with its 1.37 *)
Theorem C19_wilson_refuted : forall S D Env (o : sops S D) cal lim setmask conv upd n th s dt s',
  step S D Env o upd cal lim setmask conv (Wilson n th) s dt = Ok s' ->
  tt S D Env s' = tt S D Env s + (2 * th - 1) * dt /\ tl S D Env s' = tl S D Env s + dt.
Proof. intros until s'. intro H. destruct (step_time S D Env o cal lim setmask conv upd _ s dt s' H) as (A & B & _). now split. Qed.
Print Assumptions C19_wilson_refuted.

(** C20. [follows sh f ...]: the objects behave like the differential equation x' = f t x.
    Each explicit scheme is the textbook method: *)
Section Methods.
Variables (Env : Type) (sh : shp) (f : R -> mst -> mdst) (cur : Env -> R * mst)
  (upd : Env -> R -> R -> mst -> outcome Env) (cal : Env -> mdst -> outcome (Env * mdst))
  (lim : Env -> R -> R -> R) (setmask : Env -> R -> outcome Env) (conv : mdst -> mdst -> bool).
Hypothesis HF : follows sh f cur upd cal.
Notation step := (step mst mdst Env system_ops upd cal lim setmask conv).
Notation time := (tt mst mdst Env).
Notation made := (nst mst mdst Env).

Theorem C20_euler_method : forall s x dt, ready sh Euler s -> state0 s x ->
  exists s', step Euler s dt = Ok s' /\ ready sh Euler s' /\ exists x', state0 s' x' /\ moved sh x dt (f (time s) x) x'.
Proof. exact (euler_run Env sh f cur upd cal lim setmask conv HF). Qed.
Theorem C20_rk2_method : forall s x dt, ready sh RK2 s -> state0 s x ->
  exists s', step RK2 s dt = Ok s' /\ ready sh RK2 s' /\ exists m x', state0 s' x' /\
    moved sh x (dt / 2) (f (time s) x) m /\ moved sh x dt (f (time s + dt / 2) m) x'.
Proof. exact (rk2_run Env sh f cur upd cal lim setmask conv HF). Qed.
Theorem C20_rk4_method : forall s x dt, ready sh RK4 s -> state0 s x ->
  exists s', step RK4 s dt = Ok s' /\ ready sh RK4 s' /\ exists x2 x3 x4 x', state0 s' x' /\
    let k1 := f (time s) x in let k2 := f (time s + dt / 2) x2 in let k3 := f (time s + dt / 2) x3 in let k4 := f (time s + dt) x4 in
    moved sh x (dt / 2) k1 x2 /\ moved sh x (dt / 2) k2 x3 /\ moved sh x dt k3 x4 /\
    okS sh x' /\ forall i, sc x' i = sc x i + dt / 6 * (dc k1 i + 2 * dc k2 i + 2 * dc k3 i + dc k4 i).
Proof. exact (rk4_run Env sh f cur upd cal lim setmask conv HF). Qed.
(** exact on polynomials of the time of degree 0, 1, 3 *)
Theorem C20_euler_exact : forall s x dt i a0 F, ready sh Euler s -> state0 s x ->
  (forall t y, okS sh y -> dc (f t y) i = cubic a0 0 0 0 t) -> antiderivative F (cubic a0 0 0 0) ->
  exists s' x', step Euler s dt = Ok s' /\ state0 s' x' /\ sc x' i = sc x i + (F (time s + dt) - F (time s)).
Proof. exact (euler_exact Env sh f cur upd cal lim setmask conv HF). Qed.
Theorem C20_rk2_exact : forall s x dt i a0 a1 F, ready sh RK2 s -> state0 s x ->
  (forall t y, okS sh y -> dc (f t y) i = cubic a0 a1 0 0 t) -> antiderivative F (cubic a0 a1 0 0) ->
  exists s' x', step RK2 s dt = Ok s' /\ state0 s' x' /\ sc x' i = sc x i + (F (time s + dt) - F (time s)).
Proof. exact (rk2_exact Env sh f cur upd cal lim setmask conv HF). Qed.
Theorem C20_rk4_exact : forall s x dt i a0 a1 a2 a3 F, ready sh RK4 s -> state0 s x ->
  (forall t y, okS sh y -> dc (f t y) i = cubic a0 a1 a2 a3 t) -> antiderivative F (cubic a0 a1 a2 a3) ->
  exists s' x', step RK4 s dt = Ok s' /\ state0 s' x' /\ sc x' i = sc x i + (F (time s + dt) - F (time s)).
Proof. exact (rk4_exact Env sh f cur upd cal lim setmask conv HF). Qed.
(** exact motion under constant (RK2) and quadratic (RK4) acceleration *)
Theorem C20_rk2_constant_acceleration : forall s x dt p v a0, ready sh RK2 s -> state0 s x ->
  (forall t y, okS sh y -> dc (f t y) p = sc y v /\ dc (f t y) v = a0) ->
  exists s' x', step RK2 s dt = Ok s' /\ state0 s' x' /\ sc x' v = sc x v + a0 * dt /\ sc x' p = sc x p + sc x v * dt + a0 * (dt * dt) / 2.
Proof. exact (rk2_newton Env sh f cur upd cal lim setmask conv HF). Qed.
Theorem C20_rk4_quadratic_acceleration : forall s x dt p v a0 a1 a2 V P, ready sh RK4 s -> state0 s x ->
  (forall t y, okS sh y -> dc (f t y) p = sc y v /\ dc (f t y) v = cubic a0 a1 a2 0 t) ->
  antiderivative V (cubic a0 a1 a2 0) -> antiderivative P V -> V (time s) = sc x v ->
  exists s' x', step RK4 s dt = Ok s' /\ state0 s' x' /\ sc x' v = V (time s + dt) /\ sc x' p = sc x p + (P (time s + dt) - P (time s)).
Proof. exact (rk4_newton Env sh f cur upd cal lim setmask conv HF). Qed.
(** order 1, 2, 4 on the linear test equation *)
Theorem C20_euler_linear : forall s x dt i la, ready sh Euler s -> state0 s x -> (forall t y, okS sh y -> dc (f t y) i = la * sc y i) ->
  exists s' x', step Euler s dt = Ok s' /\ state0 s' x' /\ sc x' i = taylor 1 (la * dt) * sc x i.
Proof. exact (euler_linear Env sh f cur upd cal lim setmask conv HF). Qed.
Theorem C20_rk2_linear : forall s x dt i la, ready sh RK2 s -> state0 s x -> (forall t y, okS sh y -> dc (f t y) i = la * sc y i) ->
  exists s' x', step RK2 s dt = Ok s' /\ state0 s' x' /\ sc x' i = taylor 2 (la * dt) * sc x i.
Proof. exact (rk2_linear Env sh f cur upd cal lim setmask conv HF). Qed.
Theorem C20_rk4_linear : forall s x dt i la, ready sh RK4 s -> state0 s x -> (forall t y, okS sh y -> dc (f t y) i = la * sc y i) ->
  exists s' x', step RK4 s dt = Ok s' /\ state0 s' x' /\ sc x' i = taylor 4 (la * dt) * sc x i.
Proof. exact (rk4_linear Env sh f cur upd cal lim setmask conv HF). Qed.
(** Heun: what is computed ... *)
Theorem C20_heun_method_partial : forall s x d dt, ready sh Heun s -> state0 s x -> deriv0 s d ->
  exists s', step Heun s dt = Ok s' /\ ready sh Heun s' /\ exists p x', moved sh x dt d p /\ state0 s' x' /\ deriv0 s' (f (time s) p) /\
   okS sh x' /\ forall i, sc x' i = sc x i + dt / 2 * (dc d i + dc (f (time s) p) i).
Proof. exact (heun_run Env sh f cur upd cal lim setmask conv HF). Qed.
(** ... which, when the derivative is linear in time, is the exact increment of the
    previous step instead of this one; the premise on d is restored by the step itself *)
Theorem C20_heun_refuted : forall s x d dt i a0 a1 F, ready sh Heun s -> state0 s x -> deriv0 s d -> dc d i = cubic a0 a1 0 0 (time s - dt) ->
  (forall t y, okS sh y -> dc (f t y) i = cubic a0 a1 0 0 t) -> antiderivative F (cubic a0 a1 0 0) ->
  exists s' x' d', step Heun s dt = Ok s' /\ ready sh Heun s' /\ state0 s' x' /\ deriv0 s' d' /\ dc d' i = cubic a0 a1 0 0 (time s' - dt) /\
    sc x' i = sc x i + (F (time s) - F (time s - dt)).
Proof. exact (heun_lag Env sh f cur upd cal lim setmask conv HF). Qed.

(** C21 *)
Theorem C21_weights_partial : forall order s x d dt, ready sh (AB order false) s -> state0 s x -> deriv0 s d ->
  exists s', step (AB order false) s dt = Ok s' /\ ready sh (AB order false) s' /\ made s' = Nat.min (made s + 1) order /\
   deriv0 s' (f (time s) x) /\ exists x', state0 s' x' /\ okS sh x' /\
   forall i, sc x' i = sc x i + dt * (ab_new (made s) * dc (f (time s) x) i + (if rigid_entry sh i then ab_old_rigid (made s) else 1 - ab_new (made s)) * dc d i).
Proof. exact (ab_run Env sh f cur upd cal lim setmask conv HF). Qed.
Theorem C21_constant_derivative_partial : forall k s x d dt i a0 F, ready sh (AB k false) s -> state0 s x -> deriv0 s d ->
  (made s = 0%nat \/ dc d i = a0) -> rigid_entry sh i = false ->
  (forall t y, okS sh y -> dc (f t y) i = cubic a0 0 0 0 t) -> antiderivative F (cubic a0 0 0 0) ->
  exists s' x' d', step (AB k false) s dt = Ok s' /\ ready sh (AB k false) s' /\ state0 s' x' /\ deriv0 s' d' /\ dc d' i = a0 /\ sc x' i = sc x i + (F (time s + dt) - F (time s)).
Proof. exact (ab_constant Env sh f cur upd cal lim setmask conv HF). Qed.
(** with the derivative of the previous step kept (see C21_after_n_steps), a derivative
    linear in time is integrated with the error (A - 3/2) a1 dt^2: only the second step
    is a second order one, the later ones of the orders 3 to 5 are first order *)
Theorem C21_linear_derivative_refuted : forall k s x d dt i a0 a1 F, ready sh (AB k false) s -> state0 s x -> deriv0 s d -> dc d i = cubic a0 a1 0 0 (time s - dt) -> rigid_entry sh i = false ->
  (forall t y, okS sh y -> dc (f t y) i = cubic a0 a1 0 0 t) -> antiderivative F (cubic a0 a1 0 0) ->
  exists s' x', step (AB k false) s dt = Ok s' /\ state0 s' x' /\ sc x' i = sc x i + (F (time s + dt) - F (time s)) + (ab_new (made s) - 3 / 2) * (a1 * (dt * dt)).
Proof. exact (ab_linear Env sh f cur upd cal lim setmask conv HF). Qed.
(** rods and bodies: even a constant derivative is multiplied by 2, 3.7, 6.7, 12.2 *)
Theorem C21_rigid_constant_refuted : forall k s x d dt i a0, ready sh (AB k false) s -> state0 s x -> deriv0 s d -> dc d i = a0 -> rigid_entry sh i = true ->
  (forall t y, okS sh y -> dc (f t y) i = a0) -> (1 <= made s)%nat -> exists s' x', step (AB k false) s dt = Ok s' /\ state0 s' x' /\
    sc x' i - sc x i = nth (made s) [1; 2; 44 / 12; 160 / 24] (8816 / 720) * (a0 * dt).
Proof. exact (ab_rigid Env sh f cur upd cal lim setmask conv HF). Qed.
(** the premises above hold in every run: after n steps min(n, k) steps are counted and
    the derivative kept is the one of the previous step *)
Theorem C21_after_n_steps : forall k n s x dt, ready sh (AB k false) s -> state0 s x -> made s = 0%nat ->
  exists s' x', steps (step (AB k false)) n s dt = Ok s' /\ ready sh (AB k false) s' /\ state0 s' x' /\ made s' = Nat.min n k /\ time s' = time s + INR n * dt /\
    ((1 <= n)%nat -> exists y, okS sh y /\ deriv0 s' (f (time s' - dt) y)).
Proof. exact (ab_steps Env sh f cur upd cal lim setmask conv HF). Qed.

(** C59 *)
Theorem C59_euler : forall x, equilibrium sh f x -> forall s dt, ready sh Euler s -> state0 s x -> exists s', step Euler s dt = Ok s' /\ state0 s' x.
Proof. exact (eq_euler Env sh f cur upd cal lim setmask conv HF). Qed.
Theorem C59_rk2 : forall x, equilibrium sh f x -> forall s dt, ready sh RK2 s -> state0 s x -> exists s', step RK2 s dt = Ok s' /\ state0 s' x.
Proof. exact (eq_rk2 Env sh f cur upd cal lim setmask conv HF). Qed.
Theorem C59_rk4 : forall x, equilibrium sh f x -> forall s dt, ready sh RK4 s -> state0 s x -> exists s', step RK4 s dt = Ok s' /\ state0 s' x.
Proof. exact (eq_rk4 Env sh f cur upd cal lim setmask conv HF). Qed.
Theorem C59_heun : forall x, equilibrium sh f x -> forall s d dt, ready sh Heun s -> state0 s x -> deriv0 s d -> still d ->
  exists s' d', step Heun s dt = Ok s' /\ state0 s' x /\ deriv0 s' d' /\ still d'.
Proof. exact (eq_heun Env sh f cur upd cal lim setmask conv HF). Qed.
Theorem C59_adams_bashforth : forall x, equilibrium sh f x -> forall k s d dt, ready sh (AB k false) s -> state0 s x -> deriv0 s d -> still d ->
  exists s' d', step (AB k false) s dt = Ok s' /\ state0 s' x /\ deriv0 s' d' /\ still d'.
Proof. exact (eq_ab Env sh f cur upd cal lim setmask conv HF). Qed.
(** [quiet]: the state is x and the two kept derivatives are zero *)
Theorem C59_implicit_euler : forall x, equilibrium sh f x -> forall n k s dt, quiet Env sh x s -> exists s', step (ImplicitEuler n k) s dt = Ok s' /\ quiet Env sh x s'.
Proof. exact (eq_ie Env sh f cur upd cal lim setmask conv HF). Qed.
Theorem C59_anderson : forall x, equilibrium sh f x -> forall n k s dt, quiet Env sh x s -> exists s', step (AndersonEuler n k) s dt = Ok s' /\ quiet Env sh x s'.
Proof. exact (eq_an Env sh f cur upd cal lim setmask conv HF). Qed.
End Methods.
Print Assumptions C20_euler_method. Print Assumptions C20_rk2_method. Print Assumptions C20_rk4_method.
Print Assumptions C20_euler_exact. Print Assumptions C20_rk2_exact. Print Assumptions C20_rk4_exact.
Print Assumptions C20_rk2_constant_acceleration. Print Assumptions C20_rk4_quadratic_acceleration.
Print Assumptions C20_euler_linear. Print Assumptions C20_rk2_linear. Print Assumptions C20_rk4_linear.
Print Assumptions C20_heun_method_partial. Print Assumptions C20_heun_refuted.
Print Assumptions C21_weights_partial. Print Assumptions C21_constant_derivative_partial. Print Assumptions C21_linear_derivative_refuted.
Print Assumptions C21_rigid_constant_refuted. Print Assumptions C21_after_n_steps.
Print Assumptions C59_euler. Print Assumptions C59_rk2. Print Assumptions C59_rk4. Print Assumptions C59_heun.
Print Assumptions C59_adams_bashforth. Print Assumptions C59_implicit_euler. Print Assumptions C59_anderson.

(** Finding: a resting body whose orientation is not the identity is turned by the
    implicit Newmark scheme *)
Theorem C59_newmark_refuted : forall dt, dt <> 0 -> equilibrium bodysh resting tilted /\
  exists s' x', step mst mdst env1 system_ops (upd1 resting) (cal1 resting) (fun _ a _ => a) (fun e _ => Ok e) (fun _ _ => false)
    (Newmark 1 0.5 0.25) (Ts mst mdst env1 0 0 (0, tilted) [tilted; tilted] [rest; rest; rest] 0 0 1) dt = Ok s' /\ state0 s' x' /\ sc x' 3 = dt /\ sc tilted 3 = 0.
Proof. intros dt H. exact (conj tilted_eq (newmark_refuted dt H)). Qed.
Print Assumptions C59_newmark_refuted.

(** C57 *)
Theorem C57_factor_in_unit_interval_partial : forall c iters i, (1 <= iters)%nat -> (forall n g b, c <> Newmark n g b) -> 0 <= relax iters (relax_c c) i < 1.
Proof. exact relax_unit. Qed.
Print Assumptions C57_factor_in_unit_interval_partial.
Theorem C57_newmark_factor_refuted : exists iters i g b, (i < iters)%nat /\ 1 < relax iters (relax_c (Newmark iters g b)) i.
Proof. exact relax_newmark_refuted. Qed.
Print Assumptions C57_newmark_factor_refuted.
Theorem C57_fixed_point_preserved : forall sh d k c, okD sh d -> mmix_d d d k = Ok c -> forall i, dc c i = dc d i.
Proof. exact mix_same. Qed.
Print Assumptions C57_fixed_point_preserved.
(** the derivative applied at the end is an unrelaxed answer of the objects *)
Theorem C57_last_iteration_unrelaxed : forall S D Env (o : sops S D) upd cal lim setmask conv iters k s dt s',
  (1 <= iters)%nat -> step S D Env o upd cal lim setmask conv (ImplicitEuler iters k) s dt = Ok s' ->
  exists e d e' g x y z x', cal e d = Ok (e', g) /\ vget (rr S D Env y) 0 = Ok x /\ o_scale o g dt = Ok z /\ o_sadd o x z = Ok x' /\ vget (rr S D Env s') 0 = Ok x'.
Proof. exact ie_step_last. Qed.
Print Assumptions C57_last_iteration_unrelaxed.

(** A falling point meets the hypotheses: entry 2 is its height, entry 5 its velocity *)
Definition psh : shp := ([], 1%nat, 0%nat, 0%nat).
Definition falling (t : R) (s : mst) : mdst :=
  Md [] (map (fun p : pst => Dr (vel p) (V3 0 0 (-9.81))) (s_points s)) [] [].
Lemma falling_follows : follows psh falling (fun e => e) (upd1 falling) (cal1 falling).
Proof.
  apply follows1. intros t x [Rx Sx]. split; [constructor|]. unfold shape, psh in Sx. injection Sx as _ Hp _ _.
  unfold shaped, falling. cbn [d_lines d_points d_rods d_bodies map length]. rewrite map_length, Hp. reflexivity.
Qed.
Definition p0 : mst := Ms [] [St (V3 1 2 3) (V3 0 0 4)] [] [].
Example C20_hypotheses_met : follows psh falling (fun e => e) (upd1 falling) (cal1 falling) /\
  ready psh RK2 (Ts mst mdst env1 7 0 (0, p0) [p0; p0] [falling 0 p0; falling 0 p0] 0 0 1) /\
  (forall t y, okS psh y -> dc (falling t y) 2 = sc y 5 /\ dc (falling t y) 5 = -9.81).
Proof.
  split; [exact falling_follows|]. split.
  - repeat split; repeat constructor.
  - intros t y [Ry Sy]. destruct y as [ls ps rs bs]. unfold shape, psh in Sy. cbn in Sy. injection Sy as Hl Hp _ _.
    destruct ls; [|discriminate]. destruct ps as [|p [|? ?]]; try discriminate. destruct p as [[a b c] [a' b' c']]. unfold dc, sc. cbn. split; reflexivity.
Qed.
Example C22_hypotheses_met : exists a b, regular a /\ regular b /\ shape a = shape b /\ s_lines a <> [] /\ s_points a <> [] /\ s_bodies a <> [].
Proof.
  exists (Ms [St [vzero] [vzero]] [St vzero vzero] [] [St (XQ vzero qident) v6zero]), (Ms [St [V3 1 2 3] [vzero]] [St (V3 4 5 6) vzero] [] [St (XQ vzero qident) v6zero]).
  repeat split; try discriminate; repeat constructor.
Qed.
