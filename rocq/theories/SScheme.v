(** Specification vocabulary for the time schemes: an ordinary differential equation on
    system states, entry by entry. *)
From Coq Require Import Reals List.
From Verif Require Import MErr MVec MInterp MStateOps SStateOps MScheme.
Import ListNotations.
Open Scope R_scope.

(** entry i of a state, entry i of a derivative *)
Definition sc (s : mst) (i : nat) : R := nth i (flat s) 0.
Definition dc (d : mdst) (i : nat) : R := nth i (flatd d) 0.
Definition shp := (list nat * nat * nat * nat)%type.
(** a state / derivative of a system with the given numbers of nodes and objects *)
Definition okS (sh : shp) (s : mst) := regular s /\ shape s = sh.
Definition okD (sh : shp) (d : mdst) := regulard d /\ shaped d = sh.
(** y is the state x moved by k along d *)
Definition moved (sh : shp) (x : mst) (k : R) (d : mdst) (y : mst) := okS sh y /\ forall i, sc y i = sc x i + k * dc d i.

(** The objects behave like the differential equation x' = f t x: they answer the
    derivative at the time and state that they were given last. *)
Record follows {Env} (sh : shp) (f : R -> mst -> mdst) (cur : Env -> R * mst)
  (upd : Env -> R -> R -> mst -> outcome Env) (cal : Env -> mdst -> outcome (Env * mdst)) := Follows {
  fol_f : forall t x, okS sh x -> okD sh (f t x);
  fol_upd : forall e t l x, okS sh x -> exists e', upd e t l x = Ok e' /\ cur e' = (t, x);
  fol_cal : forall e d t x, cur e = (t, x) -> okD sh d -> exists e', cal e d = Ok (e', f t x) /\ cur e' = (t, x) }.

(** the arrays of a scheme of kind c for a system of shape sh *)
Definition ready {Env} (sh : shp) (c : scheme) (s : tsch mst mdst Env) :=
  length (rr _ _ _ s) = nstate c /\ length (rd _ _ _ s) = nderiv c /\ Forall (okS sh) (rr _ _ _ s) /\ Forall (okD sh) (rd _ _ _ s).
(** the current state of the scheme *)
Definition state0 {Env} (s : tsch mst mdst Env) (x : mst) := nth_error (rr _ _ _ s) 0 = Some x.
Definition deriv0 {Env} (s : tsch mst mdst Env) (d : mdst) := nth_error (rd _ _ _ s) 0 = Some d.
(** entries of lines and points come first, six per node or point; the others belong to rods and bodies *)
Definition rigid_entry (sh : shp) (i : nat) : bool := (6 * (list_sum (fst (fst (fst sh))) + snd (fst (fst sh))) <=? i)%nat.
(** derivative entry i is the polynomial a0 + a1 t + a2 t^2 + a3 t^3 of the time only *)
Definition cubic (a0 a1 a2 a3 t : R) := a0 + a1 * t + a2 * (t * t) + a3 * (t * t * t).
(** exact increment of entry i from time a to b: any antiderivative of its derivative *)
Definition antiderivative (F h : R -> R) := forall t, derivable_pt_lim F t (h t).
(** Taylor polynomial of exp *)
Definition taylor (p : nat) (z : R) := sum_f_R0 (fun k => z ^ k / INR (fact k)) p.
(** n equal steps *)
Fixpoint steps {Env} (st : tsch mst mdst Env -> R -> outcome (tsch mst mdst Env)) (n : nat) (s : tsch mst mdst Env) (dt : R) : outcome (tsch mst mdst Env) :=
  match n with O => Ok s | S n' => s' <- steps st n' s dt ;; st s' dt end.
(** a derivative with all entries zero; a state at which nothing moves *)
Definition still (d : mdst) := forall i, dc d i = 0.
Definition equilibrium (sh : shp) (f : R -> mst -> mdst) (x : mst) := okS sh x /\ forall t, still (f t x).
(** entry p is a coordinate of a point or inner line node and entry v is the velocity along it: the
    positions of all nodes of a line come before their velocities *)
Definition mate (sh : shp) (p v : nat) : Prop :=
  let ns := fst (fst (fst sh)) in
  (exists k i, (k < length ns)%nat /\ (i < 3 * nth k ns 0)%nat /\ p = (6 * list_sum (firstn k ns) + i)%nat /\ v = (p + 3 * nth k ns 0)%nat) \/
  (exists j c, (j < snd (fst (fst sh)))%nat /\ (c < 3)%nat /\ p = (6 * (list_sum ns + j) + c)%nat /\ v = (p + 3)%nat).
(** the Newmark formulas for a coordinate: velocity x' and position x advanced with the accelerations
    a at the start and b at the end of the step *)
Definition newmark_v (g dt v a b : R) : R := v + dt * ((1 - g) * a + g * b).
Definition newmark_x (be dt x v a b : R) : R := x + dt * v + dt * dt * ((1 / 2 - be) * a + be * b).
(** the energy (twice, per unit of mass) of an oscillator with x'' = - k x *)
Definition osc_energy (k x v : R) : R := k * (x * x) + v * v.
(** y is x advanced by the Newmark formulas with the rates a at the start and b at the end *)
Definition nm_moved (sh : shp) (g be dt : R) (x : mst) (a b : mdst) (y : mst) := okS sh y /\ forall p v, mate sh p v ->
  sc y v = newmark_v g dt (sc x v) (dc a v) (dc b v) /\ sc y p = newmark_x be dt (sc x p) (dc a p) (dc a v) (dc b v).
(** the state is x, the three kept derivatives are zero *)
Definition quiet3 {Env} (sh : shp) (x : mst) (s : tsch mst mdst Env) := (exists y, rr _ _ _ s = [x; y] /\ okS sh y) /\
  (exists a b c, rd _ _ _ s = [a; b; c] /\ okD sh a /\ okD sh b /\ okD sh c /\ still a /\ still b /\ still c).
