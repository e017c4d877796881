(** Specification vocabulary for currents described in files. *)
From Coq Require Import Reals ZArith List Arith.
From Verif Require Import MErr MVec MWaves MCur SInterp SWaves SWavesG SSpecB.
Import ListNotations.
Open Scope R_scope.

(** u is the linear interpolation at x of the vectors vs given at xp, the nearest one outside of xp *)
Definition vinterp (xp : list R) (vs : list v3) (x : R) (u : v3) : Prop :=
  lin_interp xp (map vx vs) x (vx u) /\ lin_interp xp (map vy vs) x (vy u) /\ lin_interp xp (map vz vs) x (vz u).
Definition decreasing (xp : list R) : Prop := forall i j, (i < j < length xp)%nat -> nth j xp 0 < nth i xp 0.
(** the values of a function at 0 .. n-1 *)
Definition tabulate {A} (n : nat) (f : nat -> A) : list A := map f (seq 0 n).

Section Meaning.
Context {tok : Type}.
(** the value of a word *)
Variable num : tok -> outcome R.
(** the number in column i, 0 when the column is missing *)
Definition column_is (row : list tok) (i : nat) (v : R) : Prop :=
  match nth_error row i with Some e => num e = Ok v | None => v = 0 end.
(** a line of the steady profile: depth, x, [y, [z]] *)
Definition steady_means (row : list tok) (p : R * v3) : Prop :=
  (2 <= length row)%nat /\ column_is row 0 (fst p) /\ column_is row 1 (vx (snd p)) /\ column_is row 2 (vy (snd p)) /\ column_is row 3 (vz (snd p)).
(** a line of the dynamic profile with n depths: time, all x, [all y, [all z]] *)
Definition dynamic_means (n : nat) (row : list tok) (t : R) (U : nat -> v3) : Prop :=
  In (length row) [n + 1; 2 * n + 1; 3 * n + 1]%nat /\ column_is row 0 t /\
  forall i, (i < n)%nat -> column_is row (1 + i) (vx (U i)) /\ column_is row (1 + n + i) (vy (U i)) /\ column_is row (1 + 2 * n + i) (vz (U i)).
(** the file of a dynamic profile: four lines, the depths, a line, and one line per time; [U k i] is the
    velocity at depth k and time i *)
Definition dynamic_file (lines : list (list tok)) (numf : tok -> outcome R) (depths T : list R) (U : nat -> nat -> v3) : Prop :=
  exists h0 h1 h2 h3 dl h5 body, lines = h0 :: h1 :: h2 :: h3 :: dl :: h5 :: body /\
    Forall2 (fun e z => numf e = Ok z) dl depths /\ length body = length T /\
    forall i, (i < length T)%nat -> dynamic_means (length depths) (nth i body []) (nth i T 0) (fun k => U k i).
(** a data line of the 4D file: the words of the node, and the velocity *)
Definition node_means (row : list tok) (e0 e1 e2 e3 : tok) (u : v3) : Prop :=
  exists e4 e5 e6 rest, row = e0 :: e1 :: e2 :: e3 :: e4 :: e5 :: e6 :: rest /\ num e4 = Ok (vx u) /\ num e5 = Ok (vy u) /\ num e6 = Ok (vz u).
(** the node a word stands for: its position in the axis, the first node for words not in the axis *)
Definition stands_for (axis : list tok) (e : tok) (i : nat) : Prop := nth_error axis i = Some e \/ (~ In e axis /\ i = 0%nat).
Definition row_at (X Y Z T : list tok) (row : list tok) (w : (nat * nat * nat * nat) * v3) : Prop :=
  exists e0 e1 e2 e3, node_means row e0 e1 e2 e3 (snd w) /\ let '(i, j, k, t) := fst w in
    stands_for X e0 i /\ stands_for Y e1 j /\ stands_for Z e2 k /\ stands_for T e3 t.
(** an axis of n words, in the first places of a line, with increasing values *)
Definition axis_line (line words : list tok) (values : list R) : Prop :=
  (exists rest, line = words ++ rest) /\ NoDup words /\ Forall2 (fun e z => num e = Ok z) words values /\ words <> [] /\ increasing values.
End Meaning.
Definition same_node (a b : nat * nat * nat * nat) : bool :=
  let '(i, j, k, t) := a in let '(i', j', k', t') := b in andb (andb (Nat.eqb i i') (Nat.eqb j j')) (andb (Nat.eqb k k') (Nat.eqb t t')).
(** the last value written at a node, zero if none *)
Definition latest (ws : list ((nat * nat * nat * nat) * v3)) (p : nat * nat * nat * nat) : v3 :=
  fold_left (fun acc w => if same_node (fst w) p then snd w else acc) ws vzero.
(** the times 0, dt, 2 dt ... (n - 1) dt at which the tables are sampled *)
Definition sampling (T : list R) (dt : R) (n : nat) : Prop :=
  smallest_gap T dt /\ (1 <= n)%nat /\ INR (n - 1) * dt <= last T 0 < INR n * dt.
Definition still (c : cgrid) : Prop := forall i j k t, cell4 vzero (cg_acc c) i j k t = vzero.
Definition even_times (n : nat) (dt : R) : list R := tabulate n (fun i => INR i * dt).
(** instants at which a current grid can be read *)
Definition readable (c : cgrid) (t : R) : Prop := nt (cg_axes c) = 1%nat \/ ((2 <= nt (cg_axes c))%nat /\ 0 < dtWave (cg_axes c) /\ 0 <= t /\ short (dtWave (cg_axes c)) t).
Section Made.
Context {tok : Type}.
Variables (stod stof : tok -> outcome R) (stoul : tok -> outcome Z) (eqb : tok -> tok -> bool).
(** the grid read from a file *)
Definition made (m : cmode) (lines : list (list tok)) (c : cgrid) : Prop :=
  match m with
  | CSteady => steady_current stod lines = Ok c
  | CDynamic => dynamic_current stod stof lines = Ok c
  | C4D => current_4d stod stoul eqb lines = Ok c
  end.
(** the five lines that describe the axes of a 4D file *)
Definition grid_header (l0 l1 l2 l3 l4 : list tok) (X Y Z T : list tok) (x y z t : list R) : Prop :=
  (exists d0 d1 d2 d3 rest, l0 = d0 :: d1 :: d2 :: d3 :: rest /\ stoul d0 = Ok (Z.of_nat (length X)) /\ stoul d1 = Ok (Z.of_nat (length Y)) /\
  stoul d2 = Ok (Z.of_nat (length Z)) /\ stoul d3 = Ok (Z.of_nat (length T))) /\
  (Z.of_nat (length X) < 2 ^ 32)%Z /\ (Z.of_nat (length Y) < 2 ^ 32)%Z /\ (Z.of_nat (length Z) < 2 ^ 32)%Z /\ (Z.of_nat (length T) < 2 ^ 32)%Z /\
  axis_line stod l1 X x /\ axis_line stod l2 Y y /\ axis_line stod l3 Z z /\ axis_line stod l4 T t /\ (2 <= length t)%nat.
(** the nodes of the table *)
Definition node_in (X Y Z T : list tok) (p : nat * nat * nat * nat) : Prop :=
  let '(i, j, k, r) := p in (i < length X)%nat /\ (j < length Y)%nat /\ (k < length Z)%nat /\ (r < length T)%nat.
(** a line giving the velocity at a node, named with the words of the axes *)
Definition line_of (X Y Z T : list tok) (V : nat * nat * nat * nat -> v3) (row : list tok) (p : nat * nat * nat * nat) : Prop :=
  let '(i, j, k, r) := p in exists e0 e1 e2 e3, nth_error X i = Some e0 /\ nth_error Y j = Some e1 /\ nth_error Z k = Some e2 /\ nth_error T r = Some e3 /\
  node_means stod row e0 e1 e2 e3 (V p).
End Made.
(** every cell of the table is the interpolation in time of the velocities W of its node *)
Definition table_of (t : list R) (dt : R) (c : cgrid) (W : nat * nat * nat * nat -> v3) : Prop :=
  let a := cg_axes c in shape4 (length (px a)) (length (py a)) (length (pz a)) (nt a) (cg_vel c) /\ still c /\ dtWave a = dt /\
  forall i j k r, (i < length (px a))%nat -> (j < length (py a))%nat -> (k < length (pz a))%nat -> (r < nt a)%nat ->
    vinterp t (tabulate (length t) (fun it => W (i, j, k, it))) (INR r * dt) (cell4 vzero (cg_vel c) i j k r).
