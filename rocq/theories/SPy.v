(** What the functions of the Python module should do, in terms of Python values only. *)
From Coq Require Import String ZArith List Arith Bool.
From Verif Require Import MPy.
Import ListNotations.
Open Scope Z_scope.

Section Spec.
Context {S F : Type}.
Variable L : lib S F.

(** what iterating over a value yields, or the exception that it raises *)
Definition items (v : pyv F) : list (pyv F) + pyx :=
  match v with
  | PLst l | PTup l => inl l
  | PItr l r => if r then inr XUser else inl l
  | PStr s => inl (map (fun c => PStr (String c EmptyString)) (list_ascii_of_string s))
  | PByt l => inl (map PInt l)
  | _ => inr XType
  end.
(** the numbers of a list, if all its entries are numbers *)
Fixpoint floats (l : list (pyv F)) : option (list F) :=
  match l with
  | nil => Some nil
  | a :: l => match l_tofloat L a, floats l with Some f, Some fs => Some (f :: fs) | _, _ => None end
  end.

(** the references and the blocks the module holds, and the references it gave away without holding them *)
Definition holds (w : world S F) : list obj * list obj * list (nat * list (option F)) := (w_refs w, w_stolen w, w_blocks w).
Definition clean (w w' : world S F) : Prop := holds w' = holds w.
(** how many references and blocks are left behind by a call, beyond what there was *)
Definition left_behind (w w' : world S F) (r b : nat) : Prop :=
  exists lr lb, length lr = r /\ length lb = b /\ w_refs w' = lr ++ w_refs w /\ w_blocks w' = lb ++ w_blocks w /\
    w_stolen w' = w_stolen w.
(** only the system [h] changes, and it becomes [s] *)
Definition becomes (w w' : world S F) (h : nat) (s : S) : Prop :=
  forall k, w_sys w' k = if Nat.eqb k h then Some s else w_sys w k.
(** no system changes *)
Definition untouched (w w' : world S F) : Prop := forall k, w_sys w' k = w_sys w k.

(** Two sequences of [n] numbers each are required; the outcome of a call that needs them. *)
Definition two (n : nat) (X V : pyv F) : (list F * list F) + pyx :=
  match items X with
  | inr e => inr e
  | inl xs => if negb (Nat.eqb (length xs) n) then inr XValue else
      match items V with
      | inr e => inr e
      | inl vs => if negb (Nat.eqb (length vs) n) then inr XValue else
          match floats xs, floats vs with
          | Some x, Some v => inl (x, v)
          | _, _ => inr XType
          end
      end
  end.
(** step(system, X, V, t, dt) on a system [s]: what the program sees and what the system becomes *)
Definition step_answer (s : S) (X V : pyv F) (t dt : F) : @pyres F * S :=
  match two (l_ndof L s) X V with
  | inr e => (PyExc e, s)
  | inl (x, v) =>
      let r := l_call L "MoorDyn_Step" s 0 [CArr x; CArr v; CDbl t; CDbl dt] in
      ((if c_err r =? 0 then PyVal (PTup (map (fun i => PFlt (c_out r i)) (seq 0 (l_ndof L s)))) else PyExc XRuntime),
       c_sys r)
  end.
(** init(system, X, V, skip): the error code is returned, not raised *)
Definition init_answer (s : S) (X V : pyv F) (skip : bool) : @pyres F * S :=
  match two (l_ndof L s) X V with
  | inr e => (PyExc e, s)
  | inl (x, v) =>
      let r := l_call L (if skip then "MoorDyn_Init_NoIC" else "MoorDyn_Init") s 0 [CArr x; CArr v] in
      (PyVal (PInt (c_err r)), c_sys r)
  end.
(** ext_wave_set(system, U, A, t) *)
Definition wave_answer (s : S) (U A : pyv F) (t : F) : @pyres F * S :=
  match two (3 * l_wn L s) U A with
  | inr e => (PyExc e, s)
  | inl (u, a) =>
      let r := l_call L "MoorDyn_ExternalWaveKinSet" s 0 [CArr u; CArr a; CDbl t] in
      (PyVal (PInt (c_err r)), c_sys r)
  end.
(** line_set_pint(line, P) *)
Definition pint_answer (s : S) (i : nat) (P : pyv F) : @pyres F * S :=
  match items P with
  | inr e => (PyExc e, s)
  | inl ps => if negb (Nat.eqb (length ps) (l_lineN L s i + 1)) then (PyExc XValue, s) else
      match floats ps with
      | None => (PyExc XType, s)
      | Some p =>
          let r := l_call L "MoorDyn_SetLinePressInt" s i [CArr p] in
          ((if c_err r =? 0 then PyVal PNone else PyExc XRuntime), c_sys r)
      end
  end.

(** What is left behind when two sequences of [n] numbers are required: references and blocks. *)
Definition two_leaves (n : nat) (X V : pyv F) : nat * nat :=
  match items X with
  | inr _ => (0, 0)
  | inl xs => if negb (Nat.eqb (length xs) n) then (1, 0) else
      match items V with
      | inr _ => (1, 0)
      | inl vs => if negb (Nat.eqb (length vs) n) then (2, 0) else
          match floats xs, floats vs with
          | Some _, Some _ | None, None => (0, 0)
          | _, _ => (0, 1)
          end
      end
  end%nat.
Definition step_leaves (s : S) (X V : pyv F) (t dt : F) : nat * nat :=
  match fst (step_answer s X V t dt), two (l_ndof L s) X V with
  | PyExc XRuntime, inl _ => (0, 1)%nat
  | _, _ => two_leaves (l_ndof L s) X V
  end.

(** the systems the capsules of a list of arguments point into *)
Definition alive (w : world S F) (args : list (pyv F)) : Prop :=
  forall k h i, In (PCap k h i) args -> w_sys w h <> None.
(** an outcome a Python program can handle: a value, or an exception other than the interpreter's complaint
    about the module *)
Definition proper_result (r : @pyres F) : Prop := r <> PyCrash /\ r <> PyExc XSystem.

(** what a simple function answers, given what the library does on the object [i] of the system *)
Definition simple_value (r : shape) (q : creply S F) : @pyres F :=
  match r with
  | RCode => PyVal (PInt (c_err q))
  | _ => if negb (c_err q =? 0) then PyExc XRuntime else
         PyVal match r with
               | RErr0 => PInt 0
               | RInt => PInt (c_int q)
               | RFlt => PFlt (c_out q 0%nat)
               | RVec n => PTup (map (fun i => PFlt (c_out q i)) (seq 0 n))
               | RMat n m => PTup (map (fun i => PTup (map (fun j => PFlt (c_out q (i * m + j)%nat)) (seq 0 m))) (seq 0 n))
               | RBool => PBool (negb (c_int q =? 0))
               | _ => PNone
               end
  end.
End Spec.

Section Functions.
Context {S F : Type}.
Variable L : lib S F.
Variable mok : nat -> nat -> bool.
(** the functions that answer properly whatever they are given *)
Inductive safe_function : (list (pyv F) -> @M S F unit) -> Prop :=
| SF_create : safe_function (f_create L)
| SF_init : safe_function (f_init L mok)
| SF_step : safe_function (f_step L mok)
| SF_close : safe_function (f_close L)
| SF_coords : safe_function (f_ext_wave_coords L mok)
| SF_set : safe_function (f_ext_wave_set L mok)
| SF_pint : safe_function (f_line_set_pint L mok)
| SF_fast : safe_function (f_get_fast_tens L mok)
| SF_ser : safe_function (f_serialize L mok)
| SF_pbend junk : safe_function (f_line_set_pbend L junk)
| SF_simple k fmt uns c r : safe_function (f_simple L k fmt uns c r).
(** the functions and the kind of handle they take first *)
Inductive takes : kind -> (list (pyv F) -> @M S F unit) -> Prop :=
| TK_init : takes KSystem (f_init L mok)
| TK_step : takes KSystem (f_step L mok)
| TK_close : takes KSystem (f_close L)
| TK_coords : takes KSystem (f_ext_wave_coords L mok)
| TK_set : takes KSystem (f_ext_wave_set L mok)
| TK_pint : takes KLine (f_line_set_pint L mok)
| TK_fast : takes KSystem (f_get_fast_tens L mok)
| TK_ser : takes KSystem (f_serialize L mok)
| TK_deser : takes KSystem (f_deserialize L)
| TK_getkin : takes KWaves (f_waves_getkin L)
| TK_pbend junk : takes KLine (f_line_set_pbend L junk)
| TK_simple k fmt uns c r : takes k (f_simple L k fmt uns c r).
(** the functions that leave nothing behind whatever they are given *)
Inductive clean_function : (list (pyv F) -> @M S F unit) -> Prop :=
| CF_create : clean_function (f_create L)
| CF_close : clean_function (f_close L)
| CF_coords : clean_function (f_ext_wave_coords L mok)
| CF_ser : clean_function (f_serialize L mok)
| CF_getkin : clean_function (f_waves_getkin L)
| CF_simple k fmt uns c r : r <> RNone -> clean_function (f_simple L k fmt uns c r).
End Functions.

(** A small library to try the theorems on: a system is a number that counts the steps; the forces are the sums of
    the places and the velocities given; it has 3 coupled degrees of freedom, one line of 4 segments and one wave
    point. Everything else answers 0, except that a step of no length fails. *)
Definition demo : lib nat Z := {|
  l_create := fun f => Some 0%nat;
  l_ndof := fun _ => 3%nat; l_wn := fun _ => 1%nat; l_lineN := fun _ _ => 4%nat; l_nlines := fun _ => 1%nat;
  l_ser := fun s => (0, [8; Z.of_nat s]);
  l_deser := fun s l => match l with [8; z] => Some (0, Z.to_nat z) | _ => None end;
  l_obj := fun _ k z => match k with KWaves => Some 0%nat | KSeafloor => None | _ => if z =? 1 then Some 0%nat else None end;
  l_call := fun name s i args =>
    match args with
    | [CArr x; CArr v; CDbl t; CDbl dt] =>
        if dt =? 0 then CReply (-6) 0 (fun _ => 0) s
        else CReply 0 0 (fun j => nth j x 0 + nth j v 0) (Datatypes.S s)
    | _ => CReply 0 (Z.of_nat s) (fun j => 10 * Z.of_nat (String.length name) + Z.of_nat j) s
    end;
  l_ofZ := fun z => z;
  l_tofloat := fun v => match v with PFlt f => Some f | PInt z => Some z | PBool b => Some (if b then 1 else 0) | _ => None end |}.
(** the state of a program with one system *)
Definition demo_world : world nat Z := World [] [] [] 0 None [] (fun h => if Nat.eqb h 7 then Some 5%nat else None).
Definition demo_cap (k : kind) : pyv Z := PCap k 7 0.
