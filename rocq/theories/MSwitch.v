(** The objects known to the system and to its time integrator: creation of the integrator,
    change of the time scheme (source/MoorDyn2.hpp l.371-385, MoorDyn2.cpp l.2681-2702), Init
    and SetState (Time.hpp l.532-588), Update (Time.cpp l.37-90), and the point created by a
    failure (MoorDyn2.cpp l.2229-2246). *)
From Coq Require Import String Ascii List Arith ZArith Bool Reals.
From Verif Require Import MErr MStr MVec MStateOps MScheme MTime.
Import ListNotations.

(** What the integrator does with the objects of one kind (bodies, rods, points or lines):
    the zero state and derivative it pushes for each object, the value of initialize() for the
    objects initialised by Init (None: skipped because of its type), and whether Update calls
    setState for it. The functions initialize of the objects are not modelled here. *)
Record kind (A B : Type) := Kind { k_zero : nat -> A; k_dzero : nat -> B; k_init : nat -> option (outcome A); k_set : nat -> bool }.
Arguments Kind {A B}. Arguments k_zero {A B}. Arguments k_dzero {A B}. Arguments k_init {A B}. Arguments k_set {A B}.
(** The objects of one kind: the list of the system (LineList, etc.), the data of the integrator,
    and the state each object shows to queries *)
Record objs (A B : Type) := Objs { o_list : list nat; o_slots : slots A B; o_show : nat -> A }.
Arguments Objs {A B}. Arguments o_list {A B}. Arguments o_slots {A B}. Arguments o_show {A B}.
Section Kinds.
Context {A B : Type} (K : kind A B).
(** the loops of SetTimeScheme, MoorDyn2.hpp l.375-382 *)
Fixpoint register (os : list nat) (s : slots A B) : outcome (slots A B) :=
  match os with [] => Ok s | o :: os' => s' <- add_obj (k_zero K o) (k_dzero K o) o s ;; register os' s' end.
Definition show_set (sh : nat -> A) (o : nat) (a : A) : nat -> A := fun x => if (x =? o)%nat then a else sh x.
(** one loop of Init, Time.hpp l.532-563: r[0].X[i] = X[i]->initialize(). row is the rest of
    r[0].X. *)
Fixpoint init_row (os : list nat) (row : list A) (sh : nat -> A) : outcome (list A * (nat -> A)) :=
  match os with
  | [] => Ok (row, sh)
  | o :: os' =>
    match row with
    | [] => match k_init K o with None => r <- init_row os' [] sh ;; Ok r | Some _ => UB end
    | a :: row' =>
      match k_init K o with
      | None => r <- init_row os' row' sh ;; Ok (a :: fst r, snd r)
      | Some v => a' <- v ;; r <- init_row os' row' (show_set sh o a') ;; Ok (a' :: fst r, snd r)
      end
    end
  end.
Definition init_kind (s : slots A B) (sh : nat -> A) : outcome (slots A B * (nat -> A)) :=
  match ss s with
  | row :: rows => r <- init_row (ids s) row sh ;; Ok (Slots (ids s) (fst r :: rows) (sd s) (msk s), snd r)
  | [] => UB
  end.
(** one kind in SetTimeScheme: a new integrator with n states and m derivatives *)
Definition rebuild (n m : nat) (x : objs A B) : outcome (objs A B) :=
  s <- register (o_list x) (no_slots n m) ;; r <- init_kind s (o_show x) ;; Ok (Objs (o_list x) (fst r) (snd r)).
(** r[0].X, and r[0].X = row *)
Definition row0 (x : objs A B) : outcome (list A) := match ss (o_slots x) with row :: _ => Ok row | [] => UB end.
Definition set_row0 (row : list A) (x : objs A B) : outcome (objs A B) :=
  match ss (o_slots x) with
  | _ :: rows => Ok (Objs (o_list x) (Slots (ids (o_slots x)) (row :: rows) (sd (o_slots x)) (msk (o_slots x))) (o_show x))
  | [] => UB end.
(** one loop of Update(0, 0), Time.cpp l.63-88: objects that are not free are skipped *)
Fixpoint update_row (os : list nat) (row : list A) (sh : nat -> A) : outcome (nat -> A) :=
  match os with
  | [] => Ok sh
  | o :: os' => if k_set K o
                then match row with a :: row' => update_row os' row' (show_set sh o a) | [] => UB end
                else update_row os' (List.tl row) sh
  end.
Definition update_kind (x : objs A B) : outcome (objs A B) :=
  row <- row0 x ;; sh <- update_row (ids (o_slots x)) row (o_show x) ;; Ok (Objs (o_list x) (o_slots x) sh).
End Kinds.

(** The system: the four kinds of objects, the CFL factor (cfl of MoorDyn), and the time, the
    CFL factor and the scheme of the integrator. Integrators are numbered as they are created:
    y_int is the present one (all the earlier ones have been deleted), and y_wint is the one
    Waves points to (Waves::_t_integrator, set by Waves::setup, Waves.cpp l.270). *)
Record system := Sys {
  y_bodies : objs rst drst; y_rods : objs rst drst; y_points : objs pst dpst; y_lines : objs lst dlst;
  y_cfl : R; y_time : R; y_icfl : R; y_scheme : scheme;
  y_int : nat; y_wint : nat }.
Section System.
Variable KB KR : kind rst drst.
Variable KP : kind pst dpst.
Variable KL : kind lst dlst.
(** MoorDyn::SetTimeScheme, MoorDyn2.hpp l.371-385. The time of a new scheme is 0 (Time.hpp
    l.276-286). In the code all objects are added before any is initialised; here each kind is
    done in turn, in the order of the code, which only matters for the state left by an error.
    The new CFL factor is set between both. *)
Definition set_time_scheme (c : scheme) (y : system) : outcome system :=
  b <- rebuild KB (nstate c) (nderiv c) (y_bodies y) ;;
  r <- rebuild KR (nstate c) (nderiv c) (y_rods y) ;;
  p <- rebuild KP (nstate c) (nderiv c) (y_points y) ;;
  l <- rebuild KL (nstate c) (nderiv c) (y_lines y) ;;
  Ok (Sys b r p l (y_cfl y) 0 (y_cfl y) c (S (y_int y)) (y_wint y)).
(** GetState(0) and SetState(state, 0), Time.hpp l.570-588 *)
Definition get_state (y : system) : outcome mst :=
  l <- row0 (y_lines y) ;; p <- row0 (y_points y) ;; r <- row0 (y_rods y) ;; b <- row0 (y_bodies y) ;; Ok (Ms l p r b).
Definition set_state (y : system) (st : mst) : outcome system :=
  b <- set_row0 (s_bodies st) (y_bodies y) ;; r <- set_row0 (s_rods st) (y_rods y) ;;
  p <- set_row0 (s_points st) (y_points y) ;; l <- set_row0 (s_lines st) (y_lines y) ;;
  Ok (Sys b r p l (y_cfl y) (y_time y) (y_icfl y) (y_scheme y) (y_int y) (y_wint y)).
(** MoorDyn_SetTimeScheme, MoorDyn2.cpp l.2681-2702: the system afterwards, and the value
    returned. Only create_time_scheme is inside the try block. *)
Definition switch (name : str) (y : system) : outcome (system * c_result) :=
  match create_time_scheme name with
  | Ok c => st <- get_state y ;; y1 <- set_time_scheme c y ;; y2 <- set_state y1 st ;; Ok (y2, Returns MOORDYN_SUCCESS)
  | Throw e => Ok (y, moordyn_catcher e)
  | UB => UB
  | Diverges => Diverges
  end.
(** Update(0, 0), with which every Step begins (Time.cpp l.37-90); the motion of coupled objects
    and of the line lengths is not modelled *)
Definition update (y : system) : outcome system :=
  b <- update_kind KB (y_bodies y) ;; r <- update_kind KR (y_rods y) ;; p <- update_kind KP (y_points y) ;; l <- update_kind KL (y_lines y) ;;
  Ok (Sys b r p l (y_cfl y) (y_time y) (y_icfl y) (y_scheme y) (y_int y) (y_wint y)).
(** Waves::updateWaves, Waves.cpp l.751-870, called for every derivative, and
    Waves::getWaveKin, l.605-661: the time of the waves and currents, if there are any, is
    GetTime() of the integrator Waves points to *)
Definition waves_time (y : system) : outcome R := if (y_wint y =? y_int y)%nat then Ok (y_time y) else UB.
(** The new point of a failure, MoorDyn2.cpp l.2229-2246 and l.2275: it is put at a state and
    in PointList, but not in the integrator *)
Definition add_loose_point (o : nat) (st : pst) (y : system) : system :=
  Sys (y_bodies y) (y_rods y) (Objs (o_list (y_points y) ++ [o]) (o_slots (y_points y)) (show_set (o_show (y_points y)) o st))
      (y_lines y) (y_cfl y) (y_time y) (y_icfl y) (y_scheme y) (y_int y) (y_wint y).
(** a change of the integrated states in r[0] by a step: any, for the registered objects *)
Definition set_rows (l : list lst) (p : list pst) (r b : list rst) (y : system) : outcome system := set_state y (Ms l p r b).
End System.
