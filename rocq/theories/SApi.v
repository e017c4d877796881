(** Specification of the version 1 interface: one optional current system. *)
From Coq Require Import String ZArith List.
From Verif Require Import MErr MVec MApi.
Import ListNotations.
Open Scope Z_scope.

Section S.
Variables (Sys X F : Type).
Variable create : string -> option Sys.
Variable init : Sys -> X -> Z * Sys.
Variable step : Sys -> X -> Z * F * Sys.
Notation v1call := (v1call X).
(** the system a request to initialise would start *)
Definition started (x : X) (name : string) : option Sys :=
  match create name with Some s => let '(e, s') := init s x in if e =? 0 then Some s' else None | None => None end.
(** the current system after a history: started by the last successful initialisation, unless closed
    since, and advanced by the steps in between *)
Fixpoint current (h : list v1call) (c : option Sys) : option Sys :=
  match h with
  | [] => c
  | VInit _ x name :: r => current r (match started x name with Some s => Some s | None => c end)
  | VStep _ x :: r => current r (match c with Some s => Some (snd (step s x)) | None => None end)
  | VClose _ :: r => current r None
  end.
(** some successful initialisation is not followed by a close *)
Definition active (h : list v1call) : Prop :=
  exists a x name b, h = a ++ VInit _ x name :: b /\ started x name <> None /\ ~ In (VClose _) b.
(** initialisations that created a system but failed to initialise it *)
Definition failed_init (c : v1call) : bool :=
  match c with VInit _ x name => match create name with Some s => negb (fst (init s x) =? 0) | None => false end | _ => false end.
(** how many there are in a history *)
Definition leaks (h : list v1call) : nat := length (filter failed_init h).
(** the system the version 1 functions work on *)
Definition sys_of (p : process Sys) : option Sys := match single _ p with Some a => lookup _ (heap _ p) a | None => None end.
End S.
