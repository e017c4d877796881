(** Specification of the names of files: where a path leads to. *)
From Coq Require Import String Ascii List Arith ZArith Bool.
From Verif Require Import MStr MOut MPath.
Import ListNotations.

(** the parts of a path between its separators *)
Fixpoint parts (cur s : str) : list str :=
  match s with [] => [rev cur] | c :: s' => if is_slash c then rev cur :: parts [] s' else parts (c :: cur) s' end.
(** empty parts and single dots lead nowhere *)
Definition leads (p : str) : bool := match p with [] => false | [c] => negb (is_dot c) | _ => true end.
Definition steps (s : str) : list str := filter leads (parts [] s).
(** the place of a path, seen from the working directory [cwd]: the steps from the root *)
Definition place (cwd : list str) (s : str) : list str := match s with c :: _ => if is_slash c then steps s else cwd ++ steps s | [] => cwd end.
(** [d] and [f] are the directory and the file name of [s] *)
Definition splits (s d f : str) : Prop := s = d ++ f /\ Forall (fun c => is_slash c = false) f /\ (d = [] \/ exists d' c, d = d' ++ [c] /\ is_slash c = true).
(** [t] is the file name without its extension *)
Definition stem (f t : str) : Prop :=
  (Forall (fun c => is_dot c = false) f /\ t = f) \/ exists e c, f = t ++ c :: e /\ is_dot c = true /\ Forall (fun c => is_dot c = false) e.
(** the file [f] of directory [d] *)
Definition beside (cwd : list str) (d f : str) : list str := place cwd d ++ steps f.
(** a path that does not start at the root *)
Definition relative (f : str) : Prop := match f with c :: _ => is_slash c = false | [] => True end.
(** the names of the files the user is told to put beside the input file, or gives in it *)
Definition given (c : companion) : str :=
  match c with
  | CCurve e => e | CFrequencies => ot "wave_frequencies.txt" | CElevation => ot "wave_elevation.txt" | CGrid => ot "water_grid.txt"
  | CSteady => ot "current_profile.txt" | CDynamic => ot "current_profile_dynamic.txt" | C4D => ot "current_profile_4d.txt" | CSeafloor e => e
  end.
