(** What the VTK files are to show. *)
From Coq Require Import String List Arith Bool.
From Verif Require Import MErr MVtk.
Import ListNotations.

Section Spec.
Context {F G : Type}.
Variable narrow : F -> G.

(** a field with a tuple for each of n places, all of them set, with the right number of components *)
Definition fits (n : nat) (a : varr G) : Prop :=
  length (va_tuples G a) = n /\ Forall (fun t => exists x, t = Some x /\ length x = va_comps G a) (va_tuples G a).
(** points that exist, and fields that fit *)
Definition well_formed (p : poly G) : Prop :=
  Forall (Forall (fun i => (i < length (py_points G p))%nat)) (py_verts G p ++ py_lines G p) /\
  Forall (fits (length (py_points G p))) (py_pdata G p) /\
  Forall (fits (length (py_verts G p) + length (py_lines G p))) (py_cdata G p).
(** the field of a name, among those of the points or of the cells *)
Definition field (l : list (varr G)) (n : string) : option (varr G) := find (fun a => String.eqb (va_name G a) n) l.
(** a field shows values, one at each place *)
Definition field_shows {A} (l : list (varr G)) (n : string) (c : nat) (parts : A -> list F) (xs : list A) : Prop :=
  exists a, field l n = Some a /\ va_comps G a = c /\ length (va_tuples G a) = length xs /\
    forall i x, nth_error xs i = Some x -> nth_error (va_tuples G a) i = Some (Some (map narrow (parts x))).
(** the points are at the places *)
Definition points_at (p : poly G) (xs : list (vec F)) : Prop :=
  length (py_points G p) = length xs /\ forall i x y z, nth_error xs i = Some (x, y, z) -> nth_error (py_points G p) i = Some [narrow x; narrow y; narrow z].
End Spec.
