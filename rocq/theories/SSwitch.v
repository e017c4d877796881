(** Specification vocabulary for the change of the time scheme. *)
From Coq Require Import String Ascii List Arith ZArith Bool Reals.
From Verif Require Import MErr MStr MVec MStateOps MScheme MTime STime MSwitch.
Import ListNotations.

(** all the objects of the list, and no others, are integrated, each with its own entries *)
Definition integrated {A B} (x : objs A B) := ids (o_slots x) = o_list x /\ aligned (o_slots x).
(** no object fails to initialise *)
Definition starts {A B} (K : kind A B) (x : objs A B) := forall o v, In o (o_list x) -> k_init K o = Some v -> exists a, v = Ok a.
(** o is the i-th object of the list and a its entry in the state row *)
Definition entry {A} (l : list nat) (row : list A) (o : nat) (a : A) := exists i, nth_error l i = Some o /\ nth_error row i = Some a.
Section S.
Variable KB KR : kind rst drst.
Variable KP : kind pst dpst.
Variable KL : kind lst dlst.
Definition sound (y : system) :=
  integrated (y_bodies y) /\ integrated (y_rods y) /\ integrated (y_points y) /\ integrated (y_lines y).
Definition all_start (y : system) := starts KB (y_bodies y) /\ starts KR (y_rods y) /\ starts KP (y_points y) /\ starts KL (y_lines y).
Definition no_repeats (y : system) :=
  NoDup (o_list (y_bodies y)) /\ NoDup (o_list (y_rods y)) /\ NoDup (o_list (y_points y)) /\ NoDup (o_list (y_lines y)).
Definition same_objects (y y' : system) :=
  o_list (y_bodies y') = o_list (y_bodies y) /\ o_list (y_rods y') = o_list (y_rods y) /\
  o_list (y_points y') = o_list (y_points y) /\ o_list (y_lines y') = o_list (y_lines y).
(** the free objects show the state st *)
Definition shows (y : system) (st : mst) :=
  (forall o a, entry (o_list (y_bodies y)) (s_bodies st) o a -> k_set KB o = true -> o_show (y_bodies y) o = a) /\
  (forall o a, entry (o_list (y_rods y)) (s_rods st) o a -> k_set KR o = true -> o_show (y_rods y) o = a) /\
  (forall o a, entry (o_list (y_points y)) (s_points st) o a -> k_set KP o = true -> o_show (y_points y) o = a) /\
  (forall o a, entry (o_list (y_lines y)) (s_lines st) o a -> k_set KL o = true -> o_show (y_lines y) o = a).
End S.
