(** Specification of arrays handed over by the caller. *)
From Coq Require Import String Ascii List Arith.
From Verif Require Import MStr.
Import ListNotations.

(** the array holds the C string [s] *)
Definition holds (buf s : str) : Prop := ~ In "000"%char s /\ exists rest, buf = s ++ "000"%char :: rest.
(** the arrays differ in the first [n] cells only *)
Definition untouched_from {A} (n : nat) (buf buf' : list A) : Prop := length buf' = length buf /\ forall i, n <= i -> nth_error buf' i = nth_error buf i.
