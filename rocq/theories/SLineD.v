(** Damping curves that take energy. *)
From Coq Require Import Reals List Arith.
From Verif Require Import SInterp.
Open Scope R_scope.

(** a table of rates and stresses, from below zero to above, through the origin, each stress against the motion *)
Definition passive (xs ys : list R) : Prop :=
  increasing xs /\ length ys = length xs /\ nth 0 xs 0 < 0 /\
  (exists k, (k < length xs)%nat /\ nth k xs 0 = 0 /\ nth k ys 0 = 0) /\
  forall i, (i < length xs)%nat -> 0 <= nth i xs 0 * nth i ys 0.
