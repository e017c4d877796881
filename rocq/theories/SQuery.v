(** Specification of the queries of a line. *)
From Coq Require Import ZArith List Arith Reals.
From Verif Require Import MErr MVec MApi.
Open Scope R_scope.

(** the query answers [v] *)
Definition answers {A} (o : outcome (reply A)) (v : A) : Prop := o = Ok (Reply MOORDYN_SUCCESS (Some v)).
(** the tension of a segment, with its damping *)
Definition segment_tension (L : line_data) (j : nat) : v3 := vadd (ld_T L j) (ld_Td L j).
(** [m] is the largest of the tensions answered for the nodes up to [last] *)
Definition largest_up_to (L : line_data) (last : nat) (m : R) : Prop :=
  (forall i v, (i <= last)%nat -> answers (MoorDyn_GetLineNode QTen (Some L) i) v -> norm v <= m) /\
  exists i v, (i <= last)%nat /\ answers (MoorDyn_GetLineNode QTen (Some L) i) v /\ m = norm v.
(** the pull of the segments next to a node *)
Definition pulls (L : line_data) (i : nat) : v3 :=
  if Nat.eqb i 0 then segment_tension L 0 else if Nat.eqb i (ld_N L) then vscale (-1) (segment_tension L (ld_N L - 1)) else vsub (segment_tension L i) (segment_tension L (i - 1)).
