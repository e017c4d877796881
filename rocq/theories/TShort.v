(** C63: lines with a segment shorter than the tolerance. *)
From Coq Require Import Reals List Arith ZArith Bool Lra Lia.
From Verif Require Import MErr MVec MStateOps MMat MLine SLine PMat PLine PLineB PLineE PShort.
Import ListNotations.
Open Scope R_scope.

(** REFUTED for pinned lines with bending stiffness and a segment of positive length below the tolerance: the direction of such a
    segment is not made a unit vector, and the forces of the bend have a moment. *)
Theorem C63_short_segment_refuted : ~ (forall L e k F, (0 < lN L)%nat -> (forall i, (i < lN L)%nat -> 0 < norm (vsub (lr L (S i)) (lr L i))) -> lcantA L = false -> lcantB L = false ->
  line_forces L e k = Some F -> vsum (lN L + 1) (fun i => cross (lr L i) (internal L e k F i)) = vzero).
Proof. exact short_turns. Qed.
Print Assumptions C63_short_segment_refuted.
