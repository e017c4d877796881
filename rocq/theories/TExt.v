(** C40 and C57: how far the findings reach. *)
From Coq Require Import ZArith List Arith Bool Reals Lra Lia.
From Verif Require Import MErr MVec MInterp MLine SLine MScheme PExt.
Import ListNotations.
Open Scope R_scope.

(** The sea bed pulls a node down exactly when the node is below the bed and rises faster than stiffness and damping of the bed
    balance. *)
Theorem C40_pulls_exactly_partial : forall e A wd r rd, 0 < A -> (vz (bottom e A wd r rd) < 0 <-> vz r < wd /\ (wd - vz r) * kb e < vz rd * cb e).
Proof. exact bed_pulls_when. Qed.
Print Assumptions C40_pulls_exactly_partial.
(** With any positive stiffness and damping, every node that rises through the bed is pulled before it leaves it. *)
Theorem C40_leaving_refuted : forall e A wd r rd, 0 < A -> 0 < kb e -> 0 < cb e -> 0 < vz rd -> 0 < wd - vz r < vz rd * cb e / kb e -> vz (bottom e A wd r rd) < 0.
Proof. exact bed_pulls_surface. Qed.
Print Assumptions C40_leaving_refuted.
Example C40_met_leaving : let e := Envc 1025 9.8 100 10 0 0 0 in 0 < kb e /\ 0 < cb e /\ 0 < vz (V3 0 0 1) /\ 0 < -10 - vz (V3 0 0 (-10.05)) < vz (V3 0 0 1) * cb e / kb e.
Proof. cbn. lra. Qed.

(** The relaxation factor of the implicit Newmark schemes exceeds 1, so that an iteration overshoots, in the first twentieth of the
    iterations of every scheme with 40 iterations or more. *)
Theorem C57_newmark_overshoots_refuted : forall n g b i, (40 <= n)%nat -> (20 * (i + 1) <= n)%nat -> 1 < relax n (relax_c (Newmark n g b)) i.
Proof. exact newmark_over. Qed.
Print Assumptions C57_newmark_overshoots_refuted.
Example C57_met_overshoots : (40 <= 100)%nat /\ (20 * (4 + 1) <= 100)%nat.
Proof. lia. Qed.
(** It never reaches 1.05, and stays below 1 with six iterations or less. *)
Theorem C57_newmark_range_partial : forall n g b i, (1 <= n)%nat -> 0 <= relax n (relax_c (Newmark n g b)) i < 1.05 /\ ((n <= 6)%nat -> relax n (relax_c (Newmark n g b)) i < 1).
Proof. exact (fun n g b i H => conj (newmark_range n g b i H) (fun K => newmark_few n g b i (conj H K))). Qed.
Print Assumptions C57_newmark_range_partial.
