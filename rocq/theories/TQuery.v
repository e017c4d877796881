(** C123: the answers for the nodes of a line agree with each other. C43 has the findings on one witness. *)
From Coq Require Import ZArith List Arith Bool Reals Lra Lia.
From Verif Require Import MErr MVec MInterp MLine MApi MQuery SQuery PQuery.
Import ListNotations.
Open Scope R_scope.

(** The largest tension of a line is the largest of the tensions of its nodes, but for the node at end B. *)
Theorem C123_max_partial : forall L, (1 <= ld_N L)%nat -> exists m, answers (MoorDyn_GetLineMaxTen (Some L)) m /\ largest_up_to L (ld_N L - 1) m.
Proof. exact max_nodes. Qed.
Print Assumptions C123_max_partial.
(** End B is left out: when the last segment is tenser than the others, as in any line that hangs from its end B, the largest tension
    answered is smaller than the tension at end B, which is the largest of all. *)
Theorem C123_max_refuted : forall L, (2 <= ld_N L)%nat -> (forall j, (j < ld_N L - 1)%nat -> norm (segment_tension L j) < norm (segment_tension L (ld_N L - 1))) ->
  exists m f, answers (MoorDyn_GetLineMaxTen (Some L)) m /\ answers (MoorDyn_GetLineFairTen (Some L)) f /\ largest_up_to L (ld_N L) f /\ m < f.
Proof. exact max_misses. Qed.
Print Assumptions C123_max_refuted.
(** A line of two segments with tensions 1 and 3. *)
Definition hanging : line_data := let z := fun _ : nat => vzero in LineData 1 2 z z z (fun j => V3 0 0 (if Nat.eqb j 0 then 1 else 3)) z z z z z z z z.
Example C123_met_max : (2 <= ld_N hanging)%nat /\ (forall j, (j < ld_N hanging - 1)%nat -> norm (segment_tension hanging j) < norm (segment_tension hanging (ld_N hanging - 1))).
Proof.
  split; [cbn; lia|]. intros j H. cbn [hanging ld_N] in H. assert (j = 0)%nat by lia. subst j. unfold norm, segment_tension, dot, vadd. cbn. apply sqrt_lt_1; lra.
Qed.
(** No line, no answer. *)
Theorem C123_no_line : MoorDyn_GetLineMaxTen None = Ok (Reply MOORDYN_INVALID_VALUE None) /\ forall q i, MoorDyn_GetLineNode q None i = Ok (Reply MOORDYN_INVALID_VALUE None).
Proof. split; reflexivity. Qed.
Print Assumptions C123_no_line.

(** The force of the seabed on a node comes with the bending force on that node: it is the reaction of the seabed only where the line
    does not bend. *)
Theorem C123_seabed_refuted : forall n L e k T Td Bs i, (i <= lN L)%nat -> exists f b,
  answers (MoorDyn_GetLineNode QSeabedForce (Some (data_of n L e k T Td Bs)) i) f /\ answers (MoorDyn_GetLineNode QBendStiff (Some (data_of n L e k T Td Bs)) i) b /\
  f = vadd (lB L e k i) b /\ (f = lB L e k i <-> b = vzero).
Proof. exact seabed_query. Qed.
Print Assumptions C123_seabed_refuted.
(** The net force on a node is the pull of the segments next to it and the answers for weight, drag, inertia of the water and seabed,
    with the pressure term: as the bending force is in the answer for the seabed, it must not be added again. *)
Theorem C123_net : forall n L e k T Td Bs i, (i <= lN L)%nat -> exists net w d fk sb,
  let D := data_of n L e k T Td Bs in
  answers (MoorDyn_GetLineNode QForce (Some D) i) net /\ answers (MoorDyn_GetLineNode QWeight (Some D) i) w /\ answers (MoorDyn_GetLineNode QDrag (Some D) i) d /\
  answers (MoorDyn_GetLineNode QFroudeKrilov (Some D) i) fk /\ answers (MoorDyn_GetLineNode QSeabedForce (Some D) i) sb /\
  net = vadd (pulls D i) (vadd (vadd (vadd (vadd w d) fk) sb) (lPb L e k i)).
Proof. exact net_query. Qed.
Print Assumptions C123_net.
(** The line of PLineB with a bending force of 1 on its middle node. *)
Example C123_met_seabed : (1 <= lN PLineB.demo)%nat /\
  answers (MoorDyn_GetLineNode QBendStiff (Some (data_of 1 PLineB.demo PLineB.demo_env PLineB.still (fun _ => V3 1 0 0) (fun _ => vzero) (fun i => V3 0 0 (if Nat.eqb i 1 then 1 else 0)))) 1) (V3 0 0 1) /\
  V3 0 0 1 <> vzero.
Proof. split; [cbn; lia|]. split; [reflexivity|]. intro E. injection E as E. lra. Qed.
