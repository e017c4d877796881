(** C72: bodies in water. *)
From Coq Require Import Reals List Arith Lra Lia.
From Verif Require Import MErr MVec MStateOps MMat MLine MRod MBody SMat SLine SRod SBody SBodyW PBody PBodyB PBodyC PBodyD PBodyW.
Import ListNotations.
Open Scope R_scope.

(** The momentum of any free body, in water or not: the mass of water the body carries along is given the acceleration of
    its reference point and, as if it were at the centre of gravity, the one towards the axis of the turn. *)
Theorem C72_body_in_water : forall b e U parts mss fs a, rotation (b_Or b) -> b_type b = BFree ->
  length mss = length fs -> Forall2 (fun x mf => balanced_part (v6tl (b_v b)) x (fst mf) (snd mf)) parts (combine mss fs) ->
  body_solves b (fst (body_rhs b e U parts)) (snd (body_rhs b e U parts)) a ->
  let c := cross (v6tl (b_v b)) (cross (v6tl (b_v b)) (mmulv (b_Or b) (b_rCG b))) in
  vadd (vadd (vscale (b_M b) (acceleration_at (mmulv (b_Or b) (b_rCG b)) (v6hd a) (v6tl a) (v6tl (b_v b)))) (mmulv (water_mass b e) (vadd (v6hd a) c)))
       (vtotal (fun ms => vtotal (carried (v6tl (b_v b)) (v6hd a) (v6tl a)) ms) mss)
  = vadd (vadd (body_Fgrav b e) (v6hd (body_drag b e U))) (vtotal (fun f => f) fs).
Proof. exact wet_momentum. Qed.
Print Assumptions C72_body_in_water.
Example C72_body_in_water_ok : rotation (b_Or spinner) /\ b_type spinner = BFree /\ ~ dry spinner calm /\
  body_solves spinner (fst (body_rhs spinner calm vzero [])) (snd (body_rhs spinner calm vzero [])) (V6 (V3 1 0 0) vzero).
Proof. split; [exact mid_rotation|]. split; [reflexivity|]. split; [unfold dry, spinner, calm; cbn; lra|]. exact spinner_solves. Qed.

(** The same for a body pinned to the vessel: the force reported at its pin is what is missing. *)
Theorem C72_pinned_in_water : forall b e U parts mss fs a, rotation (b_Or b) -> b_type b = BCpldPin ->
  length mss = length fs -> Forall2 (fun x mf => balanced_part (v6tl (b_v b)) x (fst mf) (snd mf)) parts (combine mss fs) -> b_a b = a ->
  let c := cross (v6tl (b_v b)) (cross (v6tl (b_v b)) (mmulv (b_Or b) (b_rCG b))) in
  vadd (vadd (vscale (b_M b) (acceleration_at (mmulv (b_Or b) (b_rCG b)) (v6hd a) (v6tl a) (v6tl (b_v b)))) (mmulv (water_mass b e) (vadd (v6hd a) c)))
       (vtotal (fun ms => vtotal (carried (v6tl (b_v b)) (v6hd a) (v6tl a)) ms) mss)
  = vsub (vadd (vadd (body_Fgrav b e) (v6hd (body_drag b e U))) (vtotal (fun f => f) fs)) (v6hd (body_getFnet b (fst (body_rhs b e U parts)) (snd (body_rhs b e U parts)))).
Proof. exact wet_pinned. Qed.
Print Assumptions C72_pinned_in_water.
Example C72_pinned_in_water_ok : let b := Body BCpldPin 1 1 (V3 1 0 0) (V3 1 1 1) (V6 vzero vzero) (V6 (V3 1 1 1) vzero) vzero mid (V6 vzero (V3 0 0 1)) (V6 (V3 1 0 0) vzero) in
  rotation (b_Or b) /\ b_type b = BCpldPin /\ ~ dry b calm.
Proof. split; [exact mid_rotation|]. split; [reflexivity|]. unfold dry, calm; cbn; lra. Qed.

(** Refuted: that mass times acceleration of the body and of the water at its reference point are the forces on it. A
    body that turns in still water without weight and drag is accelerated although no force acts on it. *)
Theorem C72_water_refuted : exists b e a, rotation (b_Or b) /\ b_type b = BFree /\ body_solves b (fst (body_rhs b e vzero [])) (snd (body_rhs b e vzero [])) a /\
  vadd (body_Fgrav b e) (v6hd (body_drag b e vzero)) = vzero /\
  vadd (vscale (b_M b) (acceleration_at (mmulv (b_Or b) (b_rCG b)) (v6hd a) (v6tl a) (v6tl (b_v b)))) (mmulv (water_mass b e) (v6hd a)) <> vzero.
Proof.
  exists spinner, calm, (V6 (V3 1 0 0) vzero). split; [exact mid_rotation|]. split; [reflexivity|]. split; [exact spinner_solves|]. split; [exact (proj2 spinner_unbalanced)|].
  cbn [v6hd v6tl]. rewrite (proj1 spinner_unbalanced). unfold vzero. intro H. injection H as H. lra.
Qed.
Print Assumptions C72_water_refuted.
