(** A mooring line with its points, used by the examples for whole simulations. *)
From Coq Require Import Reals List Arith ZArith Bool Lra Lia.
From Verif Require Import MErr MVec MStateOps MMat MInterp MLine MRod MBody MScheme MSys PLine PLineB.
From Verif Require MStep MNodes.
Import ListNotations.
Open Scope R_scope.

(* ----- numbers of the coupled points in the arrays of the interface ----- *)
Lemma rd3_flat ps k : MStep.rd3 (flat_map MStep.lst3 ps) (3 * k) = match nth_error ps k with Some v => Ok v | None => UB end.
Proof.
  revert k. induction ps as [|v ps IH]; intro k.
  - unfold MStep.rd3, vget. cbn [flat_map]. rewrite !nth_error_nil || idtac. destruct (3 * k)%nat eqn:E, k; cbn; try reflexivity; destruct k; reflexivity.
  - destruct k as [|k]; [destruct v; reflexivity|]. cbn [nth_error]. rewrite <- IH. unfold MStep.rd3, vget. cbn [flat_map]. unfold MStep.lst3 at 1 3 5. replace (3 * S k)%nat with (S (S (S (3 * k)))) by lia. reflexivity.
Qed.

(* ----- a line of one segment between an anchor and a coupled point, in a current ----- *)
Definition line1 : line :=
  Line 1 0.1 0.008 3000 1000 0 10 1 0 1.2 0.1 [] [] [] [] [] [] false (fun _ => 0)
    (fun i => match i with O => V3 0 0 (-20) | _ => V3 3 0 (-16) end) (fun _ => vzero) (fun _ => 4) (fun _ => 0.032) false false (V3 1 0 0) (V3 1 0 0).
Definition sea1 (t : R) (p : v3) : MNodes.wkin := MNodes.Wk 0 (V3 (1 + 0.1 * t) 0 0) (V3 0.1 0 0) 0.
Definition sys1 : MStep.sys net :=
  MStep.Sys net [] [] [MStep.Cpt (V3 3 0 (-16)) vzero (V3 3 0 (-16)) vzero] [MStep.Pline 4 4 0 [4]]
    (Net [line1] [SPoint PFixed (V3 0 0 (-20)) vzero 0 0 vzero 0 0 [(0%nat, ENDPOINT_A)] vzero; SPoint PCoupled (V3 3 0 (-16)) vzero 0 0 vzero 0 0 [(0%nat, ENDPOINT_B)] vzero] 0 1 []).
Definition inst1 : MStep.md mst mdst net :=
  MStep.Md _ _ _ (Ts _ _ _ 0 0 sys1 [Ms [St [] []] [St vzero vzero; St vzero vzero] [] []] [Md [Dr [] []] [Dr vzero vzero; Dr vzero vzero] [] []] 0 0 1) Euler 1 1 [] [].
Definition calls1 : list (list v3 * list v3 * R) := [([V3 3 1 (-16)], [V3 0 1 0], 1)].
Lemma calc1 t L ec : lsx L = [] -> ldx L = [] -> lbx L = [] -> lN L = 1%nat -> exists F M, line_calc sea1 (fun _ _ => -20) ec t L = Ok (Dr [] [], LineOut 1 F M vzero vzero).
Proof.
  intros A B C D. unfold line_calc. cbv zeta. destruct (linear_total L ec (line_water sea1 (fun _ _ => -20) t L) A B C) as (F & ->). unfold inner_nodes. rewrite D. cbn [Nat.sub seq map forallb]. eauto.
Qed.
