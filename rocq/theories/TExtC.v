(** C06 and C65: how far the findings reach. *)
From Coq Require Import ZArith List Arith Bool Reals Lra Lia.
From Verif Require Import MErr MVec MStateOps MInterp MLine SLine PLine PLineB MIO MIOFile PIOFile PExtC.
Import ListNotations.

(** Every build whose major or minor version is not between 2 and 255 rejects every file it writes: below 2 by the comparison, from
    256 on because only a byte of it is written. *)
Theorem C06_own_files_refuted : forall maj min, (0 <= maj)%Z -> (0 <= min)%Z -> ~ (2 <= maj < 256 /\ 2 <= min < 256)%Z ->
  forall St be alloc_ok (des : St -> list Z -> St * outcome (list Z)) st data,
  load be (min_version maj min) alloc_ok des st (save be maj min data) = (st, Throw ExInputFile).
Proof. exact own_files_rejected. Qed.
Print Assumptions C06_own_files_refuted.
Example C06_met_own_files : ~ (2 <= 3 < 256 /\ 2 <= 1 < 256)%Z /\ ~ (2 <= 2 < 256 /\ 2 <= 300 < 256)%Z.
Proof. lia. Qed.

Open Scope R_scope.
(** With a damping curve that starts at 0 or above, the power of the damping of a segment is minus its stretching rate times the
    area and the value of the curve: *)
Theorem C65_one_sided_power_partial : forall L i x0 xs Y, ldx L = x0 :: xs -> 0 <= x0 -> 0 < ll L i -> tol < norm (seg L i) ->
  stretch_rate L i <> 0 -> interp (ldx L) (ldy L) (Rabs (stretch_rate L i / ll L i)) = Ok Y ->
  exists Td, lTd L i = Some Td /\ dot Td (vsub (lrd L i) (lrd L (S i))) = - (larea L * Y * stretch_rate L i).
Proof. exact one_sided_power. Qed.
Print Assumptions C65_one_sided_power_partial.
(** every segment that shortens, at a rate for which the curve is positive, is driven. *)
Theorem C65_shortening_driven_refuted : forall L i x0 xs Y, ldx L = x0 :: xs -> 0 <= x0 -> 0 < ll L i -> tol < norm (seg L i) ->
  stretch_rate L i < 0 -> interp (ldx L) (ldy L) (Rabs (stretch_rate L i / ll L i)) = Ok Y -> 0 < larea L -> 0 < Y ->
  exists Td, lTd L i = Some Td /\ 0 < dot Td (vsub (lrd L i) (lrd L (S i))).
Proof. exact one_sided_drives_all. Qed.
Print Assumptions C65_shortening_driven_refuted.
(** A segment of length 2 that shortens, with the curve of the constant 6. *)
Definition shortening : line :=
  Line 1 0.1 2 1000 1000 0 10 1 0 1.2 0.1 [] [] [] [] [0] [6] false (fun _ => 0)
    (fun i => V3 (2 * INR i) 0 0) (fun i => V3 (- INR i) 0 0) (fun _ => 1) (fun _ => 1) false false (V3 1 0 0) (V3 1 0 0).
Example C65_met_shortening : ldx shortening = [0] /\ 0 < ll shortening 0 /\ seg shortening 0 = V3 2 0 0 /\ dot (seg shortening 0) (vsub (lrd shortening 1) (lrd shortening 0)) < 0 /\ 0 < larea shortening /\
  forall x, interp (ldx shortening) (ldy shortening) x = Ok 6.
Proof.
  split; [reflexivity|]. split; [cbn; lra|]. split; [unfold seg, vsub; cbn; f_equal; lra|]. split; [unfold dot, seg, vsub; cbn; lra|]. split; [cbn; lra|]. intro x. reflexivity.
Qed.
