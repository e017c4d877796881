(** Property theorems: the C interfaces (C49, C50). *)
From Coq Require Import String ZArith List Arith Bool Reals Lia.
From Verif Require Import MErr MStateOps MVec MInterp MApi SApi PApi.
Import ListNotations.
Open Scope Z_scope.

(** C49: after any history of calls the process is well defined, the version 1 functions work on the
    system of the last successful initialisation, and the number of systems allocated is known *)
Theorem C49_one_system_partial : forall Sys X F create init step h,
  exists p, v1_run Sys X F create init step h (start Sys) = Ok p /\ sys_of Sys p = current Sys X F create init step h None /\
    length (heap _ p) = ((if current Sys X F create init step h None then 1 else 0) + leaks Sys X create init h)%nat.
Proof. exact run_start. Qed.
Print Assumptions C49_one_system_partial.

Theorem C49_active : forall Sys X F create init step h,
  current Sys X F create init step h None <> None <-> active Sys X create init h.
Proof. exact active_current. Qed.
Print Assumptions C49_active.

Theorem C49_step : forall Sys X F create init step h x,
  exists p, v1_run Sys X F create init step h (start Sys) = Ok p /\
  match current Sys X F create init step h None with
  | Some s => exists p', MoorDynStep Sys X F step x p = Ok (fst (fst (step s x)), Some (snd (fst (step s x))), p') /\ sys_of Sys p' = Some (snd (step s x))
  | None => MoorDynStep Sys X F step x p = Ok (MOORDYN_INVALID_VALUE, None, p)
  end.
Proof. exact step_after. Qed.
Print Assumptions C49_step.

Theorem C49_queries : forall Sys X F create init step nlines h l i,
  exists p, v1_run Sys X F create init step h (start Sys) = Ok p /\
  match current Sys X F create init step h None with
  | Some s => GetFairTen Sys nlines l p = obind (MoorDyn_GetLineFairTen (get_object (nlines s) (to_uint l))) (fun r => match rp_out r with Some t => Ok t | None => UB end) /\
              GetNodePos Sys nlines l i p = MoorDyn_GetLineNode QPos (get_object (nlines s) (to_uint l)) (Z.to_nat (to_uint i))
  | None => GetFairTen Sys nlines l p = Ok (-1)%R /\ GetNodePos Sys nlines l i p = Ok (Reply MOORDYN_MEM_ERROR None)
  end.
Proof. exact queries_after. Qed.
Print Assumptions C49_queries.

(** a toy system: the file name "bad" cannot be read, initialising at 0 fails, a step counts *)
Definition tcreate (n : string) : option nat := if String.eqb n "bad" then None else Some 0%nat.
Definition tinit (s : nat) (x : nat) : Z * nat := if Nat.eqb x 0 then (-3, s) else (0, x).
Definition tstep (s : nat) (x : nat) : Z * nat * nat := (0, (s + x)%nat, (s + x)%nat).
Notation trun := (v1_run nat nat nat tcreate tinit tstep).
(** a failed initialisation leaves its system allocated for ever, even after a close *)
Theorem C49_one_live_refuted : exists h p, trun h (start nat) = Ok p /\ ~ active nat nat tcreate tinit h /\ length (heap _ p) = 2%nat.
Proof.
  exists [VInit _ 1%nat "a"; VInit _ 0%nat "a"; VInit _ 0%nat "a"; VClose _]%string. eexists. split; [reflexivity|]. split; [|reflexivity].
  rewrite <- (C49_active nat nat nat tcreate tinit tstep). cbn. intros H. now apply H.
Qed.
Print Assumptions C49_one_live_refuted.
(** asking for the tension of a line that does not exist reads an uninitialised variable *)
Definition tline : line_data := let z := fun _ : nat => vzero in LineData 1 2 z z z z z z z z z z z z.
Theorem C49_invalid_line_refuted : exists p, trun [VInit _ 1%nat "a"%string] (start nat) = Ok p /\ GetFairTen nat (fun _ => [tline]) 2 p = UB.
Proof. eexists. split; reflexivity. Qed.
Print Assumptions C49_invalid_line_refuted.
(** three steps after a failed second initialisation still advance the first system *)
Example C49_case : active nat nat tcreate tinit [VInit _ 5%nat "a"; VInit _ 0%nat "b"; VInit _ 1%nat "bad"; VStep _ 2%nat]%string /\
  exists p, trun [VInit _ 5%nat "a"; VInit _ 0%nat "b"; VInit _ 1%nat "bad"; VStep _ 2%nat]%string (start nat) = Ok p /\ sys_of nat p = Some 7%nat /\ length (heap _ p) = 2%nat.
Proof.
  split.
  - exists [], 5%nat, "a"%string, [VInit _ 0%nat "b"; VInit _ 1%nat "bad"; VStep _ 2%nat]%string. split; [reflexivity|]. split; [discriminate|].
    cbn. intuition discriminate.
  - destruct (C49_one_system_partial nat nat nat tcreate tinit tstep [VInit _ 5%nat "a"; VInit _ 0%nat "b"; VInit _ 1%nat "bad"; VStep _ 2%nat]%string) as (p & E & S & L).
    exists p. split; [exact E|]. split; [rewrite S; reflexivity|]. rewrite L. reflexivity.
Qed.

(** C50: getters by 1-based identifiers, unsigned and signed *)
Theorem C50_getter : forall (A : Type) (l : list A) b o, 0 <= b ->
  (get_object l b = Some o <-> 1 <= b <= Z.of_nat (length l) /\ nth_error l (Z.to_nat b - 1) = Some o).
Proof. exact @get_object_spec. Qed.
Print Assumptions C50_getter.
Theorem C50_getter_null : forall (A : Type) (l : list A) b, 0 <= b -> (get_object l b = None <-> b = 0 \/ Z.of_nat (length l) < b).
Proof. exact @get_object_none. Qed.
Print Assumptions C50_getter_null.
Theorem C50_getter_int : forall (A : Type) (l : list A) i o, Z.of_nat (length l) < 2 ^ 31 -> - 2 ^ 31 <= i < 2 ^ 31 ->
  (get_object l (to_uint i) = Some o <-> 1 <= i <= Z.of_nat (length l) /\ nth_error l (Z.to_nat i - 1) = Some o).
Proof. exact @get_object_int. Qed.
Print Assumptions C50_getter_int.
(** node queries answer for exactly the nodes that are announced *)
Theorem C50_nodes : forall L q i, MoorDyn_GetLineNumberNodes (Some L) = Reply MOORDYN_SUCCESS (Some (ld_N L + 1)%nat) /\
  ((i < ld_N L + 1)%nat <-> exists v, MoorDyn_GetLineNode q (Some L) i = Ok (Reply MOORDYN_SUCCESS (Some v))).
Proof. exact number_nodes. Qed.
Print Assumptions C50_nodes.
(** an invalid node or a NULL line: the invalid value code, nothing written *)
Theorem C50_invalid_node : forall q h i, (forall L, h = Some L -> (ld_N L < i)%nat) -> MoorDyn_GetLineNode q h i = Ok (Reply MOORDYN_INVALID_VALUE None).
Proof. exact node_bad. Qed.
Print Assumptions C50_invalid_node.
(** attached lines of a point *)
Theorem C50_attached : forall (A : Type) (l : list A) i, MoorDyn_GetPointNAttached (Some l) = Reply MOORDYN_SUCCESS (Some (length l)) /\
  MoorDyn_GetPointAttached (Some l) i = Ok (match nth_error l i with Some a => Reply MOORDYN_SUCCESS (Some a) | None => Reply MOORDYN_INVALID_VALUE None end).
Proof. exact @attached. Qed.
Print Assumptions C50_attached.
(** the tensions of the first n lines *)
Theorem C50_fast_tensions : forall (A B : Type) (q : A -> B) (lines : list A) n, Z.of_nat (length lines) < 2 ^ 31 -> - 2 ^ 31 <= n < 2 ^ 31 ->
  MoorDyn_GetFASTtens q (Some lines) n = Ok (if (0 <=? n) && (n <=? Z.of_nat (length lines))
    then Reply MOORDYN_SUCCESS (Some (map q (firstn (Z.to_nat n) lines))) else Reply MOORDYN_INVALID_VALUE None).
Proof. exact @fast_tens. Qed.
Print Assumptions C50_fast_tensions.
Example C50_case : get_object ["a"; "b"; "c"]%string (to_uint 3) = Some "c"%string /\ get_object ["a"; "b"]%string (to_uint (-1)) = None.
Proof. split; [|reflexivity]. apply (C50_getter_int _ _ 3); [cbn; lia|lia|]. split; [cbn; lia|reflexivity]. Qed.
