(** C18: how far the finding on removed objects reaches. *)
From Coq Require Import String Ascii List Arith ZArith Bool Reals Lia.
From Verif Require Import MErr MStr MStateOps MScheme MTime STime PTime PExtB.
Import ListNotations.
Local Open Scope nat_scope.

(** A removal is right in the array whose number is the position of the removed object. In any other array, unless it holds equal
    entries, some object that stays is left with the entry of another. *)
Theorem C18_remove_entries_refuted : forall A B o (s s' : slots A B) i, aligned s -> remove_obj o s = Ok (s', i) -> nth_error (ids s) i = Some o /\
  forall k l, nth_error (ss s) k = Some l ->
    (i = k -> forall o' a, o' <> o -> entry_of s k o' a -> entry_of s' k o' a) /\
    (i <> k -> NoDup l -> exists o' a, o' <> o /\ In o' (ids s') /\ entry_of s k o' a /\ ~ entry_of s' k o' a).
Proof. exact remove_entries. Qed.
Print Assumptions C18_remove_entries_refuted.
(** So with two arrays or more, as in the Runge-Kutta schemes, every removal that succeeds leaves a wrong entry. *)
Theorem C18_every_removal_refuted : forall A B o (s s' : slots A B) i, aligned s -> 2 <= length (ss s) -> Forall (@NoDup A) (ss s) -> remove_obj o s = Ok (s', i) ->
  exists k o' a, o' <> o /\ In o' (ids s') /\ entry_of s k o' a /\ ~ entry_of s' k o' a.
Proof. exact remove_two. Qed.
Print Assumptions C18_every_removal_refuted.
Example C18_case_removal : exists s', remove_obj 7 (Slots [4; 7; 9] [[10; 20; 30]; [1; 2; 3]] [[5; 6; 7]] [true; true; true]) = Ok (s', 1) /\
  ss s' = [[20; 30]; [1; 3]] /\ aligned (Slots [4; 7; 9] [[10; 20; 30]; [1; 2; 3]] [[5; 6; 7]] [true; true; true]) /\ Forall (@NoDup nat) [[10; 20; 30]; [1; 2; 3]].
Proof. eexists. split; [reflexivity|]. split; [reflexivity|]. split; repeat split; cbn; repeat constructor; cbn; intuition lia. Qed.
