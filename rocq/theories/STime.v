(** Specification vocabulary for the integrator bookkeeping. *)
From Coq Require Import String Ascii List Arith ZArith Bool Reals.
From Verif Require Import MErr MStr MStateOps MScheme MTime.
Import ListNotations.

(** one entry per registered object in every array *)
Definition aligned {A B} (s : slots A B) :=
  NoDup (ids s) /\ Forall (fun l => length l = length (ids s)) (ss s) /\ Forall (fun l => length l = length (ids s)) (sd s) /\
  length (msk s) = length (ids s).
(** a is the entry of object o in array k: the object and the entry are at the same position *)
Definition entry_of {A B} (s : slots A B) (k o : nat) (a : A) :=
  exists i l, nth_error (ids s) i = Some o /\ nth_error (ss s) k = Some l /\ nth_error l i = Some a.
(** objects added one after another *)
Fixpoint add_all {A B} (z0 : A) (d0 : B) (os : list nat) (s : slots A B) : outcome (slots A B) :=
  match os with [] => Ok s | o :: os' => s' <- add_obj z0 d0 o s ;; add_all z0 d0 os' s' end.
(** the number written in decimal *)
Definition decimal (ds : str) : Z := fold_left (fun a c => (10 * a + Z.of_N (code c - 48))%Z) ds 0%Z.
Definition numeral (ds : str) := ds <> [] /\ Forall (fun c => is_digit c = true) ds.
(** documented names (docs/inputs.rst) that are not local variants, with their schemes *)
Definition fixed_names : list (string * scheme) :=
  [("euler", Euler); ("leuler", LocalEuler); ("heun", Heun); ("rk2", RK2); ("rk4", RK4);
   ("ab2", AB 2 false); ("ab3", AB 3 false); ("ab4", AB 4 false)]%string.
Definition local_names : list (string * scheme) := [("lab2", AB 2 true); ("lab3", AB 3 true); ("lab4", AB 4 true)]%string.
Definition numbered_names : list (string * (nat -> scheme)) :=
  [("beuler", fun n => ImplicitEuler n 1%R); ("midpoint", fun n => ImplicitEuler n 0.5%R); ("anderson", fun n => AndersonEuler n 0.5%R);
   ("aca", fun n => Newmark n 0.5%R 0.25%R); ("wilson", fun n => Wilson n 1.37%R)]%string.
Definition rsuml (l : list R) := fold_right Rplus 0%R l.
