(** The substep loop of MoorDyn::Step (MoorDyn2.cpp l.692-713) in double precision.
    Doubles are the real numbers of Flocq's format FLT with emin = -1074 and 53 digits, and
    t_target -= dt_step rounds to nearest, ties to even. The loop never increases its
    numbers, so overflow and NaN cannot occur; infinite arguments are not modelled. *)
From Coq Require Import Reals ZArith.
From Flocq Require Import Core.
From Verif Require Import MErr MStep.
Open Scope R_scope.

Definition fexp64 : Z -> Z := FLT_exp (-1074) 53.
Definition is_double (x : R) : Prop := generic_format radix2 fexp64 x.
Definition rnd64 (x : R) : R := round radix2 fexp64 ZnearestE x.
Definition sub64 (a b : R) : R := rnd64 (a - b).
Definition sub_loop64 (X : Type) (stp : X -> R -> outcome X) : nat -> R -> X -> R -> outcome X :=
  sub_loop R X Rltb sub64 0 stp.
