(** Specification of linear interpolation in a table, independent of the code. *)
From Coq Require Import Reals List.
Import ListNotations.
Open Scope R_scope.

Definition increasing (xp : list R) : Prop :=
  forall i j, (i < j < length xp)%nat -> nth i xp 0 < nth j xp 0.

(** y is the value at x of the piecewise linear function through the points
    (xp_k, yp_k), constant outside of the table *)
Definition lin_interp (xp yp : list R) (x y : R) : Prop :=
  (x <= nth 0 xp 0 -> y = nth 0 yp 0) /\
  (nth (length xp - 1) xp 0 <= x -> y = nth (length xp - 1) yp 0) /\
  (forall k, (S k < length xp)%nat -> nth k xp 0 <= x <= nth (S k) xp 0 ->
     (y - nth k yp 0) * (nth (S k) xp 0 - nth k xp 0)
     = (nth (S k) yp 0 - nth k yp 0) * (x - nth k xp 0)).

Definition nondecreasing (xs : list R) : Prop :=
  forall i j, (i < j < length xs)%nat -> nth i xs 0 <= nth j xs 0.

(** all the entries of a grid lie in [lo, hi] *)
Definition within (lo hi : R) (v : R) : Prop := lo <= v <= hi.
