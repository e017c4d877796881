(** Interpolation: source/Util/Interp.hpp. Numbers are exact reals (rounding is
    not modelled). An access outside of a vector is [UB]. *)
From Coq Require Import Reals List Arith.
From Verif Require Import MErr.
Import ListNotations.
Open Scope R_scope.

(** std::vector::operator[] *)
Definition vget {A} (l : list A) (i : nat) : outcome A :=
  match nth_error l i with Some a => Ok a | None => UB end.
(** v[i] = a *)
Fixpoint vset {A} (l : list A) (i : nat) (a : A) : outcome (list A) :=
  match l, i with
  | [], _ => UB
  | _ :: l', O => Ok (a :: l')
  | b :: l', S i' => obind (vset l' i' a) (fun r => Ok (b :: r))
  end.

(** the loop of l.41-46: [k] = remaining iterations, starting at index i;
    after the loop l.49-51 (unreachable according to the source) *)
Fixpoint if_scan (xp : list R) (x : R) (i k : nat) : outcome (nat * R) :=
  match k with
  | O => Ok ((length xp - 1)%nat, 1)
  | S k' =>
      obind (vget xp i) (fun xi =>
      if Rle_dec x xi then
        obind (vget xp (i - 1)) (fun xm => Ok (i, (x - xm) / (xi - xm)))
      else if_scan xp x (S i) k')
  end.

(** interp_factor(xp, i0, x, f), l.18-52: returned index and f. With an empty xp
    size()-1 wraps around and xp[i0 - 1] is out of range. *)
Definition interp_factor (xp : list R) (i0 : nat) (x : R) : outcome (nat * R) :=
  let n := length xp in
  if (n =? 1)%nat then Ok (0%nat, 0)
  else if (n =? 0)%nat then UB
  else
    let i0 := if (i0 =? 0)%nat then 1%nat else i0 in
    let i0 := if (n - 1 <? i0)%nat then (n - 1)%nat else i0 in
    obind (vget xp (i0 - 1)) (fun x0 =>
    if Rle_dec x x0 then Ok (i0, 0)
    else obind (vget xp (n - 1)) (fun xb =>
    if Rge_dec x xb then Ok ((n - 1)%nat, 1)
    else if_scan xp x i0 (n - i0))).

(** lerp, l.66-71 *)
Definition lerp (a b f : R) : R := a * (1 - f) + b * f.

(** yp[j - 1] + f * (yp[j] - yp[j - 1]), l.109 and l.130; j - 1 wraps for j = 0 *)
Definition pick (yp : list R) (j : nat) (f : R) : outcome R :=
  match j with
  | O => UB
  | S j' => obind (vget yp j') (fun a => obind (vget yp j) (fun b => Ok (a + f * (b - a))))
  end.

(** interp(xp, yp, x), l.119-131 *)
Definition interp (xp yp : list R) (x : R) : outcome R :=
  match yp with
  | [y] => Ok y
  | _ => obind (interp_factor xp 1 x) (fun jf => pick yp (fst jf) (snd jf))
  end.

(** interp(xp, yp, x, y), l.93-111: the vector y afterwards *)
Fixpoint interp_loop (xp yp xs y : list R) (i j : nat) : outcome (list R) :=
  match xs with
  | [] => Ok y
  | x :: xs' =>
      obind (interp_factor xp j x) (fun jf =>
      obind (pick yp (fst jf) (snd jf)) (fun v =>
      obind (vset y i v) (fun y' => interp_loop xp yp xs' y' (S i) (fst jf))))
  end.
Definition interp_batch (xp yp xs y : list R) : outcome (list R) :=
  match yp with
  | [v] => vset y 0 v
  | _ => interp_loop xp yp xs y 0 1
  end.

(** c * (1. - f) + c' * f *)
Definition mix (f c c' : R) : R := c * (1 - f) + c' * f.
Definition low (i : nat) : nat := (i - 1)%nat. (* i > 0 ? i - 1 : 0 *)
Definition vget2 {A} (v : list (list A)) i j := obind (vget v i) (fun r => vget r j).
Definition vget3 {A} (v : list (list (list A))) i j k := obind (vget v i) (fun r => vget2 r j k).
Definition vget4 {A} (v : list (list (list (list A)))) i j k w := obind (vget v i) (fun r => vget3 r j k w).
Definition omix (f : R) (a b : outcome R) : outcome R :=
  obind a (fun x => obind b (fun y => Ok (mix f x y))).

(** interp2, l.143-162 *)
Definition interp2 (v : list (list R)) (i j : nat) (fx fy : R) : outcome R :=
  let i0 := low i in let j0 := low j in
  omix fy (omix fx (vget2 v i0 j0) (vget2 v i j0)) (omix fx (vget2 v i0 j) (vget2 v i j)).

(** interp3, l.176-208 *)
Definition interp3 (v : list (list (list R))) (i j k : nat) (fx fy fz : R) : outcome R :=
  let i0 := low i in let j0 := low j in let k0 := low k in
  omix fz
    (omix fy (omix fx (vget3 v i0 j0 k0) (vget3 v i j0 k0)) (omix fx (vget3 v i0 j k0) (vget3 v i j k0)))
    (omix fy (omix fx (vget3 v i0 j0 k) (vget3 v i j0 k)) (omix fx (vget3 v i0 j k) (vget3 v i j k))).

(** interp4, l.224-263 (interp4Vec l.265-303 is the same per component) *)
Definition interp4 (v : list (list (list (list R)))) (i j k w : nat) (fx fy fz fw : R) : outcome R :=
  let i0 := low i in let j0 := low j in let k0 := low k in let w0 := low w in
  let c a b c := omix fw (vget4 v a b c w0) (vget4 v a b c w) in
  omix fz
    (omix fy (omix fx (c i0 j0 k0) (c i j0 k0)) (omix fx (c i0 j k0) (c i j k0)))
    (omix fy (omix fx (c i0 j0 k) (c i j0 k)) (omix fx (c i0 j k) (c i j k))).
