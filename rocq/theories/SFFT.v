(** Specification vocabulary for Fourier transforms. *)
From Coq Require Import Reals List Arith.
From Verif Require Import MFFT.
Open Scope R_scope.

(** sums of n terms *)
Fixpoint rsum (n : nat) (f : nat -> R) : R := match n with O => 0 | S k => rsum k f + f k end.
Fixpoint csum (n : nat) (f : nat -> cpx) : cpx := match n with O => Cx 0 0 | S k => cadd (csum k f) (f k) end.
(** the discrete Fourier transform of n values: sgn is -1 for the forward and 1 for the inverse
    transform (which is not divided by n) *)
Definition dft (sgn : R) (n : nat) (x : nat -> cpx) (k : nat) : cpx :=
  csum n (fun j => cmul (x j) (cexp (sgn * (2 * PI * INR (j * k) / INR n)))).
(** component k of the transform of the n real values x *)
Definition real_dft (n : nat) (x : nat -> R) (k : nat) : cpx :=
  Cx (rsum n (fun r => x r * cos (2 * PI * INR (r * k) / INR n))) (- rsum n (fun r => x r * sin (2 * PI * INR (r * k) / INR n))).
(** value r of the real signal of period n = 2 h with the components H 0, ..., H h *)
Definition real_signal (h : nat) (H : nat -> cpx) (r : nat) : R :=
  re (H 0%nat) + 2 * rsum (h - 1) (fun k => re (H (S k)) * cos (2 * PI * INR (S k * r) / INR (2 * h)) - im (H (S k)) * sin (2 * PI * INR (S k * r) / INR (2 * h)))
  + re (H h) * cos (PI * INR r).
(** the factors p of a size and what is left of it after each *)
Fixpoint factor_chain (n : nat) (l : list (nat * nat)) : Prop :=
  match l with
  | nil => False
  | ((p, m) :: rest)%list => (n = p * m /\ 1 <= p /\ (m = 1 \/ 1 < m /\ factor_chain m rest))%nat
  end.
