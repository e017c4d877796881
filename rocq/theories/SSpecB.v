(** Specification vocabulary for the even resampling of a spectrum. *)
From Coq Require Import Reals List.
From Verif Require Import MSpec SInterp.
Open Scope R_scope.

(** the smallest distance between neighbours *)
Definition smallest_gap (l : list R) (d : R) : Prop :=
  (forall i, (S i < length l)%nat -> d <= nth (S i) l 0 - nth i l 0) /\ exists i, (S i < length l)%nat /\ d = nth (S i) l 0 - nth i l 0.
(** components at the multiples of [dw], interpolated linearly in the given ones *)
Definition even_spectrum (fs : list fcomp) (dw : R) (l : list fcomp) : Prop :=
  forall k, (k < length l)%nat -> let c := nth k l (FComp 0 0 0 0) in f_omega c = INR k * dw /\
    lin_interp (map f_omega fs) (map f_re fs) (f_omega c) (f_re c) /\ lin_interp (map f_omega fs) (map f_im fs) (f_omega c) (f_im c) /\
    lin_interp (map f_omega fs) (map f_beta fs) (f_omega c) (f_beta c).
