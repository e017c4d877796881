(** The energy a line stores, by its relation of stress and strain. *)
From Coq Require Import Reals List Arith.
From Verif Require Import MErr MVec MInterp MLine SLine.
Open Scope R_scope.

(** the stress [Y] at the strain [x]: the modulus times the strain, or what the curve has *)
Definition stress (L : line) (x Y : R) : Prop :=
  match lsx L with nil => Y = lE L * x | _ => interp (lsx L) (lsy L) x = Ok Y end.
(** [G] is the energy per volume: its slope is the stress, and nothing is stored in what is slack *)
Definition stores (L : line) (G : R -> R) : Prop :=
  forall x, exists Y, derivable_pt_lim G x Y /\ (x <= 0 -> Y = 0) /\ (0 < x -> stress L x Y).
Definition strain_energy (L : line) (G : R -> R) (p : nat -> v3) : R :=
  nsum (lN L) (fun i => larea L * ll L i * G ((norm (vsub (p (S i)) (p i)) - ll L i) / ll L i)).
(** the damping stress at a rate of strain [v]: the coefficient times the rate, or what the curve has; a curve without negative
    rates is read at the size of the rate *)
Definition damping_stress (L : line) (v Y : R) : Prop :=
  match ldx L with
  | nil => Y = lc L * v
  | x0 :: _ => interp (ldx L) (ldy L) (if Rlt_dec x0 0 then v else Rabs v) = Ok Y
  end%list.
