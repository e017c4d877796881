(** Specification of wave spectra. *)
From Coq Require Import List Reals.
Import ListNotations.
Open Scope R_scope.

(** the spectrum of Pierson and Moskowitz with significant height [H] and peak [fp], IEC TS 62600-2, annex F.2 *)
Definition pierson_moskowitz (H fp f : R) : R := 5 / 16 * H ^ 2 * (fp ^ 4 / f ^ 5) * exp (- (5 / 4) * (fp / f) ^ 4).
(** [v] is the area below [s] between [a] and [b] *)
Definition area (s : R -> R) (a b v : R) : Prop := exists G, (forall x, a <= x <= b -> derivable_pt_lim G x (s x)) /\ v = G b - G a.
(** [s] has its peak at [p] *)
Definition peak_at (s : R -> R) (p : R) : Prop := 0 < p /\ forall f, 0 < f -> s f <= s p.
(** the variance of a sum of waves with these amplitudes *)
Definition variance (l : list R) : R := fold_right (fun a v => a ^ 2 / 2 + v) 0 l.
Definition total (l : list R) : R := fold_right Rplus 0 l.
