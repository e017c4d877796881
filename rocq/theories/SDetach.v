(** Specification vocabulary for attachments and failures. *)
From Coq Require Import List Arith Bool Reals Permutation.
From Verif Require Import MErr MVec MDetach.
Import ListNotations.
Local Open Scope nat_scope.

Definition att_dec (a b : att) : {a = b} + {a <> b}.
Proof. decide equality. decide equality. apply Nat.eq_dec. Defined.
(** line ends attached at a place *)
Definition atts (s : net) (pl : place) : list att :=
  match pl with
  | AtPoint i => match nth_error (points s) i with Some p => p_att p | None => [] end
  | AtRod i EndA => match nth_error (rods s) i with Some d => r_attA d | None => [] end
  | AtRod i EndB => match nth_error (rods s) i with Some d => r_attB d | None => [] end
  end.
(** position and velocity of a place *)
Definition kin_at (s : net) (pl : place) : option kin :=
  match pl with
  | AtPoint i => option_map p_kin (nth_error (points s) i)
  | AtRod i EndA => option_map r_kinA (nth_error (rods s) i)
  | AtRod i EndB => option_map r_kinB (nth_error (rods s) i)
  end.
(** lines seen by the time step restriction of an object *)
Definition kids_at (s : net) (pl : place) : list nat :=
  match pl with
  | AtPoint i => match nth_error (points s) i with Some p => p_kids p | None => [] end
  | AtRod i _ => match nth_error (rods s) i with Some d => r_kids d | None => [] end
  end.
Definition times (s : net) (pl : place) (a : att) := count_occ att_dec (atts s pl) a.
(** the end is listed once by one place, and by no other place *)
Definition attached_at (s : net) (a : att) (pl : place) := times s pl a = 1 /\ forall pl', pl' <> pl -> times s pl' a = 0.
(** a system with n lines: each end of each line is attached to exactly one place, and nothing
    else is attached *)
Definition consistent (n : nat) (s : net) :=
  forall l e, if l <? n then exists pl, attached_at s (l, e) pl else forall pl, times s pl (l, e) = 0.
(** the place named by a failure *)
Definition fplace (f : failure) : option place :=
  match f_rod f, f_point f with
  | Some i, None => Some (AtRod i (f_rend f))
  | None, Some i => Some (AtPoint i)
  | _, _ => None
  end.
Definition exists_at (s : net) (pl : place) := kin_at s pl <> None.
(** failures as read from the file: one existing rod end or point *)
Definition readable (s : net) (f : failure) := exists pl, fplace f = Some pl /\ exists_at s pl.
(** every attached line end is where its point or rod end is *)
Definition glued (s : net) := forall pl l e k, In (l, e) (atts s pl) -> kin_at s pl = Some k -> lkin s l e = k.
(** nothing attached yet *)
Definition bare (s : net) := forall pl, atts s pl = [].
(** same attachments, with any motion *)
Definition moved (s s' : net) := (forall pl, atts s' pl = atts s pl) /\ (forall pl, exists_at s' pl <-> exists_at s pl).
(** histories: the motion is arbitrary, and every Step handles its failures *)
Inductive history (s0 : net) (fs0 : list failure) : net -> list failure -> Prop :=
| h_start : history s0 fs0 s0 fs0
| h_motion : forall s s' fs, history s0 fs0 s fs -> moved s s' -> history s0 fs0 s' fs
| h_step : forall s fs t s' fs' r, history s0 fs0 s fs -> step_failures s fs t = (s', fs', r) -> history s0 fs0 s' fs'.
(** number of failures that have happened *)
Definition happened (fs : list failure) := length (filter f_status fs).
(** every line attached to an object limits the time step through that object *)
Definition restricts (s : net) := forall pl l e, In (l, e) (atts s pl) -> In l (kids_at s pl).
