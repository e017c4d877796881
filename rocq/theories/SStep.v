(** Specification vocabulary for the coupling step. *)
From Coq Require Import Reals List Arith Bool ZArith.
From Verif Require Import MErr MVec MStateOps MScheme MStep.
Import ListNotations.
Open Scope R_scope.

Definition rsum0 (l : list R) : R := fold_right Rplus 0 l.
(** l is dt cut into pieces of at most dtM, all but the last one of exactly dtM; their number
    is dt/dtM rounded up *)
Definition cut (dtM dt : R) (l : list R) : Prop :=
  Forall (fun d => 0 < d <= dtM) l /\ rsum0 l = dt /\ Forall (fun d => d = dtM) (removelast l) /\
  (INR (length l) - 1) * dtM < dt <= INR (length l) * dtM.
(** one action per entry of a list *)
Fixpoint ofold {X T} (stp : X -> T -> outcome X) (l : list T) (x : X) : outcome X :=
  match l with [] => Ok x | d :: l' => x' <- stp x d ;; ofold stp l' x' end.

(** the numbers of the coupling arrays that belong to a body or rod with 6 or 3 DOF *)
Definition entries (b : cobj) (v : v6) : list R := if full b then lst6 v else lst3 (v6hd v).
(** what x and xd mean: bodies, then rods, then points *)
Definition layout {X} (e : sys X) (fo : cobj -> v6) (fp : cpt -> v3) : list R :=
  flat_map (fun b => entries b (fo b)) (e_bod X e) ++ flat_map (fun b => entries b (fo b)) (e_rod X e) ++ flat_map (fun p => lst3 (fp p)) (e_pts X e).
Definition total_dof {X} (e : sys X) : nat := list_sum (map dof (e_bod X e)) + list_sum (map dof (e_rod X e)) + 3 * length (e_pts X e).
Definition pinned_bodies {X} (e : sys X) : nat := length (filter (fun b => negb (full b)) (e_bod X e)).
(** the imposed position of a coupled object after a time *)
Definition moved_to (time : R) (b : cobj) : Prop :=
  entries b (c_pos b) = map (fun p => fst p + time * snd p) (combine (entries b (r_ves b)) (entries b (rd_ves b))) /\
  entries b (c_vel b) = entries b (rd_ves b).
Definition moved_to_p (time : R) (p : cpt) : Prop := p_r p = vadd (p_rves p) (vscale time (p_rdves p)) /\ p_rd p = p_rdves p.

(** a line with equal segments *)
Definition even (p : pline) : Prop := Forall (fun s => s = u_len p / INR (length (u_seg p))) (u_seg p).
(** p' is p after paying out for a time dt *)
Definition paid (dt : R) (p p' : pline) : Prop :=
  u_len p' = u_len p + dt * u_vel p /\ u_vel p' = u_vel p /\ length (u_seg p') = length (u_seg p) /\ (even p -> even p').

(** a multiple of dtOut in (t - dt, t] *)
Definition interval_end (dtOut t dt : R) : Prop := exists k : Z, t - dt < IZR k * dtOut <= t.
(** times at the beginning and the end of step i *)
Definition time_at (t0 : R) (dts : list R) (i : nat) : R := t0 + rsum0 (firstn i dts).
