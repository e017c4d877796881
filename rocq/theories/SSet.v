(** Specification of lines changed during the simulation: what such a line has too much or too little of. *)
From Coq Require Import Reals List Arith ZArith Bool.
From Verif Require Import MErr MVec MMat MLine MSet SLine.
Open Scope R_scope.

(** the sum over the segments on both sides of a node *)
Definition beside (N : nat) (f : nat -> R) (i : nat) : R := (if Nat.ltb i N then f i else 0) + (if Nat.ltb 0 i then f (i - 1)%nat else 0).
(** the volume of water displaced at a node by a length [dl] of line spread over the segments *)
Definition displaced (L : line) (k : wkin) (dl : R) (i : nat) : R :=
  / 2 * (PI / 4 * ldia L * ldia L * (dl / INR (lN L))) * beside (lN L) (lF L k) i.
(** the force of the accelerating water on that volume *)
Definition inertia_force (L : line) (e : envc) (k : wkin) (v : R) (q : v3) (i : nat) : v3 :=
  let a := wUd k i in let aq := vscale (dot a q) q in
  vadd (vscale (rho_w e * v * (1 + lCan L)) (vsub a aq)) (vscale (rho_w e * v * (1 + lCat L)) aq).
(** the added mass of that volume *)
Definition water_mass (L : line) (e : envc) (v : R) (q : v3) : m3 :=
  mscale (rho_w e * v) (madd (mscale (lCan L) (madd mid (mscale (-1) (outer q)))) (mscale (lCat L) (outer q))).
(** the value given last, or the one there was *)
Definition latest {A B} (f : A -> option B) (cs : list A) (d : B) : B := List.fold_left (fun a c => match f c with Some x => x | None => a end) cs d.
(** what a call sets *)
Definition len_of s := match s with SLen x => Some x | _ => None end.
Definition rate_of s := match s with SRate x => Some x | _ => None end.
Definition EA_of s := match s with SEA x => Some x | _ => None end.
Definition bends_of s := match s with SBend b => Some (if (b =? 0)%Z then 0%Z else 1%Z) | _ => None end.
Definition press_of s := match s with SPress p => Some p | _ => None end.
(** an array of pressures has one value for each node *)
Definition sized (L : line) s := match s with SPress p => length p = (lN L + 1)%nat | _ => True end.
