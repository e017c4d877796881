(** Specification of what a wave or current grid must return. *)
From Coq Require Import Reals ZArith List.
From Verif Require Import MVec MWaves SInterp SWaves.
Import ListNotations.
Open Scope R_scope.

(** tables as the code allocates them: increasing axes and one sample per node and instant *)
Definition wgrid_ok (g : wgrid) : Prop :=
  let a := wg_axes g in let nx := length (px a) in let ny := length (py a) in let nz := length (pz a) in
  axes_ok (px a) (py a) (pz a) /\ shape3 nx ny (nt a) (wg_zeta g) /\ shape4 nx ny nz (nt a) (wg_pdyn g) /\
  shape4 nx ny nz (nt a) (wg_vel g) /\ shape4 nx ny nz (nt a) (wg_acc g).
Definition cgrid_ok (g : cgrid) : Prop :=
  let a := cg_axes g in let nx := length (px a) in let ny := length (py a) in let nz := length (pz a) in
  axes_ok (px a) (py a) (pz a) /\ shape4 nx ny nz (nt a) (cg_vel g) /\ shape4 nx ny nz (nt a) (cg_acc g).

Definition frac_ok (p : place) : Prop := 0 <= snd p <= 1.
(** indices of a place *)
Definition touches (p : place) (i : nat) : Prop := i = fst (fst p) \/ i = snd (fst p).
(** the elevation everywhere above the sea bed *)
Definition afloat (g : wgrid) (bottom : R) : Prop :=
  forall i j k, (i < length (px (wg_axes g)))%nat -> (j < length (py (wg_axes g)))%nat -> (k < nt (wg_axes g))%nat -> bottom < cell3 0 (wg_zeta g) i j k.
(** the values returned are the multilinear interpolation at the place T in time *)
Definition wave_at (g : wgrid) (pos : v3) (avg bottom : R) (T : place) (out : wout) : Prop :=
  exists X Y Z s, on_axis (px (wg_axes g)) (vx pos) X /\ on_axis (py (wg_axes g)) (vy pos) Y /\
  o_zeta out = linear3 (cell3 0 (wg_zeta g)) X Y T /\
  column avg bottom (o_zeta out) (vz pos) s /\ on_axis (pz (wg_axes g)) s Z /\
  o_vel out = vlinear4 (wg_vel g) X Y Z T /\ o_acc out = vlinear4 (wg_acc g) X Y Z T /\
  o_pdyn out = linear4 (cell4 0 (wg_pdyn g)) X Y Z T.
Definition current_at (g : cgrid) (pos : v3) (T : place) (out : v3 * v3) : Prop :=
  exists X Y Z, on_axis (px (cg_axes g)) (vx pos) X /\ on_axis (py (cg_axes g)) (vy pos) Y /\ on_axis (pz (cg_axes g)) (vz pos) Z /\
  fst out = vlinear4 (cg_vel g) X Y Z T /\ snd out = vlinear4 (cg_acc g) X Y Z T.

(** times for which the number of samples fits in an unsigned int *)
Definition short (dt t : R) : Prop := t < IZR (2 ^ 32 - 1) * dt.
