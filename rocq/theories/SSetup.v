(** Specification vocabulary for the options of waves and currents. *)
From Coq Require Import List Arith ZArith Bool Reals.
From Verif Require Import MErr MVec MStateOps MNodes SNodes MSetup.
Import ListNotations.
Local Open Scope Z_scope.

(** the values documented as implemented *)
Definition documented (o : options) : bool := existsb (Z.eqb (o_wave o)) [0; 1; 2; 3; 7] && existsb (Z.eqb (o_curr o)) [0; 1; 2; 5].
(** the values that are refused *)
Definition refused (o : options) : bool :=
  (o_curr o <? 0) || (5 <? o_curr o) || ((o_curr o =? 0) && negb (existsb (Z.eqb (o_wave o)) [0; 1; 2; 3; 5; 6; 7])).
Definition verdict (ndebug : bool) (o : options) : outcome fin :=
  if documented o then Ok Returned else if refused o then Throw ExInvalidValue else if ndebug then Ok Returned else Ok Aborted.

Section Flow.
Variables WG CG : Type.
Variable wfield : WG -> v3 -> R -> wkin.
Variable cfield : CG -> v3 -> R -> v3 * v3.
(** what the files hold: wave grids of options 2 and 3, the flow of option 7, currents of options 1, 2 and 5, and one grid for
    waves and current *)
Record water_files := WFiles { x_fft : WG; x_elev : WG; x_sum : v3 -> R -> wkin; x_steady : CG; x_dynamic : CG; x_4d : CG; x_both : Z -> WG -> CG -> WG }.
Definition plus (a : wkin) (b : v3 * v3) : wkin := Wk (w_zeta a) (vadd (w_u a) (fst b)) (vadd (w_ud a) (snd b)) (w_pdyn a).
Definition wave_grid (x : water_files) (wm : Z) : option WG := if wm =? 2 then Some (x_fft x) else if wm =? 3 then Some (x_elev x) else None.
Definition the_current (x : water_files) (cm : Z) : option CG := if cm =? 1 then Some (x_steady x) else if cm =? 2 then Some (x_dynamic x) else if cm =? 5 then Some (x_4d x) else None.
Definition wave_flow (x : water_files) (wm : Z) (p : v3) (t : R) : wkin :=
  match wave_grid x wm with Some g => wfield g p t | None => if wm =? 7 then x_sum x p t else wzero end.
Definition current_flow (x : water_files) (cm : Z) (p : v3) (t : R) : v3 * v3 := match the_current x cm with Some c => cfield c p t | None => (vzero, vzero) end.
(** the motion of the water that the options ask for *)
Definition motion (x : water_files) (o : options) (p : v3) (t : R) : wkin :=
  match wave_grid x (o_wave o), the_current x (o_curr o), o_unify o with
  | Some g, Some c, true => wfield (x_both x (o_curr o) g c) p t
  | _, _, _ => plus (wave_flow x (o_wave o) p t) (current_flow x (o_curr o) p t)
  end.
(** the files that the options need can be read with this depth, and hold this; nothing is said about other files *)
Definition readable (fft elev : R -> outcome WG) (comp : R -> outcome (list R * (v3 -> R -> wkin))) (st dy g4 : R -> outcome CG)
    (unify : Z -> WG -> CG -> outcome WG) (d : R) (o : options) (x : water_files) : Prop :=
  (o_wave o = 2 -> fft d = Ok (x_fft x)) /\ (o_wave o = 3 -> elev d = Ok (x_elev x)) /\
  (o_wave o = 7 -> exists ws, comp d = Ok (0%R :: ws, x_sum x)) /\
  (o_curr o = 1 -> st d = Ok (x_steady x)) /\ (o_curr o = 2 -> dy d = Ok (x_dynamic x)) /\ (o_curr o = 5 -> g4 d = Ok (x_4d x)) /\
  forall g c, o_unify o = true -> wave_grid x (o_wave o) = Some g -> the_current x (o_curr o) = Some c -> unify (o_curr o) g c = Ok (x_both x (o_curr o) g c).
(** a table without waves has no elevation and no pressure, and without currents nothing at all *)
Definition calm (o : options) (t : wtab) : Prop := forall a w, water t a = Some w ->
  (existsb (Z.eqb (o_wave o)) [2; 3; 7] = false -> w_zeta w = 0%R /\ w_pdyn w = 0%R) /\
  (existsb (Z.eqb (o_wave o)) [2; 3; 7] = false -> existsb (Z.eqb (o_curr o)) [1; 2; 5] = false -> w_u w = vzero /\ w_ud w = vzero).
End Flow.
