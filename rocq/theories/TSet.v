(** C118: lines changed through the C interface. *)
From Coq Require Import Reals List Arith ZArith Bool Lra Lia.
From Verif Require Import MErr MVec MStateOps MMat MLine MCFL MApi MSet SLine SSet PMat PLine PLineB PSet.
Import ListNotations.
Open Scope R_scope.

(** After any sequence of settings, all of which succeed, the getters answer the values given last, the pressures and the rate are the
    ones given last, and the segments share the length evenly. *)
Theorem C118_settings : forall L EA w len cs, 0 < ldia L -> Forall (sized L) cs -> exists o, call_setters (describe L EA w len) cs = Ok o /\
  MoorDyn_GetLineUnstretchedLength (Some o) = Reply MOORDYN_SUCCESS (Some (latest len_of cs len)) /\
  MoorDyn_GetLineConstantEA (Some o) = Reply MOORDYN_SUCCESS (Some (latest EA_of cs EA)) /\
  MoorDyn_IsLinePressBend (Some o) = Reply MOORDYN_SUCCESS (Some (latest bends_of cs 0%Z)) /\
  o_rate o = latest rate_of cs 0 /\ (forall i, lpin (o_line o) i = nth i (latest press_of cs (repeat 0 (lN L + 1))) 0) /\
  (forall i, (i < lN L)%nat -> ll (o_line o) i = latest len_of cs len / INR (lN L)).
Proof. exact settings_read. Qed.
Print Assumptions C118_settings.
Example C118_settings_case : Forall (sized sunk) [SEA 5; SLen 3; SPress [1; 2]; SBend 7; SLen 4] /\ latest len_of [SEA 5; SLen 3; SPress [1; 2]; SBend 7; SLen 4] 1 = 4.
Proof. split; [repeat constructor|reflexivity]. Qed.

(** A line whose stiffness is changed has the forces and masses of the line described with the new stiffness. *)
Theorem C118_stiffness : forall L EA w len EA' o e k, MoorDyn_SetLineConstantEA (Some (describe L EA w len)) EA' = (MOORDYN_SUCCESS, Some o) ->
  line_forces (o_line o) e k = line_forces (o_line (describe L EA' w len)) e k /\ forall i, lM (o_line o) e k i = lM (o_line (describe L EA' w len)) e k i.
Proof. intros L EA w len EA' o e k H. injection H as <-. split; reflexivity. Qed.
Print Assumptions C118_stiffness.

(** A line whose length is changed, against the line described with the new length: it has forces exactly if that one has, and they
    differ by the force of the accelerating water on the volume by which the lengths differ; its masses differ by the added mass of
    that volume. So in water that does not accelerate the forces are the same. *)
Theorem C118_length_partial : forall L EA w len0 len o e k, (0 < lN L)%nat -> MoorDyn_SetLineUnstretchedLength (Some (describe L EA w len0)) len = (MOORDYN_SUCCESS, Some o) ->
  let D := o_line (describe L EA w len) in
  (line_forces (o_line o) e k = None <-> line_forces D e k = None) /\
  (forall F F' i, (i <= lN L)%nat -> line_forces (o_line o) e k = Some F -> line_forces D e k = Some F' ->
     vsub (F i) (F' i) = inertia_force L e k (displaced L k (len0 - len) i) (lq D i) i) /\
  forall i, (i <= lN L)%nat -> lM (o_line o) e k i = madd (lM D e k i) (water_mass L e (displaced L k (len0 - len) i) (lq D i)).
Proof.
  intros L EA w len0 len o e k N H D. injection H as <-. split; [apply (P_total L EA w len0 len N e k)|]. split.
  - intros F F' i Hi. apply (P_forces L EA w len0 len N); exact Hi.
  - intros i Hi. apply (P_mass L EA w len0 len N). exact Hi.
Qed.
Print Assumptions C118_length_partial.
Example C118_length_case : forall e, exists F, line_forces (o_line (describe sunk 1 1 2)) e flat_sea = Some F.
Proof. intro e. apply linear_total; reflexivity. Qed.

(** REFUTED: the masses are not those of the line described with the new length: the volume of the segments stays that of the old one. *)
Theorem C118_length_refuted : ~ (forall L EA w len0 len o e k i, (0 < lN L)%nat -> 0 < ldia L -> 0 < EA -> 0 < w -> 0 < len0 -> 0 < len -> (i <= lN L)%nat ->
  MoorDyn_SetLineUnstretchedLength (Some (describe L EA w len0)) len = (MOORDYN_SUCCESS, Some o) -> lM (o_line o) e k i = lM (o_line (describe L EA w len)) e k i).
Proof. exact mass_stale. Qed.
Print Assumptions C118_length_refuted.

(** The time step that a Courant factor allows is that of the line before the change: too long by the ratio of the old length to the
    new one, or by the root of the ratio of the new stiffness to the old one. *)
Theorem C118_time_step_partial : forall L EA w len c, (0 < lN L)%nat -> 0 < EA -> 0 < w -> 0 < len ->
  (forall len' o, 0 < len' -> MoorDyn_SetLineUnstretchedLength (Some (describe L EA w len)) len' = (MOORDYN_SUCCESS, Some o) ->
     cfl2dt c (o_cfl o) = len / len' * cfl2dt c (o_cfl (describe L EA w len'))) /\
  (forall EA' o, 0 < EA' -> MoorDyn_SetLineConstantEA (Some (describe L EA w len)) EA' = (MOORDYN_SUCCESS, Some o) ->
     cfl2dt c (o_cfl o) = sqrt (EA' / EA) * cfl2dt c (o_cfl (describe L EA' w len))).
Proof.
  intros L EA w len c N H1 H2 H3. split.
  - intros len' o H H'. injection H' as <-. apply limit_length; assumption.
  - intros EA' o H H'. injection H' as <-. apply limit_stiffness; assumption.
Qed.
Print Assumptions C118_time_step_partial.
(** REFUTED: a stiffened line is not limited to the time step of the line described with that stiffness *)
Theorem C118_time_step_refuted : ~ (forall L EA w len EA' c o, (0 < lN L)%nat -> 0 < ldia L -> 0 < EA -> 0 < EA' -> 0 < w -> 0 < len -> 0 < c ->
  MoorDyn_SetLineConstantEA (Some (describe L EA w len)) EA' = (MOORDYN_SUCCESS, Some o) -> cfl2dt c (o_cfl o) <= cfl2dt c (o_cfl (describe L EA' w len))).
Proof. exact step_stale. Qed.
Print Assumptions C118_time_step_refuted.

(** the setters refuse a NULL handle *)
Theorem C118_null : forall x b p, MoorDyn_SetLineUnstretchedLength None x = (MOORDYN_INVALID_VALUE, None) /\ MoorDyn_SetLineUnstretchedLengthVel None x = (MOORDYN_INVALID_VALUE, None) /\
  MoorDyn_SetLineConstantEA None x = (MOORDYN_INVALID_VALUE, None) /\ MoorDyn_SetLinePressBend None b = (MOORDYN_INVALID_VALUE, None) /\ MoorDyn_SetLinePressInt None p = Ok (MOORDYN_INVALID_VALUE, None).
Proof. intros. repeat split. Qed.
Print Assumptions C118_null.
