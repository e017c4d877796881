(** Properties C18, C23, C56: registration of objects in the integrator, creation of the
    schemes by name, local time steps. *)
From Coq Require Import String Ascii List Arith ZArith Bool Reals Lia Lra.
From Verif Require Import MErr MStr MStateOps MScheme MTime STime PTime.
Import ListNotations.

(** C18 *)
Theorem C18_add_partial : forall A B (z0 : A) (d0 : B) o s, aligned s -> ~ In o (ids s) -> exists s', add_obj z0 d0 o s = Ok s' /\ aligned s' /\
  ids s' = ids s ++ [o] /\ (forall k l, nth_error (ss s) k = Some l -> entry_of s' k o z0) /\
  (forall k o' a, entry_of s k o' a -> entry_of s' k o' a).
Proof. exact add_new. Qed.
Print Assumptions C18_add_partial.
Theorem C18_any_additions_partial : forall A B (z0 : A) (d0 : B) n m os, NoDup os ->
  exists s', add_all z0 d0 os (no_slots n m) = Ok s' /\ aligned s' /\ ids s' = os /\ length (ss s') = n /\ length (sd s') = m.
Proof.
  intros A B z0 d0 n m os H. destruct (add_all_ok A B z0 d0 os (no_slots n m) (empty_aligned A B n m) H (fun _ _ C => C)) as (s & E1 & E2 & E3 & E4 & E5).
  exists s. rewrite E4, E5. cbn [no_slots ss sd]. rewrite !repeat_length. repeat split; try assumption; apply E2.
Qed.
Print Assumptions C18_any_additions_partial.
Theorem C18_adding_twice_is_an_error : forall A B (z0 : A) (d0 : B) o s, In o (ids s) -> add_obj z0 d0 o s = Throw ExInvalidValue.
Proof. exact add_twice. Qed.
Print Assumptions C18_adding_twice_is_an_error.
Theorem C18_removing_unknown_is_an_error : forall A B o (s : slots A B), ~ In o (ids s) -> remove_obj o s = Throw ExInvalidValue.
Proof. exact remove_missing. Qed.
Print Assumptions C18_removing_unknown_is_an_error.
(** removal keeps the sizes right, provided that there are at least as many objects as states *)
Theorem C18_remove_partial : forall A B o (s : slots A B), aligned s -> In o (ids s) ->
  (length (ss s) <= length (ids s))%nat -> (length (sd s) <= length (ids s))%nat ->
  exists s' i, remove_obj o s = Ok (s', i) /\ nth_error (ids s) i = Some o /\ aligned s' /\ (forall o', In o' (ids s') <-> In o' (ids s) /\ o' <> o).
Proof. exact remove_sizes. Qed.
Print Assumptions C18_remove_partial.
(** but the entries left are not those of the remaining objects *)
Theorem C18_remove_keeps_wrong_entry_refuted : exists (s s' : slots nat nat), aligned s /\ remove_obj 2 s = Ok (s', 1%nat) /\ ids s' = [1%nat] /\
  entry_of s 0 1 11%nat /\ entry_of s 0 2 22%nat /\ entry_of s' 0 1 22%nat /\ ~ entry_of s' 0 1 11%nat.
Proof. exact remove_wrong_entry. Qed.
Print Assumptions C18_remove_keeps_wrong_entry_refuted.
(** and with fewer objects than states every removal erases past the end *)
Theorem C18_remove_out_of_bounds_refuted : forall A B o (s : slots A B), aligned s -> In o (ids s) -> (length (ids s) < length (ss s))%nat -> remove_obj o s = UB.
Proof. exact remove_ub. Qed.
Print Assumptions C18_remove_out_of_bounds_refuted.
Example C18_case : aligned (Slots [4; 7; 9] [[10; 20; 30]; [1; 2; 3]] [[5; 6; 7]] [true; true; true])%nat /\ In 7%nat [4; 7; 9]%nat /\
  aligned (Slots [4] [[10]; [11]] [[5]] [true])%nat.
Proof. repeat split; cbn; repeat constructor; cbn; intuition lia. Qed.

(** C23 *)
Theorem C23_plain_names : forall w c name, In (w, c) fixed_names -> lower name = stm w -> create_time_scheme name = Ok c.
Proof. exact create_fixed. Qed.
Print Assumptions C23_plain_names.
Theorem C23_numbered_names : forall w mk q ds, In (w, mk) numbered_names -> lower q = stm w -> numeral ds ->
  create_time_scheme (q ++ ds) = if (decimal ds <? 2 ^ 31)%Z then Ok (mk (Z.to_nat (decimal ds))) else Throw ExStd.
Proof. exact create_numbered. Qed.
Print Assumptions C23_numbered_names.
Theorem C23_other_names_are_errors : forall name, (forall w c, In (w, c) (fixed_names ++ local_names) -> lower name <> stm w) ->
  (forall w mk r, In (w, mk) numbered_names -> lower name <> stm w ++ r) -> create_time_scheme name = Throw ExInvalidValue.
Proof. exact create_unknown. Qed.
Print Assumptions C23_other_names_are_errors.
Theorem C23_missing_number_is_an_error : forall w mk q r, In (w, mk) numbered_names -> lower q = stm w ->
  (forall c r', r = c :: r' -> is_digit c = false /\ is_space c = false /\ c <> "-"%char /\ c <> "+"%char) ->
  create_time_scheme (q ++ r) = Throw ExInvalidValue.
Proof. exact create_no_number. Qed.
Print Assumptions C23_missing_number_is_an_error.
(** the local Adams-Bashforth names create the global variants *)
Theorem C23_local_names_refuted : forall w c name, In (w, c) local_names -> lower name = stm w ->
  exists k, c = AB k true /\ create_time_scheme name = Ok (AB k false).
Proof. exact create_local. Qed.
Print Assumptions C23_local_names_refuted.
(** a negative count is accepted, as a huge number of iterations *)
Theorem C23_negative_count_refuted : exists n, create_time_scheme (stm "beuler-1") = Ok (ImplicitEuler n 1%R) /\ Z.of_nat n = (2 ^ 32 - 1)%Z.
Proof. exact create_accepts_junk. Qed.
Print Assumptions C23_negative_count_refuted.
(** so are trailing characters *)
Theorem C23_trailing_text_refuted : create_time_scheme (stm "aca7rk4") = Ok (Newmark 7 0.5 0.25).
Proof. exact eq_refl. Qed.
Print Assumptions C23_trailing_text_refuted.
Example C23_case : lower (stm "WiLsOn") = stm "wilson" /\ numeral (stm "120") /\ decimal (stm "120") = 120%Z /\ lower (stm "RK4") = stm "rk4" /\
  create_time_scheme (stm "Rk5") = Throw ExInvalidValue.
Proof. repeat split; try discriminate; repeat constructor. Qed.

(** C56 *)
Open Scope R_scope.
(** the steps [pre] were done before the step of size [d]; m tells if the derivative is computed *)
Theorem C56_line_recomputed : forall dt_line dts pre d m post, 0 <= dt_line -> Forall (fun x => 0 <= x) dts ->
  mask_run (line_dt0 dt_line) (line_cnt dt_line) dts = pre ++ (d, m) :: post ->
  (pre = [] /\ m = true) \/
  exists a d0 b, pre = a ++ (d0, true) :: b /\ Forall (fun e => snd e = false) b /\ (m = true <-> 0.999 * dt_line <= d0 + rsuml (map fst b) + d).
Proof. exact line_mask. Qed.
Print Assumptions C56_line_recomputed.
Theorem C56_others_always_recomputed : forall dts, Forall (fun x => 0 <= x) dts -> mask_run other_dt0 other_cnt dts = map (fun d => (d, true)) dts.
Proof. exact other_mask. Qed.
Print Assumptions C56_others_always_recomputed.
Example C56_case : mask_run (line_dt0 1) (line_cnt 1) [0.4; 0.4; 0.4; 0.4] = [(0.4, true); (0.4, false); (0.4, true); (0.4, false)].
Proof.
  unfold line_dt0, line_cnt. cbn. unfold set_mask.
  repeat match goal with |- context [Rge_dec ?a ?b] => destruct (Rge_dec a b); try (exfalso; lra) end. reflexivity.
Qed.
