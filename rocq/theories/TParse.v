(** Properties of reading the input file. *)
From Coq Require Import String Ascii List Arith ZArith Bool Reals Lia Lra.
From Verif Require Import MErr MStr MVec MStateOps MBody MCurve MDetach MParse SParse PParse PParse2 PParse3 PParse4.
From Verif Require MTime MScheme.
Import ListNotations.
Local Open Scope nat_scope.

Section Props.
(** the C and C++ libraries and the file system *)
Variable atof : str -> R.
Variable stof : str -> option R.
Variable stold : str -> stold_res.
Variable opened : str -> option str.
Variable basepath : str.
Variable can_create : nat -> Z -> bool.
Variable setup_log : Z -> Z.
Variable floor_setup : str -> outcome unit.
Notation read_with' := (read_with atof stof stold opened basepath can_create setup_log floor_setup).
Notation read_file' := (read_file atof stof stold opened basepath can_create setup_log floor_setup).
Notation create' := (create atof stof stold opened basepath can_create setup_log floor_setup).

(** C47, when every section is followed by a line with dashes: whatever lies beyond the last
    line, what is read is the same. Missing: files that end otherwise. *)
Theorem C47_closed_partial t get : all_closed t -> reads t get -> read_with' get t = read_file' t.
Proof. exact (closed_inside atof stof stold opened basepath can_create setup_log floor_setup t get). Qed.
(** without such a line after the options, a line beyond the end is accessed *)
Theorem C47_options_refuted t i : header_at t ["OPTIONS"%string] i -> (forall l, In l (skipn (i + 1) t) -> ~ dashed l) ->
  (forall l v n r, In l (skipn (i + 1) t) -> split_sep l space = v :: n :: r -> n <> tx "writeLog") -> read_file' t = UB.
Proof. exact (open_options_ub atof stof stold opened basepath can_create setup_log floor_setup t i). Qed.

(** C58, half of it: the number is twice that of the degrees of freedom, as an unsigned int.
    Missing: that this is the number of entries of the state. *)
Theorem C58_count_partial t s : read_file' t = Ok (inl s) -> s_nX s = u32 (2 * dof s).
Proof. exact (read_counted atof stof stold opened basepath can_create setup_log floor_setup t s). Qed.

(** C85: errors of these kinds of files are all reported *)
Theorem C85_reported_partial t : (forall v, setup_log v = MOORDYN_SUCCESS \/ known (setup_log v)) -> all_closed t ->
  (forall keys, In keys [["RODS"; "ROD LIST"; "ROD PROPERTIES"]; ["FAILURE"]; ["OUTPUT"]]%string -> forall i, ~ header_at t keys i) ->
  (forall l, In l t -> harmless l) -> (forall l, In l t -> short_body l) -> exists r, create' t = Ok r.
Proof. exact (create_well atof stof stold opened basepath can_create setup_log floor_setup t). Qed.

(** C86: what is read refers to things that exist *)
Theorem C86_references t s : read_file' t = Ok (inl s) -> sound s.
Proof. exact (read_sound atof stof stold opened basepath can_create setup_log floor_setup t s). Qed.
(** and there is one object for each row, in that order, with the values of the row *)
Theorem C86_tables t s : read_file' t = Ok (inl s) ->
  table t ["BODIES"; "BODY LIST"; "BODY PROPERTIES"]%string 3 (body_row atof) (s_bodies s) /\
  table t ["POINTS"; "POINT LIST"; "POINT PROPERTIES"; "CONNECTION PROPERTIES"; "NODE PROPERTIES"]%string 3 (point_row atof) (s_points s) /\
  table t ["RODS"; "ROD LIST"; "ROD PROPERTIES"]%string 3 (rod_row atof (s_rprops s)) (s_rods s) /\
  table t ["LINES"; "LINE LIST"; "LINE PROPERTIES"]%string 3 (line_row atof (s_lprops s)) (s_lines s).
Proof. exact (read_tables atof stof stold opened basepath can_create setup_log floor_setup t s). Qed.

(** C87: nothing but the rows of the sections matters *)
Theorem C87_rows_only t u : (forall keys skip, In (keys, skip) all_sections -> same_section t u keys skip) -> read_file' t = read_file' u.
Proof. exact (same_sections atof stof stold opened basepath can_create setup_log floor_setup t u). Qed.
(** text before the sections, none of which looks like a header *)
Theorem C87_front_matter_partial front t : (forall keys skip l, In (keys, skip) all_sections -> In l front -> ~ is_header keys l) -> read_file' (front ++ t) = read_file' t.
Proof. exact (front_matter atof stof stold opened basepath can_create setup_log floor_setup front t). Qed.

(** C48 for one and two values *)
Theorem C48_one_or_two_partial l s s' vs : row_body atof can_create l s = Ok (inl s') -> map atof (split_sep (field l 12) "|") = vs -> length vs <= 2 ->
  exists b, s_bodies s' = s_bodies s ++ [b] /\ documented_CdA vs = Some (bi_CdA b).
Proof.
  intros H E L. destruct (row_CdA atof can_create l s s' vs H E) as (b & B & C). exists b. split; [exact B|]. rewrite C. revert H E. unfold row_body, field.
  destruct (_ <? 14); [discriminate|]. destruct (one_or_three _ _ _); [|discriminate]. destruct (one_or_three _ _ _); [|discriminate]. destruct (read_CdA _ _) eqn:X; [|discriminate]. intros _.
  unfold read_CdA, ent in X. destruct (split_sep _ "|") as [|a [|b' [|c w]]]; try discriminate; intros <-; try reflexivity. cbn [map length] in L. lia.
Qed.
(** of three or six values the first is lost *)
Theorem C48_three_refuted l s s' a b c : row_body atof can_create l s = Ok (inl s') -> map atof (split_sep (field l 12) "|") = [a; b; c] -> a <> 0%R ->
  exists x, s_bodies s' = s_bodies s ++ [x] /\ bi_CdA x = [0; b; c; 0; b; c]%R /\ documented_CdA [a; b; c] <> Some (bi_CdA x).
Proof.
  intros H E N. destruct (row_CdA atof can_create l s s' _ H E) as (x & B & C). exists x. split; [exact B|]. split; [exact C|]. rewrite C. cbn. intro X. injection X as X _. exact (N X).
Qed.
Theorem C48_six_refuted l s s' a b c d e f : row_body atof can_create l s = Ok (inl s') -> map atof (split_sep (field l 12) "|") = [a; b; c; d; e; f] -> a <> 0%R ->
  exists x, s_bodies s' = s_bodies s ++ [x] /\ bi_CdA x = [0; b; c; d; e; f]%R /\ documented_CdA [a; b; c; d; e; f] <> Some (bi_CdA x).
Proof.
  intros H E N. destruct (row_CdA atof can_create l s s' _ H E) as (x & B & C). exists x. split; [exact B|]. split; [exact C|]. rewrite C. cbn. intro X. injection X as X. exact (N X).
Qed.
End Props.
Print Assumptions C47_closed_partial.
Print Assumptions C47_options_refuted.
Print Assumptions C58_count_partial.
Print Assumptions C85_reported_partial.
Print Assumptions C86_references.
Print Assumptions C86_tables.
Print Assumptions C87_rows_only.
Print Assumptions C87_front_matter_partial.
Print Assumptions C48_one_or_two_partial.
Print Assumptions C48_three_refuted.
Print Assumptions C48_six_refuted.

(** a file with one option reads beyond its end *)
Theorem C47_refuted : exists t get, reads t get /\ try_read t <> read_with zero_of (fun _ => None) (fun _ => StNum 0%R) (fun _ => None) [] (fun _ _ => true) (fun _ => 0%Z) (fun _ => Ok tt) get t.
Proof.
  exists (lines_of ["--- OPTIONS ---"; "9.81 g"]%string), (fun i => match i with 0 => Ok (tx "--- OPTIONS ---") | 1 => Ok (tx "9.81 g") | _ => Ok (tx "---") end). split.
  - intros [|[|i]] l; cbn [lines_of map nth_error]; [intro H; injection H as <-; reflexivity|intro H; injection H as <-; reflexivity|]. destruct i; discriminate.
  - discriminate.
Qed.
Print Assumptions C47_refuted.
(** a free body is 12 numbers for the reader and 13 for the integrator *)
Theorem C58_refuted : exists t s, try_read t = Ok (inl s) /\ s_nX s <> numbers s.
Proof. destruct try_good as (s & H & _ & _ & _ & A & B). exists good_file, s. split; [exact H|]. rewrite A, B. discriminate. Qed.
Print Assumptions C58_refuted.
(** a rod row with too few fields, a failure row with four fields, and the tension of a line that
    does not exist are undefined behaviour; a wrong word in an option ends the calling program *)
Theorem C85_rod_refuted : try_create short_rod_file = UB. Proof. exact try_short_rod. Qed.
Print Assumptions C85_rod_refuted.
Theorem C85_failure_refuted : try_create short_fail_file = UB. Proof. exact try_short_fail. Qed.
Print Assumptions C85_failure_refuted.
Theorem C85_channel_refuted : try_create missing_line_file = UB. Proof. exact try_missing_line. Qed.
Print Assumptions C85_channel_refuted.
Theorem C85_option_refuted : try_create bad_option_file = Throw ExStd. Proof. exact try_bad_option. Qed.
Print Assumptions C85_option_refuted.
(** the numbers of the rows are not used: a line is attached to another point than it says *)
Theorem C86_numbers_refuted : exists t s l p, try_read t = Ok (inl s) /\ s_lines s = [l] /\ rows_are t ["LINES"; "LINE LIST"; "LINE PROPERTIES"]%string 3 [tx "1 chain 1 2 100 10 -"] /\
  li_a l = AtPoint 0 /\ nth_error (s_points s) 0 = Some p /\ pi_number p = 2%Z.
Proof.
  destruct try_swapped as (s & l & p & A & B & C & D & E). exists swapped_file, s, l, p. repeat (split; [assumption|]). split; [|split; [exact C|split; assumption]].
  exists 9, (tx "--- end ---"), []. assert (X : find_start swapped_file ["LINES"; "LINE LIST"; "LINE PROPERTIES"]%string 3 = Some 12) by reflexivity.
  apply find_start_iff in X as (j & Hj & E'). assert (j = 9) as -> by lia. split; [exact Hj|]. split; [reflexivity|]. split; [apply dashes_iff; reflexivity|].
  intros r [<-|[]]. rewrite <- dashes_iff. discriminate.
Qed.
Print Assumptions C86_numbers_refuted.
(** a title with dashes is taken for a header *)
Theorem C87_title_refuted : exists s e, try_read good_file = Ok (inl s) /\ try_read (tx "--- the mooring lines ---" :: good_file) = Ok (inr e).
Proof. destruct try_good as (s & H & _). exists s, MOORDYN_INVALID_INPUT. split; [exact H|]. unfold try_read. cbv -[Rlt_dec Ropp IZR]. reflexivity. Qed.
Print Assumptions C87_title_refuted.
(** a second section of the same kind is ignored *)
Theorem C87_second_section_refuted : exists s, try_read two_sections = Ok (inl s) /\ length (s_bodies s) = 1.
Proof. eexists. split; reflexivity. Qed.
Print Assumptions C87_second_section_refuted.

(** the hypotheses are met by ordinary files *)
Example C47_closed_case : all_closed good_file. Proof. apply closedb_ok. reflexivity. Qed.
Example C47_options_case : let t := lines_of ["--- OPTIONS ---"; "9.81 g"]%string in header_at t ["OPTIONS"%string] 0 /\ forall l, In l (skipn 1 t) -> ~ dashed l.
Proof.
  cbv zeta. split.
  - assert (X : find_start (lines_of ["--- OPTIONS ---"; "9.81 g"]%string) ["OPTIONS"%string] 1 = Some 1) by reflexivity. apply find_start_iff in X as (j & H & E). assert (j = 0) as -> by lia. exact H.
  - intros l [<-|[]]. rewrite <- dashes_iff. discriminate.
Qed.
Example C85_reported_case : all_closed good_file /\ (forall keys, In keys [["RODS"; "ROD LIST"; "ROD PROPERTIES"]; ["FAILURE"]; ["OUTPUT"]]%string -> forall i, ~ header_at good_file keys i) /\
  (forall l, In l good_file -> harmless l) /\ (forall l, In l good_file -> short_body l).
Proof.
  split; [apply closedb_ok; reflexivity|]. split; [intros keys [<-|[<-|[<-|[]]]]; apply absentb_ok; reflexivity|]. split.
  - intros l I. apply harmlessb_ok. assert (X : forallb harmlessb good_file = true) by reflexivity. rewrite forallb_forall in X. auto.
  - intros l I. apply shortb_ok. assert (X : forallb shortb good_file = true) by reflexivity. rewrite forallb_forall in X. auto.
Qed.
Example C86_case : exists s, try_read good_file = Ok (inl s) /\ length (s_lines s) = 1. Proof. destruct try_good as (s & H & _ & _ & L & _). now exists s. Qed.
Example C87_case : try_read good_file = try_read other_order.
Proof. unfold try_read. cbv -[Rlt_dec Ropp IZR]. reflexivity. Qed.
Example C87_front_case : forall keys skip l, In (keys, skip) all_sections -> In l (lines_of ["Mooring lines of a platform"; "--- made by hand ---"]%string) -> ~ is_header keys l.
Proof.
  intros keys skip l I J H. apply header_iff in H.
  assert (X : forallb (fun k => forallb (fun l => negb (dashes l && has (upper l) (map tx (fst k)))) (lines_of ["Mooring lines of a platform"; "--- made by hand ---"]%string)) all_sections = true) by reflexivity.
  rewrite forallb_forall in X. specialize (X _ I). rewrite forallb_forall in X. specialize (X _ J). cbn [fst] in X. rewrite H in X. discriminate.
Qed.
Example C48_case : exists s', row_body one_of (fun _ _ => true) (body_row_text "4|5|6") no_sys = Ok (inl s') /\ map one_of (split_sep (field (body_row_text "4|5|6") 12) "|") = [1; 1; 1]%R.
Proof. eexists. split; reflexivity. Qed.
Example C48_one_case : exists s', row_body one_of (fun _ _ => true) (body_row_text "4") no_sys = Ok (inl s') /\ map one_of (split_sep (field (body_row_text "4") 12) "|") = [1]%R.
Proof. eexists. split; reflexivity. Qed.
