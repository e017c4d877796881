(** Properties C11, C12, C13: splitting, trimming and channel names. *)
From Coq Require Import List Ascii String ZArith Bool.
From Verif Require Import MStr PStr.
Import ListNotations.
Local Notation "'txt' s" := (list_ascii_of_string s) (at level 9, only parsing).

(** ** C11 *)

(** Whatever the number of separators before, between and after the words, the
    words come back in order. *)
Theorem C11_split_returns_the_words : forall sep lead ws,
  well_separated sep ws ->
  split_sep (repeat sep lead ++ layout sep ws) sep = map fst ws.
Proof. exact split_sep_complete. Qed.
Print Assumptions C11_split_returns_the_words.

(** Every text is of that form. *)
Theorem C11_every_text_is_a_layout : forall sep s, exists lead ws,
  well_separated sep ws /\ s = repeat sep lead ++ layout sep ws.
Proof. exact layout_exists. Qed.
Print Assumptions C11_every_text_is_a_layout.
Example C11_ex : well_separated space [(txt "ab", 3); (txt "c", 0)]
  /\ split_sep (txt "  ab   c") space = [txt "ab"; txt "c"].
Proof. split; [|reflexivity]. 
  cbn. unfold is_word, space. cbn. repeat split; try discriminate; try (intros; Lia.lia);
  intros H; repeat destruct H as [H|H]; try discriminate H; try contradiction; now elim H. Qed.

(** A line whose words are separated by spaces only, or by tabs only, splits into its words. *)
Theorem C11_split_line_spaces_partial : forall lead ws,
  well_separated space ws -> (forall w, In w (map fst ws) -> ~ In tab w) ->
  split (repeat space lead ++ layout space ws) = map fst ws.
Proof. exact split_spaces. Qed.
Print Assumptions C11_split_line_spaces_partial.
Theorem C11_split_line_tabs_partial : forall lead ws,
  well_separated tab ws -> (forall w, In w (map fst ws) -> ~ In space w) ->
  split (repeat tab lead ++ layout tab ws) = map fst ws.
Proof. exact split_tabs. Qed.
Print Assumptions C11_split_line_tabs_partial.
Example C11_line_ex : split (txt "1 Free 0.0") = [txt "1"; txt "Free"; txt "0.0"].
Proof. reflexivity. Qed.

(** Finding: with tabs and spaces mixed on a line, two columns are glued together. *)
Theorem C11_mixed_blanks_refuted : exists a b c : str,
  (forall w, In w [a; b; c] -> w <> [] /\ ~ In space w /\ ~ In tab w) /\
  split (a ++ [tab] ++ b ++ [space] ++ c) <> [a; b; c].
Proof.
  exists (txt "a"), (txt "b"), (txt "c"). split; [|vm_compute; discriminate].
  intros w [<-|[<-|[<-|[]]]]; cbn; repeat split; try discriminate; intuition discriminate.
Qed.
Print Assumptions C11_mixed_blanks_refuted.

(** ** C12 *)

(** Trimming removes a run of white space from the end and leaves no more to
    remove. *)
Theorem C12_rtrim : forall s, exists blanks,
  s = rtrim s ++ blanks /\ forallb is_space blanks = true /\
  (rtrim s = [] \/ exists p c, rtrim s = p ++ [c] /\ is_space c = false).
Proof. exact rtrim_spec. Qed.
Print Assumptions C12_rtrim.

Theorem C12_rtrim_unique : forall s t b,
  s = t ++ b -> forallb is_space b = true ->
  (t = [] \/ exists p c, t = p ++ [c] /\ is_space c = false) -> rtrim s = t.
Proof. exact rtrim_unique. Qed.
Print Assumptions C12_rtrim_unique.
Example C12_ex : rtrim (txt " a b  " ++ [tab; cr]) = txt " a b".
Proof. reflexivity. Qed.

(** white space is exactly: tab, line feed, vertical tab, form feed, carriage
    return and space *)
Theorem C12_is_space : forall c, is_space c = true <->
  In (N_of_ascii c) [9; 10; 11; 12; 13; 32]%N.
Proof. exact is_space_codes. Qed.
Print Assumptions C12_is_space.

(** Files with Windows line ends are read as files with Unix line ends. *)
Theorem C12_lines_unix : forall lines, (forall l, In l lines -> ~ In newline l) ->
  file_to_lines (file_of [newline] lines) = map rtrim lines.
Proof. exact file_to_lines_lf. Qed.
Print Assumptions C12_lines_unix.
Theorem C12_lines_windows : forall lines, (forall l, In l lines -> ~ In newline l) ->
  file_to_lines (file_of [cr; newline] lines) = map rtrim lines.
Proof. exact file_to_lines_crlf. Qed.
Print Assumptions C12_lines_windows.
Example C12_lines_ex :
  file_to_lines (txt "a " ++ [cr; newline] ++ [cr; newline] ++ txt "b") = [txt "a"; []; txt "b"].
Proof. reflexivity. Qed.

(** ** C13 *)

(** The groups concatenate to the upper-cased name, hold only characters of
    their class (other characters such as '_' stay with the group they follow)
    and start with a character of their class; there is exactly one such
    decomposition. The return value is -1 exactly when the name has no digit. *)
Theorem C13_decompose : forall w l1 n1 l2 n2 l3,
  decomposition (upper w) l1 n1 l2 n2 l3 <->
  (d_let1 (decomposeString w), d_num1 (decomposeString w), d_let2 (decomposeString w),
   d_num2 (decomposeString w), d_let3 (decomposeString w)) = (l1, n1, l2, n2, l3).
Proof. exact decompose_iff. Qed.
Print Assumptions C13_decompose.

Theorem C13_return_value : forall w,
  d_ret (decomposeString w) = (if existsb is_digit w then 0%Z else (-1)%Z).
Proof. exact decompose_ret. Qed.
Print Assumptions C13_return_value.

Example C13_ex : let d := decomposeString (txt "Line12n3px") in
  (d_let1 d, d_num1 d, d_let2 d, d_num2 d, d_let3 d, d_ret d)
  = (txt "LINE", txt "12", txt "N", txt "3", txt "PX", 0%Z).
Proof. reflexivity. Qed.
Example C13_ex_fairten : let d := decomposeString (txt "FairTen2") in
  (d_let1 d, d_num1 d, d_let2 d, d_ret d) = (txt "FAIRTEN", txt "2", [], 0%Z).
Proof. reflexivity. Qed.
