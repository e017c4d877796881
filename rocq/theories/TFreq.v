(** C122: the file of wave frequencies. *)
From Coq Require Import String Ascii List Arith Reals Lra Lia.
From Verif Require Import MErr MStr PStr MOut MFreq SFreq PFreq.
Import ListNotations.
Open Scope R_scope.

(** A file of at least two lines of three or four numbers, separated by spaces, with the line ends of Unix or Windows, gives exactly
    its components in order; the waves are made from them if the first frequency is 0. *)
Theorem C122_components : forall stod eol lines ks, eol = [newline] \/ eol = [cr; newline] -> (2 <= length lines)%nat ->
  Forall2 (fun l k => exists words, writes l words /\ describes stod words k) lines ks ->
  spectrum_from_file stod (Some (file_of eol lines)) = Ok ks /\
  wave_components stod (Some (file_of eol lines)) = match ks with k :: _ => if Req_EM_T (k_omega k) 0 then Ok ks else Throw ExInvalidValue | [] => UB end.
Proof. exact file_components. Qed.
Print Assumptions C122_components.

(** Every other outcome is an error: the functions always end with at least two components or one of two errors, whatever the file. *)
Theorem C122_total : forall stod, (forall w, (exists x, stod w = Ok x) \/ no_number stod w) -> forall contents,
  (exists ks, wave_components stod contents = Ok ks /\ (2 <= length ks)%nat) \/ wave_components stod contents = Throw ExInputFile \/ wave_components stod contents = Throw ExInvalidValue.
Proof. exact file_total. Qed.
Print Assumptions C122_total.

(** Lines with fewer than three words, with words that are no numbers or with directions beyond a turn are reported, wherever they are. *)
Theorem C122_errors_partial : forall stod, (forall w, (exists x, stod w = Ok x) \/ no_number stod w) -> forall eol lines l words,
  eol = [newline] \/ eol = [cr; newline] -> (forall l, In l lines -> exists words, writes l words) -> In l lines -> writes l words -> wrong stod words ->
  wave_components stod (Some (file_of eol lines)) = Throw ExInputFile.
Proof. exact file_wrong. Qed.
Print Assumptions C122_errors_partial.

(** REFUTED for lines of five words or more: they are read without an error, and the direction is 0, whatever the fourth word says. *)
Theorem C122_fifth_word_refuted : forall stod line a b c d e rest w re im, writes line (a :: b :: c :: d :: e :: rest) ->
  stod a = Ok w -> stod b = Ok re -> stod c = Ok im -> spectrum_line stod line = Ok (Component w re im 0).
Proof. exact fifth. Qed.
Print Assumptions C122_fifth_word_refuted.

Definition few_numbers (w : str) : outcome R := if str_eqb w (ot "0") then Ok 0 else if str_eqb w (ot "1.5") then Ok 1.5 else Throw ExStd.
Ltac line_case l := split; [cbn; intuition discriminate|split; [reflexivity|]]; exists 0%nat, l; cbn; unfold is_word, space; cbn; repeat split; try discriminate; try (intros; lia); intros;
  repeat match goal with H : _ \/ _ |- _ => destruct H | H : False |- _ => contradiction H end; subst; try discriminate; cbn; unfold tab; try (intuition discriminate).
Example C122_case_line : writes (ot "0 0  0") [ot "0"; ot "0"; ot "0"].
Proof. line_case [(ot "0", 1%nat); (ot "0", 2%nat); (ot "0", 0%nat)]. Qed.
Example C122_case_four : writes (ot "1.5 0 0 1.5") [ot "1.5"; ot "0"; ot "0"; ot "1.5"].
Proof. line_case [(ot "1.5", 1%nat); (ot "0", 1%nat); (ot "0", 1%nat); (ot "1.5", 0%nat)]. Qed.
Example C122_case_five : writes (ot "1.5 0 0 x x") [ot "1.5"; ot "0"; ot "0"; ot "x"; ot "x"].
Proof. line_case [(ot "1.5", 1%nat); (ot "0", 1%nat); (ot "0", 1%nat); (ot "x", 1%nat); (ot "x", 0%nat)]. Qed.
Example C122_case_file : Forall2 (fun l k => exists words, writes l words /\ describes few_numbers words k) [ot "0 0  0"; ot "1.5 0 0 1.5"] [Component 0 0 0 0; Component 1.5 0 0 1.5].
Proof.
  repeat constructor; eexists; (split; [first [exact C122_case_line|exact C122_case_four]|]).
  - apply Three; reflexivity.
  - apply Four; try reflexivity. pose proof PI2_3_2. lra.
Qed.
Example C122_case_total : forall w, (exists x, few_numbers w = Ok x) \/ no_number few_numbers w.
Proof. intro w. unfold few_numbers, no_number. destruct (str_eqb w (ot "0")); [left; eexists; reflexivity|]. destruct (str_eqb w (ot "1.5")); [left; eexists; reflexivity|right; eexists; reflexivity]. Qed.
Example C122_case_wrong : wrong few_numbers [ot "0"; ot "0"; ot "x"].
Proof. apply (Word _ _ 2 (ot "x")); [lia|reflexivity|eexists; reflexivity]. Qed.
