(** Property theorems: the log (C51). *)
From Coq Require Import ZArith String List Bool Lia.
From Verif Require Import MErr MStateOps MLog SLog PLog.
Import ListNotations.
Open Scope Z_scope.

(** after any history of calls the terminal shows exactly the messages that reached the threshold in
    force when they were issued, errors on stderr, everything else on stdout *)
Theorem C51_terminal : forall openable v0 f0 w h, let w' := snd (do_calls openable h (log_new v0 f0) w) in
  w_out w' = w_out w ++ texts (on_stdout v0) h 0 (length h) /\ w_err w' = w_err w ++ texts (on_stderr v0) h 0 (length h).
Proof. exact terminal_texts. Qed.
Print Assumptions C51_terminal.

(** a log file contains exactly the messages issued since its creation, while it was the log file, that
    reached the file threshold *)
Theorem C51_file : forall openable v0 f0 w p h a, openable p = true -> created p h a ->
  w_file (snd (do_calls openable h (log_new v0 f0) w)) p = texts (in_file openable f0 p) h a (length h - a).
Proof. exact file_texts. Qed.
Print Assumptions C51_file.

(** no other file is touched *)
Theorem C51_other_files : forall openable v0 f0 w p h, (forall i, nth_error h i = Some (CSetLogFile p) -> openable p = false) ->
  w_file (snd (do_calls openable h (log_new v0 f0) w)) p = w_file w p.
Proof. exact file_other. Qed.
Print Assumptions C51_other_files.

(** the option writeLog: nothing for values below 1, warnings and errors for 1, messages too for 2,
    everything for 3 and above *)
Theorem C51_writeLog : forall n level, DBG_LEVEL <= level < NO_OUTPUT -> (setup_level n <=? level) = (1 <=? n) && (3 - n <=? level).
Proof. exact setup_level_spec. Qed.
Print Assumptions C51_writeLog.

(** a history: a file is opened, the file threshold is raised, and another file that cannot be opened is asked for *)
Definition ok_path (p : string) : bool := String.eqb p "a.log".
Definition history : list call :=
  [CLog 1 ["hello"]; CSetLogFile "a.log"; CLog 0 ["detail"]; CSetLogLevel 2; CLog 1 ["info"]; CLog 3 ["bad "; "thing"]; CSetLogFile "/x/y"; CLog 3 ["late"]]%string.
Definition w0 : world := World [] [] (fun _ => ["old"%string]).
Example C51_case : let w' := snd (do_calls ok_path history (log_new 1 0) w0) in
  w_out w' = ["hello"; "info"]%string /\ w_err w' = ["bad "; "thing"; "late"]%string /\
  w_file w' "a.log"%string = ["detail"; "bad "; "thing"]%string /\ w_file w' "b.log"%string = ["old"%string].
Proof.
  cbv zeta. destruct (C51_terminal ok_path 1 0 w0 history) as [H1 H2]. rewrite H1, H2. split; [reflexivity|]. split; [reflexivity|]. split.
  - rewrite (C51_file ok_path 1 0 w0 "a.log" history 1); [reflexivity|reflexivity|]. split; [reflexivity|].
    intros i Hi. do 9 (destruct i as [|i]; [try lia; discriminate|]). discriminate.
  - rewrite (C51_other_files ok_path 1 0 w0 "b.log" history); [reflexivity|]. reflexivity.
Qed.
(** a failed request leaves no log file, and escapes from the C interface as an exception *)
Example C51_failed_file : fst (fst (do_call ok_path (CSetLogFile "/x/y") (log_new 1 0) w0)) = Escapes ExOutputFile.
Proof. reflexivity. Qed.
