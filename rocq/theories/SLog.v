(** Specification of the log: where every message of a history of calls must be found. *)
From Coq Require Import ZArith String List Bool.
From Verif Require Import MLog.
Import ListNotations.
Open Scope Z_scope.

(** the settings after a history are those of the last call that sets them *)
Fixpoint last_of {A B} (f : A -> option B) (d : B) (h : list A) : B :=
  match h with [] => d | c :: r => last_of f (match f c with Some b => b | None => d end) r end.
Definition terminal_threshold (v0 : Z) (h : list call) : Z := last_of (fun c => match c with CSetVerbosity v => Some v | _ => None end) v0 h.
Definition file_threshold (v0 : Z) (h : list call) : Z := last_of (fun c => match c with CSetLogLevel v => Some v | _ => None end) v0 h.
(** the open file *)
Definition current_file (openable : string -> bool) (h : list call) : option string :=
  last_of (fun c => match c with CSetLogFile p => Some (if openable p then Some p else None) | _ => None end) None h.

(** the text that the i-th call of h adds to the messages selected by [sel] *)
Definition text_of (sel : list call -> Z -> bool) (h : list call) (i : nat) : list string :=
  match nth_error h i with Some (CLog level m) => if sel (firstn i h) level then m else [] | _ => [] end.
(** all texts from call a to call b excluded *)
Definition texts (sel : list call -> Z -> bool) (h : list call) (a n : nat) : list string := concat (map (text_of sel h) (seq a n)).

Definition on_stdout (v0 : Z) (h : list call) (level : Z) : bool := (terminal_threshold v0 h <=? level) && (level <? 3).
Definition on_stderr (v0 : Z) (h : list call) (level : Z) : bool := (terminal_threshold v0 h <=? level) && (3 <=? level).
Definition in_file (openable : string -> bool) (v0 : Z) (p : string) (h : list call) (level : Z) : bool :=
  (file_threshold v0 h <=? level) && match current_file openable h with Some q => String.eqb q p | None => false end.
(** p was (re)created by call a of h and not again since *)
Definition created (p : string) (h : list call) (a : nat) : Prop :=
  nth_error h a = Some (CSetLogFile p) /\ forall i, (a < i)%nat -> nth_error h i <> Some (CSetLogFile p).
