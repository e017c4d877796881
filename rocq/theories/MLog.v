(** The logger: source/Log.hpp, source/Log.cpp, MoorDyn2.hpp l.644-677 and the log functions of the C
    API, MoorDyn2.cpp l.2360-2391.
    Simplifications: a message is the list of the pieces inserted with <<; whether a file can be created
    depends on its path alone (oracle [openable]); streams never fail once open. *)
From Coq Require Import ZArith String List Bool.
From Verif Require Import MErr MStateOps.
Import ListNotations.
Open Scope Z_scope.

(** MoorDynAPI.h l.110-128 *)
Definition DBG_LEVEL : Z := 0.
Definition MSG_LEVEL : Z := 1.
Definition WRN_LEVEL : Z := 2.
Definition ERR_LEVEL : Z := 3.
Definition NO_OUTPUT : Z := 4096.

(** the terminal stream MultiStream points to, Log.hpp l.126-127 *)
Inductive sink := Cnul | Cout | Cerr.
(** Log and its MultiStream, Log.hpp l.120-128, 208-214; [l_fout] is the path of the open ofstream *)
Record log := Log { l_verb : Z; l_fverb : Z; l_fpath : string; l_fout : option string; l_fen : bool; l_term : sink }.
(** what can be observed: the two terminal streams and the files *)
Record world := World { w_out : list string; w_err : list string; w_file : string -> list string }.

(** Log::Log, Log.cpp l.99-108, and MultiStream::MultiStream, l.76-81 *)
Definition log_new (verbosity file_level : Z) : log := Log verbosity file_level "" None false Cnul.

Section Log.
Variable openable : string -> bool.

Definition append_file (w : world) (p s : string) : world :=
  World (w_out w) (w_err w) (fun q => if String.eqb q p then w_file w q ++ [s] else w_file w q).
(** operator<<, Log.hpp l.112-118 and 132-140 *)
Definition put (l : log) (w : world) (s : string) : world :=
  let w := if l_fen l then match l_fout l with Some p => append_file w p s | None => w end else w in
  match l_term l with
  | Cnul => w
  | Cout => World (w_out w ++ [s]) (w_err w) (w_file w)
  | Cerr => World (w_out w) (w_err w ++ [s]) (w_file w)
  end.
(** Log::Cout, Log.cpp l.115-131 *)
Definition log_cout (level : Z) (l : log) : log :=
  let t := if level <? l_verb l then Cnul else if ERR_LEVEL <=? level then Cerr else Cout in
  let e := negb (level <? l_fverb l) in
  Log (l_verb l) (l_fverb l) (l_fpath l) (l_fout l) e t.
(** MultiStream::SetFile and Log::SetFile, Log.cpp l.89-98, 139-148: the former file is closed, the new
    one truncated *)
Definition log_setFile (p : string) (l : log) (w : world) : outcome unit * log * world :=
  if openable p
  then (Ok tt, Log (l_verb l) (l_fverb l) p (Some p) (l_fen l) (l_term l),
        World (w_out w) (w_err w) (fun q => if String.eqb q p then [] else w_file w q))
  else (Throw ExOutputFile, Log (l_verb l) (l_fverb l) (l_fpath l) None (l_fen l) (l_term l), w).

(** one message: the stream is obtained and every piece is inserted, Log.hpp l.56-69 *)
Definition log_message (level : Z) (m : list string) (l : log) (w : world) : log * world :=
  let l := log_cout level l in (l, fold_left (put l) m w).

(** calls of the C API with a valid system: MoorDyn_SetVerbosity, MoorDyn_SetLogLevel,
    MoorDyn_SetLogFile, MoorDyn_Log (MoorDyn2.cpp l.2360-2391), and messages of the library *)
Inductive call := CSetVerbosity (v : Z) | CSetLogLevel (v : Z) | CSetLogFile (p : string) | CLog (level : Z) (m : list string).
(** the result seen by the caller: MoorDyn_SetLogFile does not catch the exception *)
Definition do_call (c : call) (l : log) (w : world) : c_result * log * world :=
  match c with
  | CSetVerbosity v => (Returns MOORDYN_SUCCESS, Log v (l_fverb l) (l_fpath l) (l_fout l) (l_fen l) (l_term l), w)
  | CSetLogLevel v => (Returns MOORDYN_SUCCESS, Log (l_verb l) v (l_fpath l) (l_fout l) (l_fen l) (l_term l), w)
  | CSetLogFile p =>
      let '(r, l, w) := log_setFile p l w in
      (match r with Throw e => Escapes e | _ => Returns MOORDYN_SUCCESS end, l, w)
  | CLog level m => let '(l, w) := log_message level m l w in (Returns MOORDYN_SUCCESS, l, w)
  end.
Definition do_calls (h : list call) (l : log) (w : world) : log * world :=
  fold_left (fun s c => let '(_, l, w) := do_call c (fst s) (snd s) in (l, w)) h (l, w).

(** MoorDyn::SetupLog, MoorDyn2.hpp l.644-677: the level asked for with the option writeLog *)
Definition setup_level (writeLog : Z) : Z :=
  let lv := ERR_LEVEL - writeLog in
  let lv := if ERR_LEVEL <=? lv then NO_OUTPUT else lv in
  if lv <? DBG_LEVEL then DBG_LEVEL else lv.
End Log.
