(** Errors and outcomes.
    Models source/MoorDynAPI.h (error codes) and source/Misc.hpp l.534-643
    (exception classes, MOORDYN_THROW, MOORDYN_CATCHER). *)
From Coq Require Import ZArith List Bool.
Import ListNotations.
Open Scope Z_scope.

(** The exception classes declared by MAKE_EXCEPTION, Misc.hpp l.555-570, plus
    [ExStd] for any exception that is not one of the library's own
    (std::out_of_range, std::invalid_argument, const char*, ...). *)
Inductive exn :=
| ExInputFile | ExOutputFile | ExInput | ExNan | ExMem | ExInvalidValue
| ExNonImplemented | ExUnhandled | ExStd.

(** MoorDynAPI.h l.136-153 *)
Definition MOORDYN_SUCCESS : Z := 0.
Definition MOORDYN_INVALID_INPUT_FILE : Z := -1.
Definition MOORDYN_INVALID_OUTPUT_FILE : Z := -2.
Definition MOORDYN_INVALID_INPUT : Z := -3.
Definition MOORDYN_NAN_ERROR : Z := -4.
Definition MOORDYN_MEM_ERROR : Z := -5.
Definition MOORDYN_INVALID_VALUE : Z := -6.
Definition MOORDYN_NON_IMPLEMENTED : Z := -7.
Definition MOORDYN_UNHANDLED_ERROR : Z := -255.

(** Outcome of a modelled C++ function: a value, a thrown exception, undefined
    behaviour, or a loop that never ends. *)
Inductive outcome (A : Type) :=
| Ok (a : A)
| Throw (e : exn)
| UB
| Diverges.
Arguments Ok {A} a. Arguments Throw {A} e. Arguments UB {A}. Arguments Diverges {A}.

Definition obind {A B} (o : outcome A) (f : A -> outcome B) : outcome B :=
  match o with Ok a => f a | Throw e => Throw e | UB => UB | Diverges => Diverges end.

(** MOORDYN_THROW, Misc.hpp l.574-602. [None]: no exception. *)
Definition moordyn_throw (err : Z) : option exn :=
  if err =? MOORDYN_SUCCESS then None
  else if err =? MOORDYN_INVALID_INPUT_FILE then Some ExInputFile
  else if err =? MOORDYN_INVALID_OUTPUT_FILE then Some ExOutputFile
  else if err =? MOORDYN_INVALID_INPUT then Some ExInput
  else if err =? MOORDYN_NAN_ERROR then Some ExNan
  else if err =? MOORDYN_MEM_ERROR then Some ExMem
  else if err =? MOORDYN_INVALID_VALUE then Some ExInvalidValue
  else if err =? MOORDYN_NON_IMPLEMENTED then Some ExNonImplemented
  else Some ExUnhandled.

(** What a C function guarded by try { ... } MOORDYN_CATCHER(err, msg) shows to
    its caller. *)
Inductive c_result := Returns (code : Z) | Escapes (e : exn).

(** MOORDYN_CATCHER, Misc.hpp l.608-643: the list of catch clauses. There is no
    clause for non_implemented_error nor for foreign exceptions. *)
Definition moordyn_catcher (e : exn) : c_result :=
  match e with
  | ExInputFile => Returns MOORDYN_INVALID_INPUT_FILE
  | ExOutputFile => Returns MOORDYN_INVALID_OUTPUT_FILE
  | ExInput => Returns MOORDYN_INVALID_INPUT
  | ExNan => Returns MOORDYN_NAN_ERROR
  | ExMem => Returns MOORDYN_MEM_ERROR
  | ExInvalidValue => Returns MOORDYN_INVALID_VALUE
  | ExUnhandled => Returns MOORDYN_UNHANDLED_ERROR
  | ExNonImplemented => Escapes ExNonImplemented
  | ExStd => Escapes ExStd
  end.

(** The typical shape of a C API function: run the body, err starts as
    MOORDYN_SUCCESS (e.g. MoorDyn2.cpp MoorDyn_Init, MoorDyn_Step). *)
Definition c_guard (body : option exn) : c_result :=
  match body with None => Returns MOORDYN_SUCCESS | Some e => moordyn_catcher e end.
