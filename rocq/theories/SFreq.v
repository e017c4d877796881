(** Specification of the file of wave frequencies. *)
From Coq Require Import String Ascii List Arith Reals.
From Verif Require Import MErr MStr PStr MFreq.
Import ListNotations.
Open Scope R_scope.

(** [line] consists of these words, separated by any number of spaces, without blanks at its end *)
Definition writes (line : str) (words : list str) : Prop :=
  ~ In newline line /\ rtrim line = line /\
  exists lead ws, well_separated space ws /\ (forall w, In w (map fst ws) -> ~ In tab w) /\ line = repeat space lead ++ layout space ws /\ words = map fst ws.

Section Freq.
Variable stod : str -> outcome R.
(** three words are a component of direction 0; a fourth one is its direction *)
Inductive describes : list str -> component -> Prop :=
| Three a b c w re im : stod a = Ok w -> stod b = Ok re -> stod c = Ok im -> describes [a; b; c] (Component w re im 0)
| Four a b c d w re im dir : stod a = Ok w -> stod b = Ok re -> stod c = Ok im -> stod d = Ok dir -> - (2 * PI) <= dir <= 2 * PI -> describes [a; b; c; d] (Component w re im dir).
Definition no_number (w : str) : Prop := exists e, stod w = Throw e.
(** lines that are no component *)
Inductive wrong : list str -> Prop :=
| Few l : (length l < 3)%nat -> wrong l
| Word l i w : (i < 3)%nat -> nth_error l i = Some w -> no_number w -> wrong l
| Direction a b c d : no_number d -> wrong [a; b; c; d]
| Turn a b c d dir : stod d = Ok dir -> dir < - (2 * PI) \/ 2 * PI < dir -> wrong [a; b; c; d].
End Freq.
