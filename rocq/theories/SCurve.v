(** Specification vocabulary for curve files *)
From Coq Require Import Ascii List.
From Verif Require Import MStr.
Import ListNotations.
(** lines joined by newlines, without a final one *)
Fixpoint join (ls : list str) : str := match ls with [] => [] | [l] => l | l :: ls' => l ++ newline :: join ls' end.
