(** Queries of a line: MoorDyn_GetLineMaxTen, source/Line.cpp l.1834-1846, on the data of MApi, and the data a line keeps after
    Line::getStateDeriv, l.772-1264, from the forces of MLine. *)
From Coq Require Import ZArith List Arith Bool Reals.
From Verif Require Import MErr MStateOps MVec MInterp MLine MApi.
Import ListNotations.
Open Scope R_scope.

(** the loop over the nodes 0 .. n-1 *)
Fixpoint max_ten (L : line_data) (n : nat) : outcome R :=
  match n with
  | O => Ok 0
  | S n' => t_max <- max_ten L n' ;; t <- line_node QTen L n' ;; let c := norm t in Ok (if Rlt_dec t_max c then c else t_max)
  end.
(** MoorDyn_GetLineMaxTen: the queries in the loop are not guarded *)
Definition MoorDyn_GetLineMaxTen (h : option line_data) : outcome (reply R) :=
  match h with
  | None => Ok (Reply MOORDYN_INVALID_VALUE None)
  | Some L => t <- max_ten L (ld_N L) ;; Ok (Reply MOORDYN_SUCCESS (Some t))
  end.

(** the data kept by a line with the segment forces [T], [Td] and the bending forces [Bs] *)
Definition data_of (number : Z) (L : line) (e : envc) (k : wkin) (T Td Bs : nat -> v3) : line_data :=
  LineData number (lN L) (lr L) (lrd L) (lFnet L e k T Td Bs) T Td Bs (lW L e k) (lDp L e k) (lDq L e k) (lAp L e k) (lAq L e k) (lB L e k).
