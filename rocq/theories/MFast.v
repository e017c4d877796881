(** The tensions of a line for FAST v7: Line::getFASTtens, source/Line.hpp l.667-676, which MoorDyn_GetFASTtens
    (MoorDyn2.cpp l.2607-2630, see MApi) calls for every line. Simplification: the results are floats in the code, exact
    reals here. *)
From Coq Require Import Reals List Arith.
From Verif Require Import MVec MLine.
Import ListNotations.
Open Scope R_scope.

(** FairHTen, FairVTen, AnchHTen, AnchVTen *)
Record fast := Fast { fairH : R; fairV : R; anchH : R; anchV : R }.
(** Fnet[i](Eigen::seqN(0, 2)).norm(), l.672, l.674 *)
Definition norm2 (v : v3) : R := sqrt (vx v * vx v + vy v * vy v).
(** Line::getFASTtens, l.667-676; [F] is Fnet, kept by the last getStateDeriv, as M *)
Definition getFASTtens (L : line) (e : envc) (k : wkin) (F : nat -> v3) : fast :=
  Fast (norm2 (F (lN L))) (vz (F (lN L)) + vx (mr0 (lM L e k (lN L))) * (- gr e))
       (norm2 (F 0%nat)) (vz (F 0%nat) + vx (mr0 (lM L e k 0%nat)) * (- gr e)).
