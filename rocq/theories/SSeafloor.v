(** Specification vocabulary for bathymetries. *)
From Coq Require Import Reals List.
From Verif Require Import SInterp.
Import ListNotations.
Open Scope R_scope.

(** a nx by ny table *)
Definition table (nx ny : nat) (g : list (list R)) : Prop :=
  length g = nx /\ Forall (fun r => length r = ny) g.
Definition cell (g : list (list R)) (i j : nat) : R := nth j (nth i g []) 0.

(** d is the value at (x, y) of the bilinear interpolation: interpolate every
    column of the table in x, then the results in y *)
Definition bilinear (px py : list R) (g : list (list R)) (x y d : R) : Prop :=
  exists col, length col = length py /\
    (forall j, (j < length py)%nat -> lin_interp px (map (fun r => nth j r 0) g) x (nth j col 0)) /\
    lin_interp py col y d.

(** the entry (x, y, depth) lies on a grid point *)
Definition on_grid (px py : list R) (e : R * R * R) : Prop :=
  In (fst (fst e)) px /\ In (snd (fst e)) py.
(** a depth is given for every grid point *)
Definition complete (px py : list R) (es : list (R * R * R)) : Prop :=
  forall x y, In x px -> In y py -> exists d, In (x, y, d) es.
(** no grid point has two different depths *)
Definition consistent (es : list (R * R * R)) : Prop :=
  forall x y d d', In (x, y, d) es -> In (x, y, d') es -> d = d'.

Definition rsum (l : list R) : R := fold_right Rplus 0 l.
Lemma rsum_cons a l : rsum (a :: l) = a + rsum l.
Proof. reflexivity. Qed.
Lemma rsum_nil : rsum [] = 0.
Proof. reflexivity. Qed.
Global Arguments rsum : simpl never.
Definition depths (es : list (R * R * R)) : list R := map snd es.
Lemma depths_cons e es : depths (e :: es) = snd e :: depths es.
Proof. reflexivity. Qed.
