(** Specification vocabulary for the state file properties C03-C09. *)
From Coq Require Import ZArith List Bool.
From Verif Require Import MErr MPack MIO.
Import ListNotations.
Open Scope Z_scope.

Definition word (w : Z) : Prop := 0 <= w < 2 ^ 64.

(** Writing [a] succeeds, all words are 64-bit words, and reading gives back
    [a] and leaves whatever follows. *)
Definition roundtrips {A} (s : writer A) (d : reader A) (a : A) : Prop :=
  exists ws, s a = Ok ws /\ Forall word ws /\ forall rest, d (ws ++ rest) = Ok (a, rest).

(** values that the number encoding preserves: zero and the normal doubles *)
Definition storable (f : fval) : Prop :=
  f = FZero \/ exists neg m e, f = FFin neg m e /\ 2 ^ 52 <= m < 2 ^ 53 /\ -1074 <= e <= 971.

Definition vec_ok (v : vec) := storable (vx v) /\ storable (vy v) /\ storable (vz v).
Definition vec6_ok (v : vec6) :=
  storable (v60 v) /\ storable (v61 v) /\ storable (v62 v) /\
  storable (v63 v) /\ storable (v64 v) /\ storable (v65 v).
Definition mat_ok (m : mat) := vec_ok (mr0 m) /\ vec_ok (mr1 m) /\ vec_ok (mr2 m).
Definition mat6_ok (m : mat6) :=
  vec6_ok (m60 m) /\ vec6_ok (m61 m) /\ vec6_ok (m62 m) /\
  vec6_ok (m63 m) /\ vec6_ok (m64 m) /\ vec6_ok (m65 m).
Definition quat_ok (q : quaternion) :=
  storable (qx q) /\ storable (qy q) /\ storable (qz q) /\ storable (qw q).
Definition xyzquat_ok (x : XYZQuat) := vec_ok (xq_pos x) /\ quat_ok (xq_quat x).
Definition list_ok {A} (P : A -> Prop) (l : list A) := Z.of_nat (length l) < 2 ^ 32 /\ Forall P l.

