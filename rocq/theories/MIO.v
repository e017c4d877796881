(** Typed serialisation: source/IO.cpp l.158-195, 307-615 and IO.hpp l.195-331.

    A word is an integer in [0, 2^64).  A serialised value is a list of words;
    reading takes the words that follow the read pointer and returns the rest.
    Reading past the last word is undefined behaviour.
    [be] is the byte order of the machine, [fuel] the loop bound of pack754. *)
From Coq Require Import ZArith List Bool.
From Verif Require Import MErr MPack.
Import ListNotations.
Open Scope Z_scope.

(** ** Values *)
Record vec := mkVec { vx : fval; vy : fval; vz : fval }.
Record vec6 := mkVec6 { v60 : fval; v61 : fval; v62 : fval; v63 : fval; v64 : fval; v65 : fval }.
(** matrices by rows *)
Record mat := mkMat { mr0 : vec; mr1 : vec; mr2 : vec }.
Record mat6 := mkMat6 { m60 : vec6; m61 : vec6; m62 : vec6; m63 : vec6; m64 : vec6; m65 : vec6 }.
(** Eigen::Quaternion::coeffs() order: x, y, z, w *)
Record quaternion := mkQuat { qx : fval; qy : fval; qz : fval; qw : fval }.
Record XYZQuat := mkXYZQuat { xq_pos : vec; xq_quat : quaternion }.

(** ** Bytes *)
(** the [n] low bytes of a word, least significant first *)
Fixpoint le_bytes (n : nat) (w : Z) : list Z :=
  match n with O => [] | S k => (w mod 256) :: le_bytes k (w / 256) end.
Fixpoint of_le (l : list Z) : Z :=
  match l with [] => 0 | b :: t => b + 256 * of_le t end.

(** swap_endian<uint64_t>, IO.cpp l.177-195 *)
Definition swap_endian (u : Z) : Z := of_le (rev (le_bytes 8 u)).

Definition writer (A : Type) := A -> outcome (list Z).
Definition reader (A : Type) := list Z -> outcome (A * list Z).

Definition rret {A} (a : A) : reader A := fun ws => Ok (a, ws).
Definition rbind {A B} (r : reader A) (f : A -> reader B) : reader B :=
  fun ws => obind (r ws) (fun p => f (fst p) (snd p)).

(** data.insert(data.end(), subdata...) repeatedly *)
Fixpoint ser_cat (l : list (outcome (list Z))) : outcome (list Z) :=
  match l with
  | [] => Ok []
  | o :: t => obind o (fun ws => obind (ser_cat t) (fun ws' => Ok (ws ++ ws')))
  end.

Section Codec.
Variable be : bool.
Variable fuel : nat.

(** IO::Serialize(const uint64_t&), IO.cpp l.307-314 *)
Definition ser_u64 : writer Z := fun i => Ok [if be then swap_endian i else i].
(** IO::Deserialize(const uint64_t*, uint64_t&), l.459-467 *)
Definition de_u64 : reader Z := fun ws =>
  match ws with
  | [] => UB
  | w :: t => Ok (if be then swap_endian w else w, t)
  end.

(** IO::Serialize(const int64_t&), l.316-321: reinterpretation of the bits *)
Definition ser_i64 : writer Z := fun i => ser_u64 (i mod 2 ^ 64).
(** l.469-476 *)
Definition de_i64 : reader Z :=
  rbind de_u64 (fun u => rret (if u <? 2 ^ 63 then u else u - 2 ^ 64)).

(** IO::Serialize(const real&), l.323-327 *)
Definition ser_real : writer fval := fun f =>
  obind (pack754_64 fuel f) (fun i => ser_i64 (if i <? 2 ^ 63 then i else i - 2 ^ 64)).
(** l.478-485. The conversion of the long double result to double is the
    identity on values that are doubles and is left out. *)
Definition de_real : reader fval := rbind de_u64 (fun u => rret (unpack754_64 u)).

(** vec, l.329-337 and 487-494 *)
Definition ser_vec : writer vec := fun m =>
  ser_cat [ser_real (vx m); ser_real (vy m); ser_real (vz m)].
Definition de_vec : reader vec :=
  rbind de_real (fun x => rbind de_real (fun y => rbind de_real (fun z => rret (mkVec x y z)))).

(** vec6, l.339-347 and 496-503 *)
Definition ser_vec6 : writer vec6 := fun m =>
  ser_cat [ser_real (v60 m); ser_real (v61 m); ser_real (v62 m);
           ser_real (v63 m); ser_real (v64 m); ser_real (v65 m)].
Definition de_vec6 : reader vec6 :=
  rbind de_real (fun a => rbind de_real (fun b => rbind de_real (fun c =>
  rbind de_real (fun d => rbind de_real (fun e => rbind de_real (fun f =>
  rret (mkVec6 a b c d e f))))))).

(** mat, l.349-358 and 505-513: for i, for j: m(i, j) *)
Definition ser_mat : writer mat := fun m =>
  ser_cat [ser_vec (mr0 m); ser_vec (mr1 m); ser_vec (mr2 m)].
Definition de_mat : reader mat :=
  rbind de_vec (fun a => rbind de_vec (fun b => rbind de_vec (fun c => rret (mkMat a b c)))).

(** mat6, l.360-369 and 515-523 *)
Definition ser_mat6 : writer mat6 := fun m =>
  ser_cat [ser_vec6 (m60 m); ser_vec6 (m61 m); ser_vec6 (m62 m);
           ser_vec6 (m63 m); ser_vec6 (m64 m); ser_vec6 (m65 m)].
Definition de_mat6 : reader mat6 :=
  rbind de_vec6 (fun a => rbind de_vec6 (fun b => rbind de_vec6 (fun c =>
  rbind de_vec6 (fun d => rbind de_vec6 (fun e => rbind de_vec6 (fun f =>
  rret (mkMat6 a b c d e f))))))).

(** quaternion, l.371-380 and 525-532 *)
Definition ser_quat : writer quaternion := fun m =>
  ser_cat [ser_real (qx m); ser_real (qy m); ser_real (qz m); ser_real (qw m)].
Definition de_quat : reader quaternion :=
  rbind de_real (fun x => rbind de_real (fun y => rbind de_real (fun z =>
  rbind de_real (fun w => rret (mkQuat x y z w))))).

(** XYZQuat, l.382-389 and 534-540 *)
Definition ser_xyzquat : writer XYZQuat := fun m =>
  ser_cat [ser_vec (xq_pos m); ser_quat (xq_quat m)].
Definition de_xyzquat : reader XYZQuat :=
  rbind de_vec (fun p => rbind de_quat (fun q => rret (mkXYZQuat p q))).

(** a sequence of values one after the other *)
Definition ser_seq {A} (s : writer A) : writer (list A) := fun l => ser_cat (map s l).
Fixpoint de_seq {A} (d : reader A) (n : nat) : reader (list A) :=
  match n with
  | O => rret []
  | S k => rbind d (fun a => rbind (de_seq d k) (fun l => rret (a :: l)))
  end.

(** std::vector<T>: the length followed by the entries; l.391-457 and the
    template in IO.hpp l.200-211. *)
Definition ser_list {A} (s : writer A) : writer (list A) := fun l =>
  ser_cat [ser_u64 (Z.of_nat (length l)); ser_seq s l].
(** l.542-615 and IO.hpp l.318-331: for (unsigned int i = 0; i < n; i++). The
    32-bit counter never reaches n >= 2^32, so the loop would run beyond the
    data (reserve(n) may also throw before): modelled as undefined behaviour. *)
Definition de_list {A} (d : reader A) : reader (list A) :=
  rbind de_u64 (fun n => if n <? 2 ^ 32 then de_seq d (Z.to_nat n) else fun _ => UB).
End Codec.
