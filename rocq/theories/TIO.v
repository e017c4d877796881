(** Property C03: typed serialisation.  [roundtrips s d a] (SIO.v): writing [a]
    with [s] succeeds with 64-bit words, and reading them with [d] returns [a]
    and exactly the words that followed.  [storable f]: zero or a normal double.
    [be] is the byte order of the machine. *)
From Coq Require Import ZArith List Bool.
From Verif Require Import MErr MPack MIO SIO PIO.
Import ListNotations.
Open Scope Z_scope.

Theorem C03_unsigned : forall be i, 0 <= i < 2 ^ 64 -> roundtrips (ser_u64 be) (de_u64 be) i.
Proof. exact rt_u64. Qed.
Print Assumptions C03_unsigned.

Theorem C03_signed : forall be i, - 2 ^ 63 <= i < 2 ^ 63 -> roundtrips (ser_i64 be) (de_i64 be) i.
Proof. exact rt_i64. Qed.
Print Assumptions C03_signed.

Theorem C03_real : forall be fuel, 1100 <= Z.of_nat fuel -> forall f,
  storable f -> roundtrips (ser_real be fuel) (de_real be) f.
Proof. exact rt_real. Qed.
Print Assumptions C03_real.

Theorem C03_vec : forall be fuel, 1100 <= Z.of_nat fuel -> forall v,
  vec_ok v -> roundtrips (ser_vec be fuel) (de_vec be) v.
Proof. exact rt_vec. Qed.
Print Assumptions C03_vec.

Theorem C03_vec6 : forall be fuel, 1100 <= Z.of_nat fuel -> forall v,
  vec6_ok v -> roundtrips (ser_vec6 be fuel) (de_vec6 be) v.
Proof. exact rt_vec6. Qed.
Print Assumptions C03_vec6.

Theorem C03_mat : forall be fuel, 1100 <= Z.of_nat fuel -> forall m,
  mat_ok m -> roundtrips (ser_mat be fuel) (de_mat be) m.
Proof. exact rt_mat. Qed.
Print Assumptions C03_mat.

Theorem C03_mat6 : forall be fuel, 1100 <= Z.of_nat fuel -> forall m,
  mat6_ok m -> roundtrips (ser_mat6 be fuel) (de_mat6 be) m.
Proof. exact rt_mat6. Qed.
Print Assumptions C03_mat6.

Theorem C03_quaternion : forall be fuel, 1100 <= Z.of_nat fuel -> forall q,
  quat_ok q -> roundtrips (ser_quat be fuel) (de_quat be) q.
Proof. exact rt_quat. Qed.
Print Assumptions C03_quaternion.

Theorem C03_xyzquat : forall be fuel, 1100 <= Z.of_nat fuel -> forall x,
  xyzquat_ok x -> roundtrips (ser_xyzquat be fuel) (de_xyzquat be) x.
Proof. exact rt_xyzquat. Qed.
Print Assumptions C03_xyzquat.

(** Lists of anything that round-trips round-trip: applied again to its own
    conclusion this covers lists of lists to any depth. *)
Theorem C03_list : forall be A (s : writer A) (d : reader A) (l : list A),
  Z.of_nat (length l) < 2 ^ 32 -> Forall (roundtrips s d) l ->
  roundtrips (ser_list be s) (de_list be d) l.
Proof. exact @rt_list. Qed.
Print Assumptions C03_list.

(** Two values with the same encoding are equal. *)
Theorem C03_injective : forall A (s : writer A) (d : reader A) a b ws,
  roundtrips s d a -> roundtrips s d b -> s a = Ok ws -> s b = Ok ws -> a = b.
Proof. exact @rt_inj. Qed.
Print Assumptions C03_injective.

(** The words in the file do not depend on the machine: seen as the bytes that
    reach the disk (native order of the word), a little-endian and a big-endian
    machine produce the same bytes for the same value. *)
Theorem C03_same_bytes_on_disk : forall i, 0 <= i < 2 ^ 64 ->
  exists wl wb, ser_u64 false i = Ok [wl] /\ ser_u64 true i = Ok [wb] /\
    (* bytes in memory: little-endian machine, big-endian machine *)
    le_bytes 8 wl = rev (le_bytes 8 wb).
Proof. exact ser_u64_disk. Qed.
Print Assumptions C03_same_bytes_on_disk.

Definition one := FFin false (2 ^ 52) (-52).
Example C03_ex_value : vec_ok (mkVec one FZero (FFin true 7205759403792794 (-56))).
Proof.
  unfold vec_ok, storable; cbn. repeat split; try (left; reflexivity);
  right; do 3 eexists; repeat split; try reflexivity; vm_compute; congruence.
Qed.
Example C03_ex_run :
  ser_list true (ser_list true (ser_real true 1100)) [[one]; []; [FZero; one]]
  = Ok [216172782113783808; 72057594037927936; 61503; 0; 144115188075855872; 0; 61503].
Proof. vm_compute. reflexivity. Qed.
