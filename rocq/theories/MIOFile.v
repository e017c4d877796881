(** State files: source/IO.cpp l.197-305 (IO::IO, IO::Save, IO::Load).
    A file is the list of its bytes (integers in [0, 256)); opening, writing and
    reading the file itself always succeed here (the open failures of l.217-220
    and l.242-245 are not modelled). *)
From Coq Require Import ZArith List Bool.
From Verif Require Import MErr MPack MIO.
Import ListNotations.
Open Scope Z_scope.

(** the bytes of a uint64_t in memory, written by f.write *)
Definition native_bytes (be : bool) (w : Z) : list Z :=
  if be then rev (le_bytes 8 w) else le_bytes 8 w.
(** read by f.read *)
Definition of_native (be : bool) (l : list Z) : Z := of_le (if be then rev l else l).

(** "MoorDyn" *)
Definition magic : list Z := [77; 111; 111; 114; 68; 121; 110].

(** IO::IO, l.197-209: oldest version that can be read by the build [maj].[min]
    (uint8_t arithmetic; versions are below 256). *)
Definition min_version (maj min : Z) : Z * Z :=
  if 2 <=? maj then (maj, if 2 <=? min then min else 2) else (2, 2).

(** IO::Save, l.213-236 *)
Definition save (be : bool) (maj min : Z) (data : list Z) : list Z :=
  magic ++ [maj mod 256; min mod 256]
  ++ native_bytes be (Z.of_nat (length data) mod 2 ^ 64)
  ++ flat_map (native_bytes be) data.

(** the buffer of l.286-292 seen as uint64_t words *)
Fixpoint words_of (be : bool) (n : nat) (bytes : list Z) : list Z :=
  match n with
  | O => []
  | S k => of_native be (firstn 8 bytes) :: words_of be k (skipn 8 bytes)
  end.

Section Load.
Context {St : Type}.
Variable be : bool.
Variable minv : Z * Z.                 (* _min_major_version, _min_minor_version *)
Variable alloc_ok : Z -> bool.         (* whether malloc(size) succeeds *)
(** Deserialize(data): new state of the object and what it returns: the words
    behind the returned pointer, or a failure. *)
Variable deserialize : St -> list Z -> St * outcome (list Z).

(** IO::Load, l.238-305: state of the object afterwards and result. *)
Definition load (st : St) (file : list Z) : St * outcome unit :=
  let fsize := Z.of_nat (length file) in
  let header_size := 17 in
  if fsize <? header_size then (st, Throw ExInputFile)
  else if negb (if list_eq_dec Z.eq_dec (firstn 7 file) magic then true else false)
  then (st, Throw ExInputFile)
  else
    let major := nth 7 file 0 in
    let minor := nth 8 file 0 in
    if (major <? fst minv) || ((major =? fst minv) && (minor <? snd minv))
    then (st, Throw ExInputFile)
    else
      let len := of_native be (firstn 8 (skipn 9 file)) in
      let size := (len * 8) mod 2 ^ 64 in
      if negb (size =? (fsize - header_size) mod 2 ^ 64) then (st, Throw ExInput)
      else if negb (alloc_ok size) then (st, Throw ExMem)
      else
        let data := words_of be (Z.to_nat (size / 8)) (skipn 17 file) in
        match deserialize st data with
        | (st', Ok rest) =>
            (* data + length != end, on 64-bit addresses *)
            let consumed := Z.of_nat (length data) - Z.of_nat (length rest) in
            if negb ((len * 8) mod 2 ^ 64 =? (consumed * 8) mod 2 ^ 64)
            then (st', Throw ExMem)
            else (st', Ok tt)
        | (st', Throw e) => (st', Throw e)
        | (st', UB) => (st', UB)
        | (st', Diverges) => (st', Diverges)
        end.
End Load.
