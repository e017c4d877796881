(** Properties C04-C09: state files.
    [ser_system be fuel s] are the words MoorDyn::Serialize produces for the
    system s on a machine with byte order be; [save] the bytes of the file;
    [load] IO::Load with the system's Deserialize.  [system_ok s]: every number
    is zero or a normal double and the integrator has one slot per object.
    [same_layout s o]: same numbers of objects and same time scheme. *)
From Coq Require Import ZArith List Bool.
From Verif Require Import MErr MPack MIO SIO PIO MIOFile PIOFile MObj SObj PObj PState.
Import ListNotations.
Open Scope Z_scope.

(** C08: restoring what an object wrote gives back every saved field and stops
    exactly behind it. *)
Theorem C08_point : forall be fuel, 1100 <= Z.of_nat fuel -> forall o,
  point_ok o -> roundtrips (ser_point be fuel) (de_point be) o.
Proof. exact rt_point. Qed.
Print Assumptions C08_point.
Theorem C08_body : forall be fuel, 1100 <= Z.of_nat fuel -> forall o,
  body_ok o -> roundtrips (ser_body be fuel) (de_body be) o.
Proof. exact rt_body. Qed.
Print Assumptions C08_body.
Theorem C08_line : forall be fuel, 1100 <= Z.of_nat fuel -> forall o,
  line_ok o -> roundtrips (ser_line be fuel) (de_line be) o.
Proof. exact rt_line. Qed.
Print Assumptions C08_line.
Theorem C08_rod : forall be fuel, 1100 <= Z.of_nat fuel -> forall o,
  rod_ok o -> roundtrips (ser_rod be fuel) (de_rod be) o.
Proof. exact rt_rod. Qed.
Print Assumptions C08_rod.
Theorem C08_integrator : forall be fuel, 1100 <= Z.of_nat fuel -> forall s o,
  scheme_ok s -> same_layout_scheme s o ->
  exists ws, ser_scheme be fuel s = Ok ws /\ Forall word ws /\
  forall rest, exists o', restore_scheme be o (ws ++ rest) = Ok (o', rest)
     /\ scheme_saved o' = scheme_saved s /\ scheme_unsaved o' = scheme_unsaved o.
Proof. exact restore_scheme_ok. Qed.
Print Assumptions C08_integrator.
Theorem C08_system : forall be fuel, 1100 <= Z.of_nat fuel -> forall s o,
  system_ok s -> same_layout s o ->
  exists ws, ser_system be fuel s = Ok ws /\ Forall word ws /\
  forall rest, exists o', restore_system be o (ws ++ rest) = Ok (o', rest)
     /\ system_saved o' = system_saved s /\ system_unsaved o' = system_unsaved o.
Proof. exact restore_system_ok. Qed.
Print Assumptions C08_system.
Example C08_ex : system_ok (sys_points_only (map pt [vone; vzero])) /\
  same_layout (sys_points_only (map pt [vone; vzero])) (sys_points_only (map pt [vzero; vone])).
Proof.
  split; [apply points_only_ok; apply pts_ok; constructor; [apply vone_ok|constructor; [apply vzero_ok|constructor]]|].
  repeat split; reflexivity.
Qed.

(** C04: same build, same byte order (either one). Missing: the other byte order. *)
Theorem C04_save_load_partial : forall be fuel maj min alloc_ok s o,
  1100 <= Z.of_nat fuel -> 2 <= maj < 256 -> 2 <= min < 256 ->
  system_ok s -> same_layout s o -> (forall n, alloc_ok n = true) ->
  exists words, ser_system be fuel s = Ok words /\
  (Z.of_nat (length words) < 2 ^ 61 ->
   exists o', load be (min_version maj min) alloc_ok (system_deserialize be) o (save be maj min words) = (o', Ok tt)
     /\ system_saved o' = system_saved s /\ system_unsaved o' = system_unsaved o).
Proof. exact system_save_load. Qed.
Print Assumptions C04_save_load_partial.

(** ... for any object that serialises itself: it is handed exactly the words it wrote. *)
Theorem C04_any_object_partial : forall St be maj min alloc_ok
    (des : St -> list Z -> St * outcome (list Z)) st st' data,
  0 <= maj < 256 -> 0 <= min < 256 ->
  Forall word data -> Z.of_nat (length data) < 2 ^ 61 ->
  version_ok (min_version maj min) maj min ->
  alloc_ok (8 * Z.of_nat (length data)) = true ->
  des st data = (st', Ok []) ->
  load be (min_version maj min) alloc_ok des st (save be maj min data) = (st', Ok tt).
Proof. exact @load_save. Qed.
Print Assumptions C04_any_object_partial.
Example C04_ex : version_ok (min_version 2 3) 2 3 /\ Forall word [1; 2 ^ 64 - 1].
Proof.
  split; [apply own_version; repeat split; discriminate|].
  constructor; [|constructor; [|constructor]]; split; (discriminate || reflexivity).
Qed.

(** Finding: the size in the header is written in native byte order, so a
    machine with the other byte order rejects every non-empty file. *)
Theorem C04_other_byte_order_refuted : forall St be maj min minv alloc_ok
    (des : St -> list Z -> St * outcome (list Z)) st data,
  0 <= maj < 256 -> 0 <= min < 256 -> version_ok minv maj min ->
  0 < Z.of_nat (length data) < 2 ^ 32 ->
  load (negb be) minv alloc_ok des st (save be maj min data) = (st, Throw ExInput).
Proof. exact @load_cross. Qed.
Print Assumptions C04_other_byte_order_refuted.

(** C05: the rejected files, for every object and whatever the other contents;
    the object is left alone in each case. *)
Theorem C05_short : forall St be minv alloc_ok (des : St -> list Z -> St * outcome (list Z)) st file,
  (length file < 17)%nat -> load be minv alloc_ok des st file = (st, Throw ExInputFile).
Proof. exact @load_short. Qed.
Print Assumptions C05_short.
Theorem C05_magic : forall St be minv alloc_ok (des : St -> list Z -> St * outcome (list Z)) st file,
  firstn 7 file <> [77; 111; 111; 114; 68; 121; 110] (* "MoorDyn" *) ->
  load be minv alloc_ok des st file = (st, Throw ExInputFile).
Proof. exact @load_bad_magic. Qed.
Print Assumptions C05_magic.
Theorem C05_old_version : forall St be minv alloc_ok (des : St -> list Z -> St * outcome (list Z)) st file,
  nth 7 file 0 < fst minv \/ (nth 7 file 0 = fst minv /\ nth 8 file 0 < snd minv) ->
  load be minv alloc_ok des st file = (st, Throw ExInputFile).
Proof. exact @load_bad_version. Qed.
Print Assumptions C05_old_version.
(** length: [declared_bytes] is 8 times the length in the header, modulo 2^64. *)
Theorem C05_size_partial : forall St be minv alloc_ok (des : St -> list Z -> St * outcome (list Z)) st file,
  Z.of_nat (length file) < 2 ^ 64 ->
  declared_bytes be file <> Z.of_nat (length file) - 17 ->
  exists e, load be minv alloc_ok des st file = (st, Throw e).
Proof. exact @load_bad_size. Qed.
Print Assumptions C05_size_partial.
(** Conversely a successful load implies all of it, and that the object read
    exactly the data. *)
Theorem C05_success_implies_wellformed : forall St be minv alloc_ok
    (des : St -> list Z -> St * outcome (list Z)) st file st',
  Z.of_nat (length file) < 2 ^ 64 ->
  load be minv alloc_ok des st file = (st', Ok tt) ->
  (17 <= length file)%nat /\ firstn 7 file = [77; 111; 111; 114; 68; 121; 110] /\
  version_ok minv (nth 7 file 0) (nth 8 file 0) /\
  declared_bytes be file = Z.of_nat (length file) - 17 /\
  exists rest, des st (words_of be (Z.to_nat ((Z.of_nat (length file) - 17) / 8)) (skipn 17 file)) = (st', Ok rest)
    /\ (Z.of_nat (length rest) < 2 ^ 61 -> rest = []).
Proof. exact @load_success. Qed.
Print Assumptions C05_success_implies_wellformed.
(** Finding: a header that declares 2^61 words too many is accepted. *)
Theorem C05_size_wraps_refuted : forall St be maj min minv alloc_ok
    (des : St -> list Z -> St * outcome (list Z)) st st' data,
  version_ok minv maj min -> Forall word data -> Z.of_nat (length data) < 2 ^ 61 ->
  alloc_ok (8 * Z.of_nat (length data)) = true ->
  des st data = (st', Ok []) ->
  let header_length := 2 ^ 61 + Z.of_nat (length data) in
  load be minv alloc_ok des st
    (magic ++ [maj; min] ++ native_bytes be header_length ++ flat_map (native_bytes be) data)
  = (st', Ok tt).
Proof. exact @load_wrap. Qed.
Print Assumptions C05_size_wraps_refuted.
Example C05_ex_short : (length (magic ++ [2%Z; 3%Z]) < 17)%nat /\ firstn 7 (77 :: magic) <> magic.
Proof. split; [cbn; repeat constructor|discriminate]. Qed.
Example C05_ex_size : declared_bytes false (magic ++ [2; 3] ++ native_bytes false 1) = 8 /\
  Z.of_nat (length (magic ++ [2; 3] ++ native_bytes false 1)) - 17 = 0.
Proof. split; reflexivity. Qed.

(** C06: a build reads its own files exactly when both version numbers are at
    least 2 (the build of this commit is 2.3). *)
Theorem C06_own_version_partial : forall maj min, 0 <= maj -> 0 <= min ->
  (version_ok (min_version maj min) maj min <-> 2 <= maj /\ 2 <= min).
Proof. exact own_version. Qed.
Print Assumptions C06_own_version_partial.
(** Finding: e.g. a 3.0 build, or one without version definitions (0.0, the
    fallback in the source), rejects every file it writes. *)
Theorem C06_own_version_refuted : exists maj min, 0 <= maj /\ 0 <= min /\
  forall St be alloc_ok (des : St -> list Z -> St * outcome (list Z)) st data,
  load be (min_version maj min) alloc_ok des st (save be maj min data) = (st, Throw ExInputFile).
Proof. exact own_version_rejected. Qed.
Print Assumptions C06_own_version_refuted.
Example C06_ex : version_ok (min_version 2 3) 2 3 /\ ~ version_ok (min_version 3 0) 3 0.
Proof. split; rewrite own_version; vm_compute; intuition congruence. Qed.

(** C07: a file that fails a header check changes nothing, whatever it contains:
    only a file with a good header can touch the object. Missing: failures
    detected after the object was read. *)
Theorem C07_header_failure_keeps_state_partial : forall St be minv alloc_ok
    (des : St -> list Z -> St * outcome (list Z)) st file,
  Z.of_nat (length file) < 2 ^ 64 ->
  fst (load be minv alloc_ok des st file) <> st ->
  (17 <= length file)%nat /\ firstn 7 file = [77; 111; 111; 114; 68; 121; 110] /\
  version_ok minv (nth 7 file 0) (nth 8 file 0) /\
  declared_bytes be file = Z.of_nat (length file) - 17.
Proof. exact @load_header_failure. Qed.
Print Assumptions C07_header_failure_keeps_state_partial.
(** Findings: loading the file of a system with more points fails but has
    already changed the simulation; *)
Theorem C07_failed_load_changes_state_refuted :
  exists (s o o' : system) words,
    system_ok s /\ system_ok o /\ ser_system false 1100 s = Ok words /\
    load false (min_version 2 3) (fun _ => true) (system_deserialize false) o (save false 2 3 words) = (o', Throw ExMem)
    /\ map p_saved (sys_points o') <> map p_saved (sys_points o).
Proof. exact failed_load_changes_state. Qed.
Print Assumptions C07_failed_load_changes_state_refuted.
(** loading the file of a system with fewer points reads out of bounds. *)
Theorem C07_out_of_bounds_refuted :
  exists (s o : system) words,
    system_ok s /\ system_ok o /\ ser_system false 1100 s = Ok words /\
    snd (load false (min_version 2 3) (fun _ => true) (system_deserialize false) o (save false 2 3 words)) = UB.
Proof. exact failed_load_out_of_bounds. Qed.
Print Assumptions C07_out_of_bounds_refuted.

(** C09, what holds is C04/C08: after save and load every saved field is the one
    at saving time, whatever happened to the system [o] in between. *)
Theorem C09_saved_fields_partial : forall be fuel maj min alloc_ok s o,
  1100 <= Z.of_nat fuel -> 2 <= maj < 256 -> 2 <= min < 256 ->
  system_ok s -> same_layout s o -> (forall n, alloc_ok n = true) ->
  exists words, ser_system be fuel s = Ok words /\
  (Z.of_nat (length words) < 2 ^ 61 ->
   exists o', load be (min_version maj min) alloc_ok (system_deserialize be) o (save be maj min words) = (o', Ok tt)
     /\ system_saved o' = system_saved s /\ system_unsaved o' = system_unsaved o).
Proof. exact system_save_load. Qed.
Print Assumptions C09_saved_fields_partial.
(** Findings: the unstretched length of a line, *)
Theorem C09_unstretched_length_refuted :
  exists (s o o' : system) words,
    system_ok s /\ same_layout s o /\ ser_system false 1100 s = Ok words /\
    load false (min_version 2 3) (fun _ => true) (system_deserialize false) o (save false 2 3 words) = (o', Ok tt)
    /\ map l_UnstrLen (sys_lines o') <> map l_UnstrLen (sys_lines s).
Proof. exact load_loses_length. Qed.
Print Assumptions C09_unstretched_length_refuted.
(** the failures already executed, *)
Theorem C09_failures_refuted :
  exists (s o o' : system) words,
    system_ok s /\ same_layout s o /\ ser_system false 1100 s = Ok words /\
    load false (min_version 2 3) (fun _ => true) (system_deserialize false) o (save false 2 3 words) = (o', Ok tt)
    /\ sys_failed o' <> sys_failed s.
Proof. exact load_loses_failures. Qed.
Print Assumptions C09_failures_refuted.
(** and the acceleration of a coupled body, which enters its reported force, are
    those of the system before the load. *)
Theorem C09_body_acceleration_refuted :
  exists (s o o' : system) words,
    system_ok s /\ same_layout s o /\ ser_system false 1100 s = Ok words /\
    load false (min_version 2 3) (fun _ => true) (system_deserialize false) o (save false 2 3 words) = (o', Ok tt)
    /\ map b_a6 (sys_bodies o') <> map b_a6 (sys_bodies s).
Proof. exact load_loses_acceleration. Qed.
Print Assumptions C09_body_acceleration_refuted.
