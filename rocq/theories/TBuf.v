(** C120: arrays handed over by the caller. *)
From Coq Require Import String Ascii List Arith ZArith Bool Reals Lia.
From Verif Require Import MErr MStr MOut MIO MIOFile MObj SObj PObj PState MScheme MTime MBuf SBuf PBuf.
From Verif Require MSwitch PSwitch.
Import ListNotations.
Local Open Scope nat_scope.

(** The name of the time scheme: the number reported by a call without an array is enough for the next call, which writes the name as
    a C string, reports the same number and touches nothing behind it. *)
Theorem C120_name : forall c l l' n buf, get_time_scheme (Some c) None (Some l) = Ok (MOORDYN_SUCCESS, None, Some n) -> n <= length buf ->
  exists buf', get_time_scheme (Some c) (Some buf) (Some l') = Ok (MOORDYN_SUCCESS, Some buf', Some n) /\ holds buf' (scheme_name c) /\ untouched_from n buf buf'.
Proof. exact name_two_calls. Qed.
Print Assumptions C120_name.
(** No smaller array will do: the function is not told its size. *)
Theorem C120_name_short : forall c buf len, length buf < length (scheme_name c) + 1 -> get_time_scheme (Some c) (Some buf) len = UB.
Proof. exact name_short. Qed.
Print Assumptions C120_name_short.
Example C120_case_name : get_time_scheme (Some RK2) None (Some 0) = Ok (MOORDYN_SUCCESS, None, Some 22) /\
  get_time_scheme (Some Heun) (Some (repeat "x"%char 16)) None = Ok (MOORDYN_SUCCESS, Some (ot "2nd order Heun" ++ [nul; "x"%char]), None).
Proof. split; reflexivity. Qed.

(** The bytes of the system: the size reported by a call without an array is enough for the next call, which touches nothing behind
    it; the array, with whatever follows, restores any system of the same layout. A smaller array is overrun. *)
Theorem C120_bytes : forall be fuel s o z z', (1100 <= Z.of_nat fuel)%Z -> system_ok s -> same_layout s o -> exists n,
  serialize be fuel (Some s) (Some z) None = Ok (MOORDYN_SUCCESS, Some (8 * n), None) /\
  forall buf, (n <= length buf ->
    exists buf' o', serialize be fuel (Some s) (Some z') (Some buf) = Ok (MOORDYN_SUCCESS, Some (8 * n), Some buf') /\ untouched_from n buf buf' /\
    deserialize be (Some o) (Some buf') = Ok (MOORDYN_SUCCESS, Some o') /\ system_saved o' = system_saved s /\ system_unsaved o' = system_unsaved o) /\
  (length buf < n -> serialize be fuel (Some s) (Some z') (Some buf) = UB).
Proof. exact bytes_two_calls. Qed.
Print Assumptions C120_bytes.
Example C120_case_bytes : system_ok (sys_points_only (map pt [vone; vzero])) /\ same_layout (sys_points_only (map pt [vone; vzero])) (sys_points_only (map pt [vzero; vone])).
Proof.
  split; [apply points_only_ok; apply pts_ok; constructor; [apply vone_ok|constructor; [apply vzero_ok|constructor]]|].
  repeat split; reflexivity.
Qed.

(** Without a system nothing is written; without data nothing is restored. *)
Theorem C120_null : forall be fuel name len size data s,
  get_time_scheme None name len = Ok (MOORDYN_INVALID_VALUE, name, len) /\ serialize be fuel None size data = Ok (MOORDYN_INVALID_VALUE, size, data) /\
  deserialize be None data = Ok (MOORDYN_INVALID_VALUE, None) /\ deserialize be (Some s) None = Ok (MOORDYN_INVALID_VALUE, Some s).
Proof. intros. repeat split; reflexivity. Qed.
Print Assumptions C120_null.

(** The name tells the scheme: two names given by the user that give the same reported name give the same scheme. *)
Theorem C120_name_tells : forall n n' c c', create_time_scheme n = Ok c -> create_time_scheme n' = Ok c' -> scheme_name c = scheme_name c' -> c = c'.
Proof. intros n n' c c' H H'. exact (name_inj c c' (created_made n c H) (created_made n' c' H')). Qed.
Print Assumptions C120_name_tells.
(** REFUTED: the name reported is never one that can be set, whatever the scheme and the system. *)
Theorem C120_set_back_refuted : forall KB KR KP KL n c y, create_time_scheme n = Ok c ->
  MSwitch.switch KB KR KP KL (scheme_name c) y = Ok (y, Returns MOORDYN_INVALID_VALUE).
Proof. intros KB KR KP KL n c y H. exact (PSwitch.switch_unknown KB KR KP KL (scheme_name c) ExInvalidValue y (name_unknown c (created_made n c H))). Qed.
Print Assumptions C120_set_back_refuted.
Example C120_case_set : create_time_scheme (stm "Midpoint12") = Ok (ImplicitEuler 12 0.5) /\ create_time_scheme (stm "rk4") = Ok RK4 /\ scheme_name RK4 = ot "4th order Runge-Kutta".
Proof. repeat split; reflexivity. Qed.
