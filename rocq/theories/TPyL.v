(** C114: the functions of the Python layer do what they are documented to do. *)
From Coq Require Import String ZArith List Arith Bool Lia.
From Verif Require Import MPy SPy PPyE MPyL SPyL PPyL.
Import ListNotations.
Open Scope string_scope.
Open Scope Z_scope.

(** Each function returns, in the documented form, what the C function of the same name answers for the same
    arguments, and changes the system as that one does. Missing: the exceptions, see below. *)
Theorem C114_documented_partial : forall S F (L : lib S F) mok junk place d,
  In d documented -> ~ In (d_name d) exceptions -> does L (pyfun L mok junk place) d.
Proof. intros S F L mok junk place. exact (documented_does L mok junk place). Qed.
Print Assumptions C114_documented_partial.
Example C114_documented_ok : (length documented = 66)%nat /\ In (Doc "GetLineNodeM" KLine [TyInt] (RMat 3 3)) documented /\
  typed demo [TyInt] [PInt 2] [CInt 2] /\
  fst (pyfun demo (fun _ _ => true) 0 "" "GetLineNodeM" [demo_cap KLine; PInt 2] demo_world) =
    PyVal (PTup [PTup [PFlt 200; PFlt 201; PFlt 202]; PTup [PFlt 203; PFlt 204; PFlt 205]; PTup [PFlt 206; PFlt 207; PFlt 208]]).
Proof.
  split; [reflexivity|]. split; [unfold documented; cbn [In]; tauto|]. split; [|reflexivity].
  constructor; [unfold int_max; lia|constructor].
Qed.

(** GetBody, GetRod, GetPoint and GetLine return a handle of the right kind on the object asked for, GetWaves and
    GetSeafloor on those of the system; GetSeafloor returns None if there is none. No system changes. *)
Theorem C114_objects : forall S F (L : lib S F) mok junk place h i s (w : world S F), w_sys w h = Some s -> w_exc w = None ->
  (forall name k n, In (name, k) [("GetBody", KBody); ("GetRod", KRod); ("GetPoint", KPoint); ("GetLine", KLine)] -> 0 <= n <= int_max ->
    exists w', pyfun L mok junk place name [PCap KSystem h i; PInt n] w =
      (match l_obj L s k n with Some j => PyVal (PCap k h j) | None => PyExc XRuntime end, Some w') /\ untouched w w') /\
  (exists w', pyfun L mok junk place "GetWaves" [PCap KSystem h i] w =
      (match l_obj L s KWaves 0 with Some j => PyVal (PCap KWaves h j) | None => PyExc XRuntime end, Some w') /\ untouched w w') /\
  (exists w', pyfun L mok junk place "GetSeafloor" [PCap KSystem h i] w =
      (PyVal match l_obj L s KSeafloor 0 with Some j => PCap KSeafloor h j | None => PNone end, Some w') /\ untouched w w').
Proof.
  intros S F L mok junk place h i s w Hs Hex. split; [|split].
  - intros name k n Hin Hn. apply (object_get L mok junk place name k h i n s w Hin Hs Hex Hn).
  - apply (waves_get L mok junk place h i s w Hs Hex).
  - apply (seafloor_get L mok junk place h i s w Hs Hex).
Qed.
Print Assumptions C114_objects.
Example C114_objects_ok : fst (pyfun demo (fun _ _ => true) 0 "" "GetLine" [demo_cap KSystem; PInt 1] demo_world) = PyVal (demo_cap KLine) /\
  fst (pyfun demo (fun _ _ => true) 0 "" "GetLine" [demo_cap KSystem; PInt 2] demo_world) = PyExc XRuntime /\
  fst (pyfun demo (fun _ _ => true) 0 "" "GetSeafloor" [demo_cap KSystem] demo_world) = PyVal PNone.
Proof. repeat split. Qed.

(** Step, Init and Init_NoIC, given any two things one can iterate over *)
Theorem C114_step : forall S F (L : lib S F) mok junk place h i X V t dt s xs vs (w : world S F),
  (forall a k, mok a k = true) -> w_sys w h = Some s -> w_exc w = None -> items X = inl xs -> items V = inl vs ->
  exists w', pyfun L mok junk place "Step" [PCap KSystem h i; X; V; PFlt t; PFlt dt] w = (fst (step_answer L s X V t dt), Some w') /\
    becomes w w' h (snd (step_answer L s X V t dt)).
Proof. intros S F L mok junk place. exact (step_fn L mok junk place). Qed.
Print Assumptions C114_step.
Example C114_step_ok : fst (pyfun demo (fun _ _ => true) 0 "" "Step" [demo_cap KSystem; PItr [PFlt 1; PFlt 2; PFlt 3] false; PTup [PInt 1; PInt 1; PInt 1]; PFlt 0; PFlt 1] demo_world) =
  PyVal (PTup [PFlt 2; PFlt 3; PFlt 4]).
Proof. reflexivity. Qed.
Theorem C114_init : forall S F (L : lib S F) mok junk place h i X V s xs vs (skip : bool) (w : world S F),
  (forall a k, mok a k = true) -> w_sys w h = Some s -> w_exc w = None -> items X = inl xs -> items V = inl vs ->
  exists w', pyfun L mok junk place (if skip then "Init_NoIC" else "Init") [PCap KSystem h i; X; V] w = (fst (init_answer L s X V skip), Some w') /\
    becomes w w' h (snd (init_answer L s X V skip)).
Proof. intros S F L mok junk place. exact (init_fn L mok junk place). Qed.
Print Assumptions C114_init.
Example C114_init_ok : fst (pyfun demo (fun _ _ => true) 0 "" "Init" [demo_cap KSystem; PLst [PFlt 1; PFlt 2; PFlt 3]; PTup [PInt 1; PInt 1; PInt 1]] demo_world) = PyVal (PInt 0).
Proof. reflexivity. Qed.

(** GetWaveKinCoordinates returns as many points as there are, each with its three coordinates in order, and SetWaveKin
    hands the velocities and accelerations of points over in the same order. *)
Theorem C114_wave_points : forall S F (L : lib S F) mok junk place h i s (w : world S F),
  (forall a k, mok a k = true) -> w_sys w h = Some s -> w_exc w = None ->
  (let q := l_call L "MoorDyn_ExternalWaveKinGetCoordinates" s 0 [] in
   exists w', pyfun L mok junk place "GetWaveKinCoordinates" [PCap KSystem h i] w =
    (if c_err q =? 0 then PyVal (points (map (fun j => (c_out q (3 * j)%nat, c_out q (3 * j + 1)%nat, c_out q (3 * j + 2)%nat)) (seq 0 (l_wn L s))))
     else PyExc XRuntime, Some w') /\ becomes w w' h (c_sys q)) /\
  (forall u a t, length u = length a -> (forall f, l_tofloat L (PFlt f) = Some f) ->
   let q := l_call L "MoorDyn_ExternalWaveKinSet" s 0 [CArr (flat u); CArr (flat a); CDbl t] in
   exists w', pyfun L mok junk place "SetWaveKin" [PCap KSystem h i; points u; points a; PFlt t] w =
    (if Nat.eqb (length u) (l_wn L s) then PyVal (PInt (c_err q)) else PyExc XValue, Some w') /\
    becomes w w' h (if Nat.eqb (length u) (l_wn L s) then c_sys q else s)).
Proof.
  intros S F L mok junk place h i s w Hm Hs Hex. split.
  - apply (coords_fn L mok junk place h i s w Hm Hs Hex).
  - intros u a t Hl Hf. apply (set_wave_fn L mok junk place h i u a t s w Hm Hs Hex Hl Hf).
Qed.
Print Assumptions C114_wave_points.
Example C114_wave_points_ok : (forall f, l_tofloat demo (PFlt f) = Some f) /\
  fst (pyfun demo (fun _ _ => true) 0 "" "GetWaveKinCoordinates" [demo_cap KSystem] demo_world) = PyVal (PLst [PLst [PFlt 370; PFlt 371; PFlt 372]]) /\
  fst (pyfun demo (fun _ _ => true) 0 "" "SetWaveKin" [demo_cap KSystem; points [(1, 2, 3)]; points [(4, 5, 6)]; PFlt 0] demo_world) = PyVal (PInt 0).
Proof. repeat split. Qed.

(** Log hands the level over, and the message behind a head that names the level and the place of the call *)
Theorem C114_log : forall S F (L : lib S F) mok junk place h i level msg s (w : world S F),
  w_sys w h = Some s -> w_exc w = None -> int_min <= level <= int_max ->
  exists head w', pyfun L mok junk place "Log" [PCap KSystem h i; PInt level; PStr msg] w =
    (PyVal (PInt (c_err (l_call L "MoorDyn_Log" s i [CInt level; CStr (head ++ place ++ msg)]))), Some w') /\
    becomes w w' h (c_sys (l_call L "MoorDyn_Log" s i [CInt level; CStr (head ++ place ++ msg)])) /\
    (3 <= level -> head = "ERR ") /\ (level = 2 -> head = "WRN ") /\ (level = 1 -> head = "MSG ") /\ (level <= 0 -> head = "DBG ").
Proof. intros S F L mok junk place. exact (log_fn L mok junk place). Qed.
Print Assumptions C114_log.
Example C114_log_ok : fst (pyfun demo (fun _ _ => true) 0 "a.py:3 f() : " "Log" [demo_cap KSystem; PInt 2; PStr "hello"] demo_world) = PyVal (PInt 0).
Proof. reflexivity. Qed.

(** Refuted: GetWavesKin always raises TypeError, whatever it is given. *)
Theorem C114_waves_kin_refuted : forall S F (L : lib S F) mok junk place args (w : world S F),
  fst (pyfun L mok junk place "GetWavesKin" args w) = PyExc XType.
Proof. intros S F L mok junk place. exact (waves_kin_more L mok junk place). Qed.
Print Assumptions C114_waves_kin_refuted.
(** Refuted: ExternalWaveKinGetN returns 0 or raises, and runs the initialisation again. *)
Theorem C114_wave_n_refuted : forall S F (L : lib S F) mok junk place h i s (w : world S F), w_sys w h = Some s -> w_exc w = None ->
  exists w', pyfun L mok junk place "ExternalWaveKinGetN" [PCap KSystem h i] w =
    (if c_err (l_call L "MoorDyn_ExternalWaveKinInit" s i []) =? 0 then PyVal (PInt 0) else PyExc XRuntime, Some w') /\
    becomes w w' h (c_sys (l_call L "MoorDyn_ExternalWaveKinInit" s i [])).
Proof. intros S F L mok junk place. exact (wave_n_fn L mok junk place). Qed.
Print Assumptions C114_wave_n_refuted.
Example C114_wave_n_case : exists d, In d documented /\ d_name d = "ExternalWaveKinGetN" /\
  ~ does demo (pyfun demo (fun _ _ => true) 0 "") d.
Proof.
  eexists. split; [unfold documented; cbn [In]; do 5 right; left; reflexivity|]. split; [reflexivity|].
  intros H. destruct (H 7%nat 0%nat 5%nat demo_world [] [] eq_refl eq_refl (Ty_nil demo)) as (w' & E & _).
  apply (f_equal fst) in E. cbn in E. discriminate E.
Qed.
(** Refuted: ExternalWaveKinInit raises an exception where it is documented to return an error code. *)
Theorem C114_wave_init_refuted : forall S F (L : lib S F) mok junk place h i s (w : world S F), w_sys w h = Some s -> w_exc w = None ->
  c_err (l_call L "MoorDyn_ExternalWaveKinInit" s i []) <> 0 ->
  exists w', pyfun L mok junk place "ExternalWaveKinInit" [PCap KSystem h i] w = (PyExc XRuntime, Some w').
Proof.
  intros S F L mok junk place h i s w Hs Hex He. destruct (wave_init_fn L mok junk place h i s w Hs Hex) as (w' & E & _).
  exists w'. apply Z.eqb_neq in He. rewrite E, He. reflexivity.
Qed.
Print Assumptions C114_wave_init_refuted.
(** Refuted: GetLineNodeSeabedForce returns the Froude-Krylov force. *)
Theorem C114_seabed_refuted : forall S F (L : lib S F) mok junk place h i n s (w : world S F),
  w_sys w h = Some s -> w_exc w = None -> 0 <= n <= int_max ->
  exists w', pyfun L mok junk place "GetLineNodeSeabedForce" [PCap KLine h i; PInt n] w =
    (simple_value (RVec 3) (l_call L "MoorDyn_GetLineNodeFroudeKrilov" s i [CInt n]), Some w').
Proof. intros S F L mok junk place. exact (seabed_fn L mok junk place). Qed.
Print Assumptions C114_seabed_refuted.
Example C114_seabed_case : simple_value (RVec 3) (l_call demo "MoorDyn_GetLineNodeFroudeKrilov" 5%nat 0 [CInt 1]) <>
  simple_value (RVec 3) (l_call demo "MoorDyn_GetLineNodeSeabedForce" 5%nat 0 [CInt 1]).
Proof. discriminate. Qed.
(** Refuted: IsLinePressBend and UseBodyVTK always raise, whatever they are given. *)
Theorem C114_press_bend_refuted : forall S F (L : lib S F) mok junk place v (w : world S F),
  pyfun L mok junk place "IsLinePressBend" [v] w = (PyExc XName, Some w).
Proof. intros S F L mok junk place. exact (is_pbend_fn L mok junk place). Qed.
Print Assumptions C114_press_bend_refuted.
Theorem C114_use_vtk_refuted : forall S F (L : lib S F) mok junk place v f (w : world S F),
  pyfun L mok junk place "UseBodyVTK" [v; f] w = (PyExc XAttribute, Some w).
Proof. intros S F L mok junk place. exact (use_vtk_fn L mok junk place). Qed.
Print Assumptions C114_use_vtk_refuted.
