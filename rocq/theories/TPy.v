(** C111-C113: the Python module: answers, references and blocks, handles. *)
From Coq Require Import String ZArith List Arith Bool Lia.
From Verif Require Import MPy SPy PPy PPyB PPyC PPyD PPyE.
Import ListNotations.
Open Scope string_scope.
Open Scope Z_scope.

(* ------------------------------------------------------------------------------------------ *)
(** C111. step(system, X, V, t, dt), whatever X and V are: exactly the numbers of the two sequences reach the
    library, what it answers is returned, anything else is the exception one expects, and nothing but the system
    changes. *)
Theorem C111_step : forall S F (L : lib S F) mok h i X V t dt s (w : world S F),
  (forall a k, mok a k = true) -> w_sys w h = Some s -> w_exc w = None ->
  exists w', pycall (f_step L mok) [PCap KSystem h i; X; V; PFlt t; PFlt dt] w = (fst (step_answer L s X V t dt), Some w') /\
    becomes w w' h (snd (step_answer L s X V t dt)).
Proof.
  intros S F L mok h i X V t dt s w Hm Hs Hex. destruct (step_call L mok h i X V t dt s w Hm Hs Hex) as (w' & E & Hb & _). exists w'. auto.
Qed.
Print Assumptions C111_step.
Example C111_step_ok : fst (pycall (f_step demo (fun _ _ => true)) [demo_cap KSystem; PLst [PFlt 1; PInt 2; PBool true]; PTup [PFlt 10; PFlt 20; PFlt 30]; PFlt 0; PFlt 1] demo_world) =
  PyVal (PTup [PFlt 11; PFlt 22; PFlt 31]).
Proof. reflexivity. Qed.
Example C111_step_short : fst (pycall (f_step demo (fun _ _ => true)) [demo_cap KSystem; PLst [PFlt 1]; PTup [PFlt 10; PFlt 20; PFlt 30]; PFlt 0; PFlt 1] demo_world) = PyExc XValue.
Proof. reflexivity. Qed.

(** init(system, X, V[, skip]) *)
Theorem C111_init : forall S F (L : lib S F) mok h i X V (o : option Z) s (w : world S F),
  (forall a k, mok a k = true) -> w_sys w h = Some s -> w_exc w = None -> (forall z, o = Some z -> int_min <= z <= int_max) ->
  let skip := match o with Some z => negb (z =? 0) | None => false end in
  exists w', pycall (f_init L mok) ([PCap KSystem h i; X; V] ++ match o with Some z => [PInt z] | None => [] end) w =
      (fst (init_answer L s X V skip), Some w') /\
    becomes w w' h (snd (init_answer L s X V skip)).
Proof.
  intros S F L mok h i X V o s w Hm Hs Hex Ho. destruct (init_call L mok h i X V o s w Hm Hs Hex Ho) as (w' & E & Hb & _). exists w'. auto.
Qed.
Print Assumptions C111_init.
Example C111_init_ok : fst (pycall (f_init demo (fun _ _ => true)) [demo_cap KSystem; PLst [PFlt 1; PFlt 2; PFlt 3]; PItr [PFlt 1; PFlt 2; PFlt 3] false; PInt 1] demo_world) = PyVal (PInt 0).
Proof. reflexivity. Qed.

(** ext_wave_set(system, U, A, t) *)
Theorem C111_wave_set : forall S F (L : lib S F) mok h i U A t s (w : world S F),
  (forall a k, mok a k = true) -> w_sys w h = Some s -> w_exc w = None ->
  exists w', pycall (f_ext_wave_set L mok) [PCap KSystem h i; U; A; PFlt t] w = (fst (wave_answer L s U A t), Some w') /\
    becomes w w' h (snd (wave_answer L s U A t)).
Proof.
  intros S F L mok h i U A t s w Hm Hs Hex. destruct (wave_call L mok h i U A t s w Hm Hs Hex) as (w' & E & Hb & _). exists w'. auto.
Qed.
Print Assumptions C111_wave_set.
Example C111_wave_ok : fst (pycall (f_ext_wave_set demo (fun _ _ => true)) [demo_cap KSystem; PLst [PFlt 1; PFlt 2; PFlt 3]; PLst [PFlt 1; PStr "x"; PFlt 3]; PFlt 1] demo_world) = PyExc XType.
Proof. reflexivity. Qed.

(** line_set_pint(line, P) *)
Theorem C111_pint : forall S F (L : lib S F) mok h i P s (w : world S F),
  (forall a k, mok a k = true) -> w_sys w h = Some s -> w_exc w = None ->
  exists w', pycall (f_line_set_pint L mok) [PCap KLine h i; P] w = (fst (pint_answer L s i P), Some w') /\
    becomes w w' h (snd (pint_answer L s i P)).
Proof.
  intros S F L mok h i P s w Hm Hs Hex. destruct (pint_call L mok h i P s w Hm Hs Hex) as (w' & E & Hb & _). exists w'. auto.
Qed.
Print Assumptions C111_pint.
Example C111_pint_ok : fst (pycall (f_line_set_pint demo (fun _ _ => true)) [demo_cap KLine; PLst [PFlt 1; PFlt 2; PFlt 3; PFlt 4; PFlt 5]] demo_world) = PyVal PNone.
Proof. reflexivity. Qed.

(** the functions with one handle and plain arguments: what the library answers, in the form of the function *)
Theorem C111_simple : forall S F (L : lib S F) k fmt uns c r h i rest l (w : world S F) s,
  w_sys w h = Some s -> w_exc w = None -> (forall k', r <> RCap k') ->
  parse L (FO :: fmt) [] (PCap k h i :: rest) = inl l ->
  let q := l_call L c s i (cargs uns (tl l)) in
  exists w', pycall (f_simple L k fmt uns c r) (PCap k h i :: rest) w = (simple_value r q, Some w') /\ becomes w w' h (c_sys q).
Proof. intros S F L. exact (simple_call L). Qed.
Print Assumptions C111_simple.
Example C111_simple_ok : fst (pycall (f_simple demo KLine [FI] true "MoorDyn_GetLineNodePos" (RVec 3)) [demo_cap KLine; PInt 2] demo_world) =
  PyVal (PTup [PFlt 220; PFlt 221; PFlt 222]).
Proof. reflexivity. Qed.

(** Whatever the arguments and whatever memory there is, a call that is given no handle of a closed system ends with a
    value or with a proper exception. Missing: deserialize, waves_getkin with four arguments, see below. *)
Theorem C111_safe_partial : forall S F (L : lib S F) mok f args (w : world S F),
  safe_function L mok f -> alive w args -> w_exc w = None -> proper_result (fst (pycall f args w)).
Proof. intros S F L mok. exact (all_good L mok). Qed.
Print Assumptions C111_safe_partial.
Example C111_safe_ok : alive demo_world [demo_cap KBody; PStr "abc"; PNone] /\
  fst (pycall (f_step demo (fun _ _ => true)) [demo_cap KSystem; PStr "abc"; PStr "def"; PInt 3; PBool true] demo_world) = PyExc XType /\
  fst (pycall (f_step demo (fun _ _ => false)) [demo_cap KSystem; PLst [PInt 1; PInt 2; PInt 3]; PLst [PInt 1; PInt 2; PInt 3]; PInt 3; PBool true] demo_world) = PyExc XMemory.
Proof.
  split; [|split; reflexivity]. intros k h i [H|[H|[H|[]]]]; try discriminate H. injection H as _ <- _. discriminate.
Qed.
Theorem C111_waves_getkin_partial : forall S F (L : lib S F) args (w : world S F),
  alive w args -> w_exc w = None -> length args = 5%nat -> proper_result (fst (pycall (f_waves_getkin L) args w)).
Proof. intros S F L args w Ha Hx Hl. unfold pycall. apply good_proper. apply getkin_good; auto. Qed.
Print Assumptions C111_waves_getkin_partial.
Example C111_waves_ok : fst (pycall (f_waves_getkin demo) [demo_cap KWaves; PFlt 1; PFlt 2; PFlt 3; PNone] demo_world) =
  PyVal (PTup [PTup [PFlt 190; PFlt 191; PFlt 192]; PTup [PFlt 193; PFlt 194; PFlt 195]; PFlt 196; PFlt 197]).
Proof. reflexivity. Qed.
(** The fifth argument of waves_getkin may be left out, but then the call reads a pointer that was never set. *)
Theorem C111_waves_getkin_refuted : forall S F (L : lib S F) h i x y z (w : world S F),
  fst (pycall (f_waves_getkin L) [PCap KWaves h i; PFlt x; PFlt y; PFlt z] w) = PyCrash.
Proof. intros. rewrite getkin_four. reflexivity. Qed.
Print Assumptions C111_waves_getkin_refuted.
(** deserialize given anything but bytes fails without an exception, which the interpreter reports as a SystemError;
    given bytes on which the library runs over the end (their length is not handed over) the behaviour is undefined. *)
Theorem C111_deserialize_refuted : forall S F (L : lib S F) h i s (w : world S F), w_sys w h = Some s -> w_exc w = None ->
  (forall v, (forall l, v <> PByt l) -> fst (pycall (f_deserialize L) [PCap KSystem h i; v] w) = PyExc XSystem) /\
  (forall l, l_deser L s l = None -> fst (pycall (f_deserialize L) [PCap KSystem h i; PByt l] w) = PyCrash).
Proof.
  intros S F L h i s w Hs Hex. split.
  - intros v Hv. apply deser_not_bytes; auto.
  - intros l Hl. rewrite (deser_short L h i l s w Hs Hl). reflexivity.
Qed.
Print Assumptions C111_deserialize_refuted.
Example C111_deserialize_case : l_deser demo 5%nat [] = None /\
  fst (pycall (f_deserialize demo) [demo_cap KSystem; PByt [8; 3]] demo_world) = PyVal PNone.
Proof. split; reflexivity. Qed.
(** line_set_pbend(line, False) switches the pressure bending on whenever the three bytes the call does not write are not
    all zero. *)
Theorem C111_pbend_refuted : forall S F (L : lib S F) junk h i s (w : world S F),
  256 <= junk -> w_sys w h = Some s -> w_exc w = None ->
  exists w', snd (pycall (f_line_set_pbend L junk) [PCap KLine h i; PBool false] w) = Some w' /\
    becomes w w' h (c_sys (l_call L "MoorDyn_SetLinePressBend" s i [CInt 1])).
Proof. intros S F L. exact (pbend_false L). Qed.
Print Assumptions C111_pbend_refuted.
Example C111_pbend_case : 256 <= 32767 /\ w_sys demo_world 7%nat = Some 5%nat /\ w_exc demo_world = None.
Proof. repeat split. lia. Qed.

(* ------------------------------------------------------------------------------------------ *)
(** C112. What a call leaves behind. These functions leave nothing, whatever the arguments and the memory. *)
Theorem C112_clean_partial : forall S F (L : lib S F) mok f args (w w' : world S F) v,
  clean_function L mok f -> pycall f args w = (v, Some w') -> clean w w'.
Proof. intros S F L mok. exact (clean_call L mok). Qed.
Print Assumptions C112_clean_partial.
Example C112_clean_ok : exists w', pycall (f_ext_wave_coords demo (fun _ _ => true)) [demo_cap KSystem] demo_world = (PyVal (PTup [PFlt 370; PFlt 371; PFlt 372]), Some w').
Proof. eexists. reflexivity. Qed.
(** step, init and ext_wave_set leave exactly this many references and blocks: none if both arguments are sequences
    of the right length with numbers only and the library reports no error *)
Theorem C112_step_partial : forall S F (L : lib S F) mok h i X V t dt s (w : world S F),
  (forall a k, mok a k = true) -> w_sys w h = Some s -> w_exc w = None ->
  exists w', snd (pycall (f_step L mok) [PCap KSystem h i; X; V; PFlt t; PFlt dt] w) = Some w' /\
    left_behind w w' (fst (step_leaves L s X V t dt)) (snd (step_leaves L s X V t dt)) /\
    (forall v, fst (step_answer L s X V t dt) = PyVal v -> clean w w').
Proof.
  intros S F L mok h i X V t dt s w Hm Hs Hex. destruct (step_call L mok h i X V t dt s w Hm Hs Hex) as (w' & E & _ & _ & Hl).
  exists w'. rewrite E. split; [reflexivity|]. split; [exact Hl|]. intros v Hv. apply left_zero.
  unfold step_leaves in Hl. rewrite Hv in Hl. unfold step_answer in Hv. unfold two, two_leaves in *.
  destruct (items X) as [xs|]; [|discriminate Hv]. destruct (negb _); [discriminate Hv|].
  destruct (items V) as [vs|]; [|discriminate Hv]. destruct (negb _); [discriminate Hv|].
  destruct (floats L xs), (floats L vs); try discriminate Hv. exact Hl.
Qed.
Print Assumptions C112_step_partial.
Example C112_step_ok : step_leaves demo 5%nat (PLst [PFlt 1; PFlt 2; PFlt 3]) (PLst [PFlt 1; PFlt 2; PFlt 3]) 0 1 = (0, 0)%nat /\
  step_leaves demo 5%nat (PLst [PFlt 1; PFlt 2; PFlt 3]) (PLst [PFlt 1; PFlt 2; PFlt 3]) 0 0 = (0, 1)%nat /\
  step_leaves demo 5%nat (PLst [PFlt 1; PNone; PFlt 3]) (PLst [PFlt 1; PFlt 2; PFlt 3]) 0 0 = (0, 1)%nat /\
  step_leaves demo 5%nat (PLst [PFlt 1; PFlt 2; PFlt 3]) (PLst []) 0 0 = (2, 0)%nat.
Proof. repeat split. Qed.
Theorem C112_init_partial : forall S F (L : lib S F) mok h i X V s (w : world S F),
  (forall a k, mok a k = true) -> w_sys w h = Some s -> w_exc w = None ->
  exists w', snd (pycall (f_init L mok) [PCap KSystem h i; X; V] w) = Some w' /\
    left_behind w w' (fst (two_leaves L (l_ndof L s) X V)) (snd (two_leaves L (l_ndof L s) X V)) /\
    (forall x v, two L (l_ndof L s) X V = inl (x, v) -> clean w w').
Proof.
  intros S F L mok h i X V s w Hm Hs Hex. destruct (init_call L mok h i X V None s w Hm Hs Hex) as (w' & E & _ & _ & Hl); [discriminate|].
  exists w'. cbn [app] in E. rewrite E. split; [reflexivity|]. split; [exact Hl|]. intros x v Hv. apply left_zero.
  unfold two, two_leaves in *.
  destruct (items X) as [xs|]; [|discriminate Hv]. destruct (negb _); [discriminate Hv|].
  destruct (items V) as [vs|]; [|discriminate Hv]. destruct (negb _); [discriminate Hv|].
  destruct (floats L xs), (floats L vs); try discriminate Hv. exact Hl.
Qed.
Print Assumptions C112_init_partial.
Example C112_init_ok : two demo 3 (PLst [PFlt 1; PFlt 2; PFlt 3]) (PTup [PFlt 1; PInt 2; PFlt 3]) = inl ([1; 2; 3], [1; 2; 3]).
Proof. reflexivity. Qed.
Theorem C112_wave_set_partial : forall S F (L : lib S F) mok h i U A t s (w : world S F),
  (forall a k, mok a k = true) -> w_sys w h = Some s -> w_exc w = None ->
  exists w', snd (pycall (f_ext_wave_set L mok) [PCap KSystem h i; U; A; PFlt t] w) = Some w' /\
    left_behind w w' (fst (two_leaves L (3 * l_wn L s) U A)) (snd (two_leaves L (3 * l_wn L s) U A)) /\
    (forall x v, two L (3 * l_wn L s) U A = inl (x, v) -> clean w w').
Proof.
  intros S F L mok h i X V t s w Hm Hs Hex. destruct (wave_call L mok h i X V t s w Hm Hs Hex) as (w' & E & _ & _ & Hl).
  exists w'. rewrite E. split; [reflexivity|]. split; [exact Hl|]. intros x v Hv. apply left_zero.
  unfold two, two_leaves in *.
  destruct (items X) as [xs|]; [|discriminate Hv]. destruct (negb _); [discriminate Hv|].
  destruct (items V) as [vs|]; [|discriminate Hv]. destruct (negb _); [discriminate Hv|].
  destruct (floats L xs), (floats L vs); try discriminate Hv. exact Hl.
Qed.
Print Assumptions C112_wave_set_partial.
Example C112_wave_ok : two demo 3 (PLst [PFlt 1; PFlt 2; PFlt 3]) (PTup [PFlt 1; PInt 2; PFlt 3]) = inl ([1; 2; 3], [1; 2; 3]).
Proof. reflexivity. Qed.
(** Refuted in general: each step with a list of the wrong length leaves one reference, so [n] of them leave [n], while
    the systems are as they were. *)
Theorem C112_leak_refuted : forall S F (L : lib S F) mok h i t dt s n (w : world S F),
  (forall a k, mok a k = true) -> w_sys w h = Some s -> w_exc w = None -> l_ndof L s <> 0%nat ->
  exists w', pycalls (repeat (f_step L mok, [PCap KSystem h i; PLst []; PLst []; PFlt t; PFlt dt]) n) w = Some w' /\
    left_behind w w' n 0 /\ untouched w w'.
Proof. intros S F L mok. exact (leak_grows L mok). Qed.
Print Assumptions C112_leak_refuted.
Example C112_leak_case : l_ndof demo 5%nat <> 0%nat /\ w_sys demo_world 7%nat = Some 5%nat.
Proof. split; [discriminate|reflexivity]. Qed.
(** get_fast_tens asked for more lines than there are leaves four blocks *)
Theorem C112_fast_refuted : forall S F (L : lib S F) mok h i n s (w : world S F),
  (forall a k, mok a k = true) -> w_sys w h = Some s -> w_exc w = None -> Z.of_nat (l_nlines L s) < n <= int_max ->
  exists w', pycall (f_get_fast_tens L mok) [PCap KSystem h i; PInt n] w = (PyExc XRuntime, Some w') /\ left_behind w w' 0 4.
Proof. intros S F L mok. exact (fast_leak L mok). Qed.
Print Assumptions C112_fast_refuted.
Example C112_fast_case : Z.of_nat (l_nlines demo 5%nat) < 3 <= int_max.
Proof. simpl. unfold int_max. lia. Qed.
(** The functions that return None give away a reference to None that they do not hold, every time they succeed. *)
Theorem C112_none_refuted : forall S F (L : lib S F) k fmt uns c h i args rest (w : world S F) s,
  args = PCap k h i :: rest -> w_sys w h = Some s -> w_exc w = None -> ~ In ONone (w_refs w) ->
  (exists l, parse L (FO :: fmt) [] args = inl l /\ c_err (l_call L c s i (cargs uns (tl l))) = 0) ->
  exists w', pycall (f_simple L k fmt uns c RNone) args w = (PyVal PNone, Some w') /\ w_stolen w' = ONone :: w_stolen w.
Proof. intros S F L. exact (none_stolen L). Qed.
Print Assumptions C112_none_refuted.
Example C112_none_case : exists l, parse demo (FO :: [FS]) [] [demo_cap KSystem; PStr "out.bin"] = inl l /\
  c_err (l_call demo "MoorDyn_Save" 5%nat 0 (cargs false (tl l))) = 0.
Proof. eexists. split; reflexivity. Qed.

(* ------------------------------------------------------------------------------------------ *)
(** C113. Handles. Anything but a handle of the right kind in the first place: an exception, nothing left behind,
    and no system changes. *)
Theorem C113_wrong_kind : forall S F (L : lib S F) mok k f args (w : world S F),
  takes L mok k f -> (forall h i, nth_error args 0 <> Some (PCap k h i)) ->
  exists e w', pycall f args w = (PyExc e, Some w') /\ e <> XSystem /\ clean w w' /\ untouched w w'.
Proof. intros S F L mok. exact (wrong_kind_call L mok). Qed.
Print Assumptions C113_wrong_kind.
Example C113_wrong_ok : fst (pycall (f_step demo (fun _ _ => true)) [demo_cap KLine; PLst []; PLst []; PFlt 0; PFlt 1] demo_world) = PyExc XValue /\
  fst (pycall (f_simple demo KLine [] false "MoorDyn_GetLineN" RInt) [demo_cap KRod] demo_world) = PyExc XValue.
Proof. split; reflexivity. Qed.
(** close: only that system is gone, and nothing is left behind *)
Theorem C113_close : forall S F (L : lib S F) h i s (w : world S F), w_sys w h = Some s -> w_exc w = None ->
  exists w', pycall (f_close L) [PCap KSystem h i] w = (PyVal (PInt 0), Some w') /\ clean w w' /\
    forall k, w_sys w' k = if Nat.eqb k h then None else w_sys w k.
Proof. intros S F L h i s w Hs Hex. destruct (close_call L h i s w Hs Hex) as (w' & E & Hc & _ & H). exists w'. auto. Qed.
Print Assumptions C113_close.
Example C113_close_ok : fst (pycall (f_close demo) [demo_cap KSystem] demo_world) = PyVal (PInt 0).
Proof. reflexivity. Qed.
(** Refuted: a handle outlives its system; closing twice, or using the system or any of its objects afterwards, is
    undefined behaviour, not an exception. *)
Theorem C113_close_twice_refuted : forall S F (L : lib S F) h i s (w : world S F), w_sys w h = Some s -> w_exc w = None ->
  pycalls [(f_close L, [PCap KSystem h i]); (f_close L, [PCap KSystem h i])] w = None.
Proof. intros S F L. exact (close_twice L). Qed.
Print Assumptions C113_close_twice_refuted.
Theorem C113_dangling_refuted : forall S F (L : lib S F) k fmt uns c r h i j rest l s (w : world S F),
  w_sys w h = Some s -> w_exc w = None -> parse L (FO :: fmt) [] (PCap k h j :: rest) = inl l ->
  pycalls [(f_close L, [PCap KSystem h i]); (f_simple L k fmt uns c r, PCap k h j :: rest)] w = None.
Proof.
  intros S F L k fmt uns c r h i j rest l s w Hs Hex Hp. destruct (close_call L h i s w Hs Hex) as (w' & E & _ & _ & H).
  cbn [pycalls]. rewrite E. cbn [snd]. rewrite (dangling L k fmt uns c r h j rest l w'); auto. rewrite H, Nat.eqb_refl. auto.
Qed.
Print Assumptions C113_dangling_refuted.
Example C113_dangling_case : exists l, parse demo (FO :: [FI]) [] [demo_cap KLine; PInt 2] = inl l.
Proof. eexists. reflexivity. Qed.
