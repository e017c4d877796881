(** Proofs about the Python module: the functions that take sequences. *)
From Coq Require Import String ZArith List Arith Bool Lia.
From Verif Require Import MPy SPy PPy.
Import ListNotations.
Open Scope Z_scope.

Section P.
Context {S F : Type}.
Variable L : lib S F.
Variable mok : nat -> nat -> bool.
Notation W := (world S F).

Lemma left_zero : forall (w w' : W), left_behind w w' 0 0 -> clean w w'.
Proof.
  intros w w' (lr & lb & H1 & H2 & H3 & H4 & H5). destruct lr; [|discriminate]. destruct lb; [|discriminate].
  unfold clean, holds. simpl in *. congruence.
Qed.

(** the state after the library has been called and both arrays have been released *)
Lemma ccall_two : forall f h s args px pv xs vs (w : W) b,
  w_sys w h = Some s -> w_blocks w = (pv, map Some vs) :: (px, map Some xs) :: b -> (px < pv)%nat ->
  bnd (fetch px (length xs)) (fun x => bnd (fetch pv (length vs)) (fun v =>
    bnd (ccall L f h 0 (args x v)) (fun r => bnd (free px) (fun _ => bnd (free pv) (fun _ => ret r))))) w =
  let r := l_call L f s 0 (args xs vs) in
  Val r (World (w_refs w) (w_stolen w) b (w_next w) (w_exc w) (w_objs w)
           (fun k => if Nat.eqb k h then Some (c_sys r) else w_sys w k)).
Proof.
  intros f h s args px pv xs vs w b Hs Hb Hlt. cbv zeta.
  assert (E: Nat.eqb pv px = false) by (apply Nat.eqb_neq; lia).
  unfold bnd, fetch, ccall, live, keep, free, ret, set_blocks, bnd.
  rewrite Hb. cbn [bget]. rewrite E, !Nat.eqb_refl. rewrite cells_all by auto. rewrite Hb. cbn [bget].
  rewrite Nat.eqb_refl. rewrite cells_all by auto. rewrite Hs. cbn [w_blocks w_refs w_stolen w_next w_exc w_objs w_sys].
  rewrite Hb. cbn [bget bdel]. rewrite E, !Nat.eqb_refl. cbn [bget bdel w_blocks w_refs w_stolen w_next w_exc w_objs w_sys].
  rewrite !Nat.eqb_refl. reflexivity.
Qed.

(** [becomes] and the like *)
Lemma becomes_same : forall (w w' : W) h s, w_sys w h = Some s -> w_sys w' = w_sys w -> becomes w w' h s.
Proof. intros w w' h s H E k. rewrite E. destruct (Nat.eqb k h) eqn:Ek; auto. apply Nat.eqb_eq in Ek. subst. auto. Qed.

Lemma step_unfold : forall C X V T D,
  f_step L mok [C; X; V; T; D] =
  bnd (parse_tuple L [FO; FO; FO; FD; FD] [] [C; X; V; T; D]) (fun a =>
  bnd (need (s_obj a 0)) (fun c => bnd (need (s_obj a 1)) (fun x => bnd (need (s_obj a 2)) (fun v =>
  bnd (need (s_dbl a 3)) (fun t => bnd (need (s_dbl a 4)) (fun dt =>
  bnd (pointer KSystem (snd c)) (fun h => bnd (live (fst h)) (fun s =>
  bnd (get_seq x (l_ndof L s)) (fun x => bnd (get_seq v (l_ndof L s)) (fun v =>
  bnd (py_iterable_to_double L mok (snd x)) (fun xa => bnd (decref (fst x)) (fun _ =>
  bnd (py_iterable_to_double L mok (snd v)) (fun va => bnd (decref (fst v)) (fun _ =>
  match xa, va with
  | Some px, Some pv =>
      bnd (malloc mok (l_ndof L s)) (fun forces =>
      match forces with
      | None => bnd (raise XMemory) (fun _ => leave None)
      | Some pf =>
          bnd (fetch px (l_ndof L s)) (fun xs => bnd (fetch pv (l_ndof L s)) (fun vs =>
          bnd (ccall L "MoorDyn_Step" (fst h) 0 [CArr xs; CArr vs; CDbl t; CDbl dt]) (fun r =>
          bnd (if c_err r =? 0 then fill pf (l_ndof L s) (c_out r) else ret tt) (fun _ =>
          bnd (free px) (fun _ => bnd (free pv) (fun _ =>
          bnd (check_err (c_err r)) (fun _ =>
          bnd (tuple_of pf (l_ndof L s)) (fun o =>
          bnd (free pf) (fun _ => leave (Some o))))))))))
      end)
  | _, _ => leave None
  end)))))))))))))).
Proof. reflexivity. Qed.

(** the part of [f_step] behind the arrays *)
Definition step_tail (n h : nat) (t dt : F) (px pv : nat) : M unit :=
      bnd (malloc mok n) (fun forces =>
      match forces with
      | None => bnd (raise XMemory) (fun _ => leave None)
      | Some pf =>
          bnd (fetch px n) (fun xs => bnd (fetch pv n) (fun vs =>
          bnd (ccall L "MoorDyn_Step" h 0 [CArr xs; CArr vs; CDbl t; CDbl dt]) (fun r =>
          bnd (if c_err r =? 0 then fill pf n (c_out r) else ret tt) (fun _ =>
          bnd (free px) (fun _ => bnd (free pv) (fun _ =>
          bnd (check_err (c_err r)) (fun _ =>
          bnd (tuple_of pf n) (fun o =>
          bnd (free pf) (fun _ => leave (Some o))))))))))
      end).

Lemma step_tail_spec : forall n h t dt px pv s xs vs (w : W) b,
  w_sys w h = Some s -> w_blocks w = (pv, map Some vs) :: (px, map Some xs) :: b ->
  (px < pv)%nat -> (pv < w_next w)%nat -> length xs = n -> length vs = n ->
  exists w', step_tail n h t dt px pv w =
    (if mok (w_next w) n then
       let r := l_call L "MoorDyn_Step" s 0 [CArr xs; CArr vs; CDbl t; CDbl dt] in
       if c_err r =? 0 then Ret (Some (ONew (Datatypes.S (w_next w)))) w' else Ret None w'
     else Ret None w') /\
    w_stolen w' = w_stolen w /\
    (if mok (w_next w) n then
       let r := l_call L "MoorDyn_Step" s 0 [CArr xs; CArr vs; CDbl t; CDbl dt] in
       w_sys w' = (fun k => if Nat.eqb k h then Some (c_sys r) else w_sys w k) /\
       if c_err r =? 0 then
         w_refs w' = ONew (Datatypes.S (w_next w)) :: w_refs w /\ w_blocks w' = b /\ w_exc w' = w_exc w /\
         oget (Datatypes.S (w_next w)) (w_objs w') = PTup (map (fun i => PFlt (c_out r i)) (seq 0 n))
       else w_refs w' = w_refs w /\ (exists c, w_blocks w' = (w_next w, c) :: b) /\ w_exc w' = Some XRuntime
     else w_sys w' = w_sys w /\ w_refs w' = w_refs w /\ w_blocks w' = w_blocks w /\ w_exc w' = Some XMemory).
Proof.
  intros n h t dt px pv s xs vs w b Hs Hb H1 H2 Hx Hv.
  unfold step_tail, bnd at 1, malloc. destruct (mok (w_next w) n) eqn:M1; cbv zeta.
  - assert (E1: Nat.eqb (w_next w) px = false) by (apply Nat.eqb_neq; lia).
    assert (E2: Nat.eqb (w_next w) pv = false) by (apply Nat.eqb_neq; lia).
    assert (E3: Nat.eqb pv px = false) by (apply Nat.eqb_neq; lia).
    unfold fetch at 1, bnd at 1. cbn [w_blocks]. rewrite Hb. cbn [bget]. rewrite E1, E3, Nat.eqb_refl, cells_all by auto.
    unfold fetch at 1, bnd at 1. cbn [w_blocks bget]. rewrite E2, Nat.eqb_refl, cells_all by auto.
    unfold ccall at 1. unfold bnd at 1, bnd at 1, live. cbn [w_sys]. rewrite Hs.
    unfold bnd at 1, keep, ret at 1. cbn [w_blocks w_refs w_stolen w_next w_exc w_objs w_sys].
    set (r := l_call L "MoorDyn_Step" s 0 [CArr xs; CArr vs; CDbl t; CDbl dt]).
    destruct (c_err r =? 0) eqn:Er.
    + unfold bnd at 1, fill. cbn [w_blocks bget]. rewrite Nat.eqb_refl, put_all_new. unfold set_blocks.
      cbn [w_blocks w_refs w_stolen w_next w_exc w_objs w_sys bset]. rewrite Nat.eqb_refl.
      unfold bnd at 1, free at 1. cbn [w_blocks w_refs w_stolen w_next w_exc w_objs w_sys bget]. rewrite E1, E3, Nat.eqb_refl. unfold set_blocks.
      cbn [w_blocks w_refs w_stolen w_next w_exc w_objs w_sys bdel]. rewrite E1, E3, Nat.eqb_refl.
      unfold bnd at 1, free at 1. cbn [w_blocks w_refs w_stolen w_next w_exc w_objs w_sys bget]. rewrite E2, Nat.eqb_refl. unfold set_blocks.
      cbn [w_blocks w_refs w_stolen w_next w_exc w_objs w_sys bdel]. rewrite E2, Nat.eqb_refl.
      unfold bnd at 1, check_err. rewrite Er. unfold ret at 1.
      unfold bnd at 1, tuple_of, bnd at 1, fetch. cbn [w_blocks w_refs w_stolen w_next w_exc w_objs w_sys bget].
      rewrite Nat.eqb_refl, (cells_seq n (c_out r)) by reflexivity.
      unfold newobj. cbn [w_blocks w_refs w_stolen w_next w_exc w_objs w_sys].
      unfold bnd at 1, free at 1. cbn [w_blocks w_refs w_stolen w_next w_exc w_objs w_sys bget]. rewrite Nat.eqb_refl.
      unfold set_blocks. cbn [w_blocks w_refs w_stolen w_next w_exc w_objs w_sys bdel]. rewrite Nat.eqb_refl.
      unfold leave. eexists. split; [reflexivity|]. cbn [w_blocks w_refs w_stolen w_next w_exc w_objs w_sys].
      repeat split; auto. simpl. rewrite Nat.eqb_refl. rewrite map_map. auto.
    + unfold bnd at 1, ret at 1.
      unfold bnd at 1, free at 1. cbn [w_blocks w_refs w_stolen w_next w_exc w_objs w_sys bget]. rewrite E1, E3, Nat.eqb_refl. unfold set_blocks.
      cbn [w_blocks w_refs w_stolen w_next w_exc w_objs w_sys bdel]. rewrite E1, E3, Nat.eqb_refl.
      unfold bnd at 1, free at 1. cbn [w_blocks w_refs w_stolen w_next w_exc w_objs w_sys bget]. rewrite E2, Nat.eqb_refl. unfold set_blocks.
      cbn [w_blocks w_refs w_stolen w_next w_exc w_objs w_sys bdel]. rewrite E2, Nat.eqb_refl.
      unfold bnd at 1, check_err. rewrite Er. unfold bnd, raise, leave.
      eexists. split; [reflexivity|]. cbn [w_blocks w_refs w_stolen w_next w_exc w_objs w_sys].
      repeat split; auto. eexists. reflexivity.
  - unfold bnd, raise, leave. eexists. split; [reflexivity|]. simpl. repeat split; auto.
Qed.

(** [f_step] from its parsed arguments on *)
Lemma step_parsed : forall h i X V t dt s (w : W),
  w_sys w h = Some s ->
  f_step L mok [PCap KSystem h i; X; V; PFlt t; PFlt dt] w =
  bnd (two_arrays L mok (OArg 1, X) (OArg 2, V) (l_ndof L s)) (fun p =>
    match fst p, snd p with Some px, Some pv => step_tail (l_ndof L s) h t dt px pv | _, _ => leave None end) w.
Proof.
  intros h i X V t dt s w Hs. rewrite step_unfold.
  unfold bnd at 1. cbn [parse_tuple parse length Nat.ltb Nat.leb orb Nat.add app parse_all parse1 ret].
  unfold bnd at 1. cbn [s_obj nth_error need ret]. unfold bnd at 1. cbn [s_obj nth_error need ret].
  unfold bnd at 1. cbn [s_obj nth_error need ret]. unfold bnd at 1. cbn [s_dbl nth_error need ret].
  unfold bnd at 1. cbn [s_dbl nth_error need ret]. unfold bnd at 1. cbn [snd pointer kind_eqb ret].
  assert (Hl: live (fst (h, i)) w = Val s w) by (unfold live; simpl; rewrite Hs; auto).
  unfold bnd at 1. rewrite Hl. 
  etransitivity; [|exact (two_arrays_then L mok unit (OArg 1, X) (OArg 2, V) (l_ndof L s)
    (fun xa va => match xa, va with Some px, Some pv => step_tail (l_ndof L s) h t dt px pv | _, _ => leave None end) w)].
  reflexivity.
Qed.

Lemma step_call : forall h i X V t dt s (w : W),
  (forall a k, mok a k = true) -> w_sys w h = Some s -> w_exc w = None ->
  exists w', pycall (f_step L mok) [PCap KSystem h i; X; V; PFlt t; PFlt dt] w = (fst (step_answer L s X V t dt), Some w') /\
    becomes w w' h (snd (step_answer L s X V t dt)) /\ w_exc w' = None /\
    left_behind w w' (fst (step_leaves L s X V t dt)) (snd (step_leaves L s X V t dt)).
Proof.
  intros h i X V t dt s w Hm Hs Hex. unfold pycall. rewrite (step_parsed _ _ _ _ _ _ s) by auto.
  unfold step_leaves, step_answer.
  destruct (two_arrays_spec L mok (OArg 1, X) (OArg 2, V) (l_ndof L s) w Hex) as [H|H]; try discriminate; simpl fst in *; simpl snd in *.
  - destruct H as (w1 & r & H & Hr & Hst & Hb & Hsy & e & He & Hne & Ht & Hl).
    unfold bnd. rewrite H, Ht. cbn [finish fst snd]. rewrite He. eexists. split; [reflexivity|].
    split; [|split; [reflexivity|]].
    + apply becomes_same; auto.
    + assert (Hl': (match e with XRuntime => two_leaves L (l_ndof L s) X V | _ => two_leaves L (l_ndof L s) X V end) = (length r, 0%nat))
        by (destruct e; auto).
      assert (Hl'': (match e with XRuntime => match @inr (list F * list F) pyx e with inl _ => (0, 1)%nat | inr _ => two_leaves L (l_ndof L s) X V end
                                | _ => two_leaves L (l_ndof L s) X V end) = (length r, 0%nat)) by (destruct e; auto).
      exists r, []. destruct e; rewrite <- Hl; cbn [fst snd w_refs w_blocks w_stolen]; repeat split; auto.
  - destruct H as (w1 & xa & va & b & H & Hr & Hst & Hb & Hsy & Hlb & HN & HS).
    unfold bnd. rewrite H. cbn [fst snd].
    assert (Hnone: xa = None \/ va = None ->
       exists w', finish [PCap KSystem h i; X; V; PFlt t; PFlt dt] (Ret None w1) = (fst (step_answer L s X V t dt), Some w') /\
         becomes w w' h (snd (step_answer L s X V t dt)) /\ w_exc w' = None /\
         left_behind w w' (fst (step_leaves L s X V t dt)) (snd (step_leaves L s X V t dt))).
    { intros Hn. destruct (HN Hn) as (e & He & Hne & Hq). destruct (Hq Hm) as [Ht Hl].
      unfold step_leaves, step_answer. rewrite Ht. cbn [finish fst snd]. rewrite He. eexists. split; [reflexivity|].
      split; [|split; [reflexivity|]].
      - apply becomes_same; auto.
      - exists [], b. destruct e; rewrite <- Hl; cbn [fst snd w_refs w_blocks w_stolen]; repeat split; auto. }
    destruct xa as [px|]; [|apply Hnone; auto]. destruct va as [pv|]; [|apply Hnone; auto]. clear Hnone HN.
    destruct (HS px pv eq_refl eq_refl) as (xs & vs & Hx1 & Ht & Hl & Hlx & Hlv & -> & Hlt & Hlt2).
    rewrite Ht, Hl.
    rewrite <- Hsy in Hs. destruct (step_tail_spec (l_ndof L s) h t dt px pv s xs vs w1 (w_blocks w) Hs Hb Hlt Hlt2 Hlx Hlv)
      as (w2 & E & Hst2 & HR).
    rewrite E. rewrite Hm in *. cbv zeta in HR |- *.
    set (rr := l_call L "MoorDyn_Step" s 0 [CArr xs; CArr vs; CDbl t; CDbl dt]) in *.
    destruct HR as [Hsy2 HR]. destruct (c_err rr =? 0) eqn:Er; cbn [finish fst snd].
    + destruct HR as (Hr2 & Hb2 & He2 & Ho). rewrite He2, Hx1, Hr2, drop_head, Ho. eexists. split; [reflexivity|].
      split; [|split; [reflexivity|]].
      * intros k. cbn [w_sys]. rewrite Hsy2, Hsy. auto.
      * exists [], []. cbn [w_refs w_blocks w_stolen app length]. repeat split; auto; congruence.
    + destruct HR as (Hr2 & [c Hb2] & He2). rewrite He2. eexists. split; [reflexivity|].
      split; [|split; [reflexivity|]].
      * intros k. cbn [w_sys]. rewrite Hsy2, Hsy. auto.
      * exists [], [(w_next w1, c)]. cbn [w_refs w_blocks w_stolen app length]. repeat split; auto; congruence.
Qed.
End P.
