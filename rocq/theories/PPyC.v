(** Proofs about the Python module: init, ext_wave_set, line_set_pint. *)
From Coq Require Import String ZArith List Arith Bool Lia.
From Verif Require Import MPy SPy PPy PPyB.
Import ListNotations.
Open Scope Z_scope.

Section P.
Context {S F : Type}.
Variable L : lib S F.
Variable mok : nat -> nat -> bool.
Notation W := (world S F).

(** the part of init and ext_wave_set behind the arrays *)
Definition code_tail (f : string) (n h : nat) (mk : list F -> list F -> list (carg F)) (px pv : nat) : @M S F unit :=
  bnd (fetch px n) (fun xs => bnd (fetch pv n) (fun vs =>
  bnd (ccall L f h 0 (mk xs vs)) (fun r => bnd (free px) (fun _ => bnd (free pv) (fun _ =>
  bnd (newobj (PInt (c_err r))) (fun o => leave (Some o))))))).

Lemma code_tail_spec : forall f n h mk px pv s xs vs (w : W) b,
  w_sys w h = Some s -> w_blocks w = (pv, map Some vs) :: (px, map Some xs) :: b -> (px < pv)%nat ->
  length xs = n -> length vs = n ->
  exists w', code_tail f n h mk px pv w = Ret (Some (ONew (w_next w))) w' /\
    let r := l_call L f s 0 (mk xs vs) in
    w_sys w' = (fun k => if Nat.eqb k h then Some (c_sys r) else w_sys w k) /\
    w_refs w' = ONew (w_next w) :: w_refs w /\ w_stolen w' = w_stolen w /\ w_blocks w' = b /\ w_exc w' = w_exc w /\
    oget (w_next w) (w_objs w') = PInt (c_err r).
Proof.
  intros f n h mk px pv s xs vs w b Hs Hb Hlt Hx Hv.
  pose proof (ccall_two L f h s mk px pv xs vs w b Hs Hb Hlt) as H. cbv zeta in H.
  assert (E: code_tail f n h mk px pv w =
    bnd (bnd (fetch px (length xs)) (fun x => bnd (fetch pv (length vs)) (fun v =>
      bnd (ccall L f h 0 (mk x v)) (fun r => bnd (free px) (fun _ => bnd (free pv) (fun _ => ret r))))))
      (fun r => bnd (newobj (PInt (c_err r))) (fun o => leave (Some o))) w).
  { unfold code_tail. rewrite Hx, Hv. symmetry.
    rewrite bnd_assoc. apply bnd_ext; intros. rewrite bnd_assoc. apply bnd_ext; intros.
    rewrite bnd_assoc. apply bnd_ext; intros. rewrite bnd_assoc. apply bnd_ext; intros.
    rewrite bnd_assoc. apply bnd_ext; intros. reflexivity. }
  rewrite E. unfold bnd at 1. rewrite H. unfold bnd, newobj, leave. cbv zeta.
  eexists. split; [reflexivity|]. cbn [w_blocks w_refs w_stolen w_next w_exc w_objs w_sys oget]. rewrite Nat.eqb_refl. auto 10.
Qed.

Definition code_body (f : string) (n h : nat) (mk : list F -> list F -> list (carg F)) (X V : obj * pyv F) : @M S F unit :=
  bnd (two_arrays L mok X V n) (fun p =>
    match fst p, snd p with Some px, Some pv => code_tail f n h mk px pv | _, _ => leave None end).

Lemma code_body_call : forall f n h mk X V s (w : W) args,
  (forall a k, mok a k = true) -> w_sys w h = Some s -> w_exc w = None ->
  let ans := match two L n X V with
             | inr e => (PyExc e, s)
             | inl (x, v) => (PyVal (PInt (c_err (l_call L f s 0 (mk x v)))), c_sys (l_call L f s 0 (mk x v)))
             end in
  exists w', finish args (code_body f n h mk (OArg 1, X) (OArg 2, V) w) = (fst ans, Some w') /\
    becomes w w' h (snd ans) /\ w_exc w' = None /\ left_behind w w' (fst (two_leaves L n X V)) (snd (two_leaves L n X V)).
Proof.
  intros f n h mk X V s w args Hm Hs Hex. cbv zeta. unfold code_body.
  destruct (two_arrays_spec L mok (OArg 1, X) (OArg 2, V) n w Hex) as [H|H]; try discriminate; simpl fst in *; simpl snd in *.
  - destruct H as (w1 & r & H & Hr & Hst & Hb & Hsy & e & He & Hne & Ht & Hl).
    unfold bnd. rewrite H, Ht. cbn [finish fst snd]. rewrite He. eexists. split; [reflexivity|].
    split; [apply becomes_same; auto|split; [reflexivity|]].
    exists r, []. rewrite <- Hl; cbn [fst snd w_refs w_blocks w_stolen]; repeat split; auto.
  - destruct H as (w1 & xa & va & b & H & Hr & Hst & Hb & Hsy & Hlb & HN & HS).
    unfold bnd. rewrite H. cbn [fst snd].
    match goal with |- ?G => assert (Hnone: xa = None \/ va = None -> exists w', finish args (Ret None w1) =
         (fst (match two L n X V with
             | inr e => (PyExc e, s)
             | inl (x, v) => (PyVal (PInt (c_err (l_call L f s 0 (mk x v)))), c_sys (l_call L f s 0 (mk x v)))
             end), Some w') /\ becomes w w' h (snd (match two L n X V with
             | inr e => (@PyExc F e, s)
             | inl (x, v) => (PyVal (PInt (c_err (l_call L f s 0 (mk x v)))), c_sys (l_call L f s 0 (mk x v)))
             end)) /\ w_exc w' = None /\ left_behind w w' (fst (two_leaves L n X V)) (snd (two_leaves L n X V))) end.
    { intros Hn. destruct (HN Hn) as (e & He & Hne & Hq). destruct (Hq Hm) as [Ht Hl].
      rewrite Ht. cbn [finish fst snd]. rewrite He. eexists. split; [reflexivity|].
      split; [apply becomes_same; auto|split; [reflexivity|]].
      exists [], b. rewrite <- Hl; cbn [fst snd w_refs w_blocks w_stolen]; repeat split; auto. }
    destruct xa as [px|]; [|apply Hnone; auto]. destruct va as [pv|]; [|apply Hnone; auto]. clear Hnone HN.
    destruct (HS px pv eq_refl eq_refl) as (xs & vs & Hx1 & Ht & Hl & Hlx & Hlv & -> & Hlt & Hlt2).
    rewrite Ht, Hl.
    rewrite <- Hsy in Hs. destruct (code_tail_spec f n h mk px pv s xs vs w1 (w_blocks w) Hs Hb Hlt Hlx Hlv)
      as (w2 & E & Hsy2 & Hr2 & Hst2 & Hb2 & He2 & Ho).
    rewrite E. cbn [finish fst snd]. rewrite He2, Hx1, Hr2, drop_head, Ho. eexists. split; [reflexivity|].
    split; [|split; [reflexivity|]].
    + intros k. cbn [w_sys]. rewrite Hsy2, Hsy. auto.
    + exists [], []. cbn [w_refs w_blocks w_stolen app length]. repeat split; auto; congruence.
Qed.

Lemma init_parsed : forall h i X V (o : option Z) s (w : W),
  w_sys w h = Some s -> (forall z, o = Some z -> int_min <= z <= int_max) ->
  f_init L mok ([PCap KSystem h i; X; V] ++ match o with Some z => [PInt z] | None => [] end) w =
  code_body (if match o with Some z => z | None => 0 end =? 0 then "MoorDyn_Init" else "MoorDyn_Init_NoIC") (l_ndof L s) h
    (fun x v => [CArr x; CArr v]) (OArg 1, X) (OArg 2, V) w.
Proof.
  intros h i X V o s w Hs Ho. unfold f_init, code_body.
  assert (Hl: live (fst (h, i)) w = Val s w) by (unfold live; simpl; rewrite Hs; auto).
  etransitivity; [|exact (two_arrays_then L mok unit (OArg 1, X) (OArg 2, V) (l_ndof L s)
    (fun xa va => match xa, va with Some px, Some pv => code_tail (if match o with Some z => z | None => 0 end =? 0 then "MoorDyn_Init" else "MoorDyn_Init_NoIC") (l_ndof L s) h (fun x v => [CArr x; CArr v]) px pv | _, _ => leave None end) w)].
  destruct o as [z|]; simpl app.
  - assert (Hp: parse_tuple L [FO; FO; FO] [FI] [PCap KSystem h i; X; V; PInt z] w =
        Val [VO (OArg 0) (PCap KSystem h i); VO (OArg 1) X; VO (OArg 2) V; VI z] w).
    { destruct (Ho z eq_refl) as [H1 H2]. apply Z.leb_le in H1, H2. unfold parse_tuple, parse.
      cbn [length Nat.ltb Nat.leb orb Nat.add app parse_all parse1]. rewrite H1, H2. reflexivity. }
    unfold bnd at 1. rewrite Hp.
    unfold bnd at 1. cbn [s_obj nth_error need ret]. unfold bnd at 1. cbn [s_obj nth_error need ret].
    unfold bnd at 1. cbn [s_obj nth_error need ret]. cbn [s_int nth_error]. cbv zeta.
    unfold bnd at 1. cbn [snd pointer kind_eqb ret].
    unfold bnd at 1. rewrite Hl. reflexivity.
  - unfold bnd at 1. cbn [parse_tuple parse length Nat.ltb Nat.leb orb Nat.add app parse_all parse1 ret].
    unfold bnd at 1. cbn [s_obj nth_error need ret]. unfold bnd at 1. cbn [s_obj nth_error need ret].
    unfold bnd at 1. cbn [s_obj nth_error need ret]. cbn [s_int nth_error]. cbv zeta.
    unfold bnd at 1. cbn [snd pointer kind_eqb ret].
    unfold bnd at 1. rewrite Hl. reflexivity.
Qed.

Lemma wave_parsed : forall h i X V t s (w : W),
  w_sys w h = Some s ->
  f_ext_wave_set L mok [PCap KSystem h i; X; V; PFlt t] w =
  code_body "MoorDyn_ExternalWaveKinSet" (l_wn L s * 3) h (fun x v => [CArr x; CArr v; CDbl t]) (OArg 1, X) (OArg 2, V) w.
Proof.
  intros h i X V t s w Hs. unfold f_ext_wave_set, code_body.
  assert (Hl: live (fst (h, i)) w = Val s w) by (unfold live; simpl; rewrite Hs; auto).
  etransitivity; [|exact (two_arrays_then L mok unit (OArg 1, X) (OArg 2, V) (l_wn L s * 3)%nat
    (fun xa va => match xa, va with Some px, Some pv => code_tail "MoorDyn_ExternalWaveKinSet" (l_wn L s * 3)%nat h (fun x v => [CArr x; CArr v; CDbl t]) px pv | _, _ => leave None end) w)].
  unfold bnd at 1. cbn [parse_tuple parse length Nat.ltb Nat.leb orb Nat.add app parse_all parse1 ret].
  unfold bnd at 1. cbn [s_obj nth_error need ret]. unfold bnd at 1. cbn [s_obj nth_error need ret].
  unfold bnd at 1. cbn [s_obj nth_error need ret]. unfold bnd at 1. cbn [s_dbl nth_error need ret].
  unfold bnd at 1. cbn [snd pointer kind_eqb ret].
  unfold bnd at 1. rewrite Hl. reflexivity.
Qed.

Lemma init_call : forall h i X V (o : option Z) s (w : W),
  (forall a k, mok a k = true) -> w_sys w h = Some s -> w_exc w = None -> (forall z, o = Some z -> int_min <= z <= int_max) ->
  let skip := match o with Some z => negb (z =? 0) | None => false end in
  exists w', pycall (f_init L mok) ([PCap KSystem h i; X; V] ++ match o with Some z => [PInt z] | None => [] end) w =
      (fst (init_answer L s X V skip), Some w') /\
    becomes w w' h (snd (init_answer L s X V skip)) /\ w_exc w' = None /\
    left_behind w w' (fst (two_leaves L (l_ndof L s) X V)) (snd (two_leaves L (l_ndof L s) X V)).
Proof.
  intros h i X V o s w Hm Hs Hex Ho. cbv zeta. unfold pycall. rewrite (init_parsed h i X V o s w Hs Ho).
  destruct (code_body_call (if match o with Some z => z | None => 0 end =? 0 then "MoorDyn_Init" else "MoorDyn_Init_NoIC")
     (l_ndof L s) h (fun x v => [CArr x; CArr v]) X V s w
     ([PCap KSystem h i; X; V] ++ match o with Some z => [PInt z] | None => [] end) Hm Hs Hex) as (w' & H).
  exists w'. unfold init_answer.
  replace (if match o with Some z => negb (z =? 0) | None => false end then "MoorDyn_Init_NoIC"%string else "MoorDyn_Init"%string)
    with (if match o with Some z => z | None => 0 end =? 0 then "MoorDyn_Init"%string else "MoorDyn_Init_NoIC"%string).
  - exact H.
  - destruct o as [z|]; auto. destruct (z =? 0); auto.
Qed.

Lemma wave_call : forall h i U A t s (w : W),
  (forall a k, mok a k = true) -> w_sys w h = Some s -> w_exc w = None ->
  exists w', pycall (f_ext_wave_set L mok) [PCap KSystem h i; U; A; PFlt t] w = (fst (wave_answer L s U A t), Some w') /\
    becomes w w' h (snd (wave_answer L s U A t)) /\ w_exc w' = None /\
    left_behind w w' (fst (two_leaves L (3 * l_wn L s) U A)) (snd (two_leaves L (3 * l_wn L s) U A)).
Proof.
  intros h i U A t s w Hm Hs Hex. unfold pycall. rewrite (wave_parsed h i U A t s w Hs).
  destruct (code_body_call "MoorDyn_ExternalWaveKinSet" (l_wn L s * 3) h (fun x v => [CArr x; CArr v; CDbl t]) U A s w
     [PCap KSystem h i; U; A; PFlt t] Hm Hs Hex) as (w' & H).
  exists w'. unfold wave_answer. rewrite (Nat.mul_comm 3). exact H.
Qed.

(* ------------------------------ line_set_pint ------------------------------ *)
Definition pint_leaves (s : S) (i : nat) (P : pyv F) : nat :=
  match items P with inr _ => 0 | inl ps => if negb (Nat.eqb (length ps) (l_lineN L s i + 1)) then 1 else 0 end.

(** the part behind the parsing *)
Definition pint_body (h i : nat) (p : obj * pyv F) : @M S F unit :=
  bnd (seq_fast p) (fun q => match q with
  | None => leave None
  | Some (o, l) =>
      bnd (live h) (fun s =>
      bnd (if Nat.eqb (length l) (l_lineN L s i + 1) then ret tt else bnd (raise XValue) (fun _ => leave None)) (fun _ =>
      bnd (py_iterable_to_double L mok l) (fun pin => bnd (decref o) (fun _ =>
      match pin with
      | None => leave None
      | Some b =>
          bnd (fetch b (l_lineN L s i + 1)) (fun xs =>
          bnd (ccall L "MoorDyn_SetLinePressInt" h i [CArr xs]) (fun r =>
          bnd (free b) (fun _ => bnd (check_err (c_err r)) (fun _ => leave (Some ONone)))))
      end))))
  end).

Lemma pint_body_spec : forall h i P s (w : W), w_sys w h = Some s -> w_exc w = None ->
  exists o w', pint_body h i (OArg 1, P) w = Ret o w' /\ w_stolen w' = w_stolen w /\ w_blocks w' = w_blocks w /\
    (exists lr, length lr = pint_leaves s i P /\ w_refs w' = lr ++ w_refs w) /\
    (o = Some ONone /\ w_exc w' = None \/ o = None /\ exists e, w_exc w' = Some e /\ e <> XSystem) /\
    ((forall a k, mok a k = true) -> becomes w w' h (snd (pint_answer L s i P)) /\
      match fst (pint_answer L s i P) with PyExc e => o = None /\ w_exc w' = Some e | _ => o = Some ONone end).
Proof.
  intros h i P s w Hs Hex. unfold pint_body, pint_answer, pint_leaves.
  assert (Hne: forall (a : pyv F) e, items a = inr e -> e <> XSystem).
  { intros a e. destruct a; simpl; try discriminate; try (intros [= <-]; discriminate).
    destruct raises; try discriminate; intros [= <-]; discriminate. }
  pose proof (seq_fast_spec (OArg 1, P) w) as H. simpl snd in H. destruct (items P) as [l|e] eqn:EP.
  2: { unfold bnd at 1. rewrite H. unfold leave. exists None. eexists. split; [reflexivity|]. simpl. repeat split; auto.
       - exists []. auto.
       - right. split; auto. exists e. split; auto. eapply Hne; eauto.
       - apply becomes_same; auto. }
  destruct H as (o & nx & ob & H & _). unfold bnd at 1. rewrite H. clear H.
  unfold bnd at 1, live. cbn [w_sys]. rewrite Hs.
  destruct (Nat.eqb (length l) (l_lineN L s i + 1)) eqn:El.
  2: { unfold bnd, raise, leave. exists None. eexists. split; [reflexivity|]. simpl. repeat split; auto.
       - exists [o]. auto.
       - right. split; auto. exists XValue. split; auto. discriminate.
       - apply becomes_same; auto. }
  unfold bnd at 1, ret at 1. unfold bnd at 1. rewrite convert_spec. cbn [w_next]. simpl negb. cbv iota.
  destruct (mok nx (length l)) eqn:M1.
  - destruct (floats L l) as [fs|] eqn:Ef.
    + unfold bnd at 1, decref. cbn [head_block bump w_refs w_stolen w_blocks w_next w_exc w_objs w_sys].
      rewrite drop_head. unfold bnd at 1, fetch. cbn [w_blocks bget]. rewrite Nat.eqb_refl.
      apply Nat.eqb_eq in El. rewrite (cells_all fs) by (rewrite (floats_length _ _ _ Ef); auto).
      unfold ccall, bnd at 1, bnd at 1, live. cbn [w_sys]. rewrite Hs. unfold bnd at 1, keep, ret at 1.
      cbn [w_refs w_stolen w_blocks w_next w_exc w_objs w_sys].
      unfold bnd at 1, free. cbn [w_blocks bget]. rewrite Nat.eqb_refl. cbn [set_blocks w_refs w_stolen w_blocks w_next w_exc w_objs w_sys bdel].
      rewrite Nat.eqb_refl. set (r := l_call L "MoorDyn_SetLinePressInt" s i [CArr fs]).
      unfold bnd at 1, check_err. destruct (c_err r =? 0) eqn:Er; unfold bnd, raise, leave, ret.
      * exists (Some ONone). eexists. split; [reflexivity|]. simpl. repeat split; auto. exists []. auto.
      * exists None. eexists. split; [reflexivity|]. simpl. repeat split; auto. exists []. auto.
        right. split; auto. exists XRuntime. split; auto. discriminate.
    + unfold bnd at 1, decref. cbn [with_exc bump w_refs w_stolen w_blocks w_next w_exc w_objs w_sys].
      rewrite drop_head. unfold leave. exists None. eexists. split; [reflexivity|]. simpl. repeat split; auto.
      * exists []. auto.
      * right. split; auto. exists XType. split; auto. discriminate.
      * apply becomes_same; auto.
  - unfold bnd at 1, decref. cbn [with_exc bump w_refs w_stolen w_blocks w_next w_exc w_objs w_sys].
    rewrite drop_head. unfold leave. exists None. eexists. split; [reflexivity|]. simpl. repeat split; auto.
    * exists []. auto.
    * right. split; auto. exists XMemory. split; auto. discriminate.
    * rewrite H in M1. discriminate.
    * rewrite H in M1. discriminate.
Qed.

Lemma pint_parsed : forall h i P (w : W),
  f_line_set_pint L mok [PCap KLine h i; P] w = pint_body h i (OArg 1, P) w.
Proof. reflexivity. Qed.
End P.
