(** Proofs about the Python module: what is left behind, wrong and dangling handles. *)
From Coq Require Import String ZArith List Arith Bool Lia.
From Verif Require Import MPy SPy PPy PPyB PPyC PPyD.
Import ListNotations.
Open Scope Z_scope.

Section P.
Context {S F : Type}.
Variable L : lib S F.
Variable mok : nat -> nat -> bool.
Notation W := (world S F).

Lemma finish_none : forall args e (w : W), w_exc w = Some e ->
  finish args (Ret None w) = (PyExc e, Some (World (w_refs w) (w_stolen w) (w_blocks w) (w_next w) None (w_objs w) (w_sys w))).
Proof. intros. simpl. rewrite H. auto. Qed.

(* ------------------------ handles of another kind ------------------------ *)

Definition refusal (w : W) (r : res S F unit) : Prop := exists e, r = Ret None (with_exc e w) /\ e <> XSystem.

Ltac parsing' req opt args w :=
  let e := fresh "e" in let l := fresh "l" in let H := fresh "Hp" in let H2 := fresh "Hq" in
  destruct (parse_case L req opt args w) as [(e & H & H2)|(l & H & H2)];
  [rewrite (bnd_ret _ _ _ _ _ _ _ H); exists e; split; [reflexivity|assumption] | rewrite (bnd_val _ _ _ _ _ _ _ H)].
Ltac objarg' k :=
  let a := fresh "a" in let H := fresh "Ha" in let H2 := fresh "Hs" in
  match goal with
  | Hq : parse _ _ _ _ = inl _ |- _ =>
      destruct (parse_obj _ _ _ _ _ k Hq eq_refl) as (a & H & H2); rewrite (bnd_val _ _ _ _ _ _ _ (need_some _ _ _ _ H2)); cbn [snd]
  end.
Ltac dblarg' k :=
  let f := fresh "f" in let H := fresh "Hf" in
  match goal with
  | Hq : parse _ _ _ _ = inl _ |- _ =>
      destruct (parse_dbl _ _ _ _ _ k Hq eq_refl) as (f & H); rewrite (bnd_val _ _ _ _ _ _ _ (need_some _ _ _ _ H))
  end.
Ltac intarg' k :=
  let f := fresh "z" in let H := fresh "Hz" in
  match goal with
  | Hq : parse _ _ _ _ = inl _ |- _ =>
      destruct (parse_int _ _ _ _ _ k Hq eq_refl) as (f & H); rewrite (bnd_val _ _ _ _ _ _ _ (need_some _ _ _ _ H))
  end.
Ltac bytearg' k :=
  let f := fresh "z" in let H := fresh "Hz" in
  match goal with
  | Hq : parse _ _ _ _ = inl _ |- _ =>
      destruct (parse_byte _ _ _ _ _ k Hq eq_refl) as (f & H); rewrite (bnd_val _ _ _ _ _ _ _ (need_some _ _ _ _ H))
  end.
Ltac noptr Hk :=
  cbv zeta;
  match goal with
  | |- refusal ?w (bnd (pointer ?k ?a) _ ?w) =>
      let H := fresh in let h := fresh in let i := fresh in
      destruct (pointer_case k a w) as [H|(h & i & -> & H)];
      [rewrite (bnd_ret _ _ _ _ _ _ _ H); exists XValue; split; [reflexivity|discriminate]
      |exfalso; match goal with Ha : nth_error _ 0 = Some _ |- _ => eapply Hk; exact Ha end]
  end.

Lemma wrong_kind : forall k f args (w : W), takes L mok k f -> (forall h i, nth_error args 0 <> Some (PCap k h i)) -> refusal w (f args w).
Proof.
  intros k f args w Ht Hk. destruct Ht.
  - unfold f_init. parsing' [FO; FO; FO] [FI] args w. objarg' 0%nat. objarg' 1%nat. objarg' 2%nat. noptr Hk.
  - unfold f_step. parsing' [FO; FO; FO; FD; FD] (@nil funit) args w. objarg' 0%nat. objarg' 1%nat. objarg' 2%nat. dblarg' 3%nat. dblarg' 4%nat. noptr Hk.
  - unfold f_close. parsing' [FO] (@nil funit) args w. objarg' 0%nat. noptr Hk.
  - unfold f_ext_wave_coords. parsing' [FO] (@nil funit) args w. objarg' 0%nat. noptr Hk.
  - unfold f_ext_wave_set. parsing' [FO; FO; FO; FD] (@nil funit) args w. objarg' 0%nat. objarg' 1%nat. objarg' 2%nat. dblarg' 3%nat. noptr Hk.
  - unfold f_line_set_pint. parsing' [FO; FO] (@nil funit) args w. objarg' 0%nat. objarg' 1%nat. noptr Hk.
  - unfold f_get_fast_tens. parsing' [FO; FI] (@nil funit) args w. objarg' 0%nat. intarg' 1%nat. noptr Hk.
  - unfold f_serialize. parsing' [FO] (@nil funit) args w. objarg' 0%nat. noptr Hk.
  - unfold f_deserialize. parsing' [FO; FO] (@nil funit) args w. objarg' 0%nat. objarg' 1%nat. noptr Hk.
  - unfold f_waves_getkin. parsing' [FO; FD; FD; FD] [FO] args w. objarg' 0%nat. dblarg' 1%nat. dblarg' 2%nat. dblarg' 3%nat. noptr Hk.
  - unfold f_line_set_pbend. parsing' [FO; FB] (@nil funit) args w. objarg' 0%nat. bytearg' 1%nat. noptr Hk.
  - unfold f_simple. parsing' (FO :: fmt) (@nil funit) args w. objarg' 0%nat. noptr Hk.
Qed.

Lemma wrong_kind_call : forall k f args (w : W), takes L mok k f -> (forall h i, nth_error args 0 <> Some (PCap k h i)) ->
  exists e w', pycall f args w = (PyExc e, Some w') /\ e <> XSystem /\ clean w w' /\ untouched w w'.
Proof.
  intros k f args w Ht Hk. destruct (wrong_kind k f args w Ht Hk) as (e & H & He). unfold pycall. rewrite H.
  rewrite (finish_none args e) by reflexivity. do 2 eexists. split; [reflexivity|]. repeat split; auto.
Qed.

(* ------------------------ the functions that leave nothing behind ------------------------ *)
Definition tidy (w : W) (r : res S F unit) : Prop :=
  match r with
  | Ret None w' => holds w' = holds w
  | Ret (Some o) w' => holds w' = (o :: w_refs w, w_stolen w, w_blocks w)
  | _ => True
  end.
Lemma tidy_clean : forall args (w w' : W) r v, tidy w r -> finish args r = (v, Some w') -> clean w w'.
Proof.
  intros args w w' [[] w1|[o|] w1|] v; simpl; intros H Hf; try discriminate.
  - unfold holds in H. injection H as H1 H2 H3. rewrite H1, drop_head in Hf. injection Hf as _ <-.
    unfold clean, holds. simpl. congruence.
  - injection Hf as _ <-. exact H.
Qed.
Lemma tidy_exc : forall e (w : W), tidy w (Ret None (with_exc e w)).
Proof. reflexivity. Qed.
Ltac parsing2 req opt args w :=
  let e := fresh "e" in let l := fresh "l" in let H := fresh "Hp" in let H2 := fresh "Hq" in
  destruct (parse_case L req opt args w) as [(e & H & H2)|(l & H & H2)];
  [rewrite (bnd_ret _ _ _ _ _ _ _ H); reflexivity | rewrite (bnd_val _ _ _ _ _ _ _ H)].
Ltac ptr2 k a w h i :=
  let H := fresh "Hptr" in
  destruct (pointer_case k a w) as [H|(h & i & -> & H)];
  [rewrite (bnd_ret _ _ _ _ _ _ _ H); reflexivity | rewrite (bnd_val _ _ _ _ _ _ _ H); cbn [fst snd]].

Lemma close_tidy : forall args (w : W), tidy w (f_close L args w).
Proof.
  intros args w. unfold f_close. parsing2 [FO] (@nil funit) args w. objarg' 0%nat. ptr2 KSystem a w h i.
  unfold bnd at 1, live. destruct (w_sys w h); simpl; auto.
Qed.
Lemma create_tidy : forall args (w : W), tidy w (f_create L args w).
Proof.
  intros args w. unfold f_create. parsing2 (@nil funit) [FS] args w. destruct (l_create L (s_str l 0)); reflexivity.
Qed.
Lemma serialize_tidy : forall args (w : W), tidy w (f_serialize L mok args w).
Proof.
  intros args w. unfold f_serialize. parsing2 [FO] (@nil funit) args w. objarg' 0%nat. ptr2 KSystem a w h i.
  unfold bnd at 1, live. destruct (w_sys w h) as [s|]; [|simpl; auto].
  unfold bnd at 1, check_err at 1. destruct (fst (l_ser L s) =? 0) eqn:E; [|reflexivity]. unfold ret at 1.
  unfold bnd at 1, malloc. destruct (mok (w_next w) (length (snd (l_ser L s)))); [|reflexivity].
  unfold bnd at 1, check_err. rewrite E. unfold bnd, newobj, free, leave, ret. cbn [w_blocks bget]. rewrite Nat.eqb_refl.
  unfold set_blocks. cbn [w_blocks bdel w_refs w_stolen]. rewrite Nat.eqb_refl. reflexivity.
Qed.
Lemma coords_tidy : forall args (w : W), tidy w (f_ext_wave_coords L mok args w).
Proof.
  intros args w. unfold f_ext_wave_coords. parsing2 [FO] (@nil funit) args w. objarg' 0%nat. ptr2 KSystem a w h i.
  unfold bnd at 1, live. destruct (w_sys w h) as [s|] eqn:Heqo; [|simpl; auto]. cbv zeta.
  unfold bnd at 1, malloc. destruct (mok (w_next w) (l_wn L s * 3)); [|reflexivity].
  unfold bnd at 1. rewrite (ccall_val L _ h 0 _ s) by exact Heqo. cbn [w_refs w_stolen w_blocks w_next w_exc w_objs w_sys].
  set (r := l_call L "MoorDyn_ExternalWaveKinGetCoordinates" s 0 []).
  destruct (c_err r =? 0).
  - unfold bnd at 1, fill. cbn [w_blocks bget]. rewrite Nat.eqb_refl, put_all_new. unfold set_blocks.
    cbn [w_refs w_stolen w_blocks w_next w_exc w_objs w_sys bset]. rewrite Nat.eqb_refl. unfold bnd at 1, ret.
    unfold bnd at 1, tuple_of, bnd at 1, fetch. cbn [w_blocks bget]. rewrite Nat.eqb_refl, (cells_seq _ (c_out r)) by reflexivity.
    unfold newobj, bnd, free, leave. cbn [w_blocks bget w_refs w_stolen w_next w_exc w_objs w_sys]. rewrite Nat.eqb_refl.
    unfold set_blocks. cbn [w_blocks bdel w_refs w_stolen]. rewrite Nat.eqb_refl. reflexivity.
  - unfold bnd at 1, ret at 1. unfold bnd at 1, bnd at 1, free. cbn [w_blocks bget]. rewrite Nat.eqb_refl.
    unfold set_blocks. cbn [w_blocks bdel w_refs w_stolen]. rewrite Nat.eqb_refl. reflexivity.
Qed.
Lemma simple_tidy : forall k fmt uns c r args (w : W), r <> RNone -> tidy w (f_simple L k fmt uns c r args w).
Proof.
  intros k fmt uns c r args w Hr. unfold f_simple. parsing2 (FO :: fmt) (@nil funit) args w. objarg' 0%nat. ptr2 k a w h i.
  destruct (w_sys w h) as [s|] eqn:Hsys.
  - destruct r; try contradiction; unfold bnd at 1;
      try (rewrite (ccall_val L _ h i _ s) by exact Hsys; first [reflexivity | unfold check_err; destruct (c_err _ =? 0); reflexivity]).
    unfold live. rewrite Hsys. destruct (l_obj L s k0 _); reflexivity.
  - destruct r; unfold bnd at 1; try (unfold ccall, bnd, live; rewrite Hsys; exact Logic.I).
Qed.
Lemma getkin_tidy : forall args (w : W), tidy w (f_waves_getkin L args w).
Proof.
  intros args w. unfold f_waves_getkin. parsing2 [FO; FD; FD; FD] [FO] args w. objarg' 0%nat. dblarg' 1%nat. dblarg' 2%nat. dblarg' 3%nat.
  ptr2 KWaves a w h i. destruct (s_obj l 4) as [[o v]|]; [|exact Logic.I].
  rewrite (bnd_val _ _ _ _ _ _ _ (need_some _ _ _ _ eq_refl)). cbn [snd].
  assert (K: forall sb, tidy w (bnd (ccall L "MoorDyn_GetWavesKin" h i [CDbl f; CDbl f0; CDbl f1; CPtr sb]) (fun r =>
     bnd (check_err (c_err r)) (fun _ =>
       bnd (newobj (PTup [PTup [PFlt (c_out r 0%nat); PFlt (c_out r 1%nat); PFlt (c_out r 2%nat)];
                          PTup [PFlt (c_out r 3%nat); PFlt (c_out r 4%nat); PFlt (c_out r 5%nat)];
                          PFlt (c_out r 6%nat); PFlt (c_out r 7%nat)])) (fun o => leave (Some o)))) w)).
  { intros sb. destruct (w_sys w h) as [s|] eqn:Hsys.
    - unfold bnd at 1. rewrite (ccall_val L _ h i _ s) by exact Hsys. unfold bnd at 1, check_err. destruct (c_err _ =? 0); reflexivity.
    - unfold ccall, bnd, live. rewrite Hsys. exact Logic.I. }
  destruct v; try (exact (K None)); try reflexivity.
  destruct (pointer_case KSeafloor (@PCap F k h0 i0) w) as [H|(h1 & i1 & _ & H)].
  - unfold bnd at 1, bnd at 1. rewrite H. reflexivity.
  - unfold bnd at 1, bnd at 1. rewrite H. exact (K (Some i1)).
Qed.

Lemma clean_call : forall f args (w w' : W) v, clean_function L mok f -> pycall f args w = (v, Some w') -> clean w w'.
Proof.
  intros f args w w' v Hf H. unfold pycall in H. eapply tidy_clean; [|exact H].
  destruct Hf; auto using create_tidy, close_tidy, coords_tidy, serialize_tidy, getkin_tidy, simple_tidy.
Qed.

(* ------------------------ what is left behind ------------------------ *)
Lemma leak_grows : forall h i t dt s n (w : W), (forall a k, mok a k = true) -> w_sys w h = Some s -> w_exc w = None -> l_ndof L s <> 0%nat ->
  exists w', pycalls (repeat (f_step L mok, [PCap KSystem h i; PLst []; PLst []; PFlt t; PFlt dt]) n) w = Some w' /\
    left_behind w w' n 0 /\ untouched w w'.
Proof.
  intros h i t dt s n. induction n; intros w Hm Hs Hex Hn.
  - exists w. split; [reflexivity|]. split; [|intro; auto]. exists [], []. auto.
  - destruct (step_call L mok h i (PLst []) (PLst []) t dt s w Hm Hs Hex) as (w1 & E & Hb & Hx & Hl).
    assert (Ha: step_answer L s (PLst []) (PLst []) t dt = (PyExc XValue, s)).
    { unfold step_answer, two. simpl. destruct (l_ndof L s); [contradiction|]. reflexivity. }
    assert (Hlv: step_leaves L s (PLst []) (PLst []) t dt = (1, 0)%nat).
    { unfold step_leaves. rewrite Ha. unfold two_leaves. simpl. destruct (l_ndof L s); [contradiction|]. reflexivity. }
    rewrite Ha in E, Hb. rewrite Hlv in Hl. cbn [fst snd] in *.
    assert (Hs1: w_sys w1 h = Some s) by (rewrite Hb, Nat.eqb_refl; auto).
    destruct (IHn w1 Hm Hs1 Hx Hn) as (w2 & E2 & Hl2 & Hu). exists w2.
    split; [simpl; rewrite E; exact E2|]. split.
    + destruct Hl as (r1 & b1 & Hr1 & Hb1 & H1 & H2 & H3). destruct Hl2 as (r2 & b2 & Hr2 & Hb2 & H4 & H5 & H6).
      exists (r2 ++ r1), (b2 ++ b1). rewrite !app_length. repeat split; try lia.
      * rewrite H4, H1, app_assoc. auto.
      * rewrite H5, H2, app_assoc. auto.
      * congruence.
    + intros k. rewrite Hu, Hb. destruct (Nat.eqb k h) eqn:Ek; auto. apply Nat.eqb_eq in Ek. subst. auto.
Qed.

(** a function that returns None gives away a reference it does not hold *)
Lemma none_stolen : forall k fmt uns c h i args rest (w : W) s,
  args = PCap k h i :: rest -> w_sys w h = Some s -> w_exc w = None -> ~ In ONone (w_refs w) ->
  (exists l, parse L (FO :: fmt) [] args = inl l /\ c_err (l_call L c s i (cargs uns (tl l))) = 0) ->
  exists w', pycall (f_simple L k fmt uns c RNone) args w = (PyVal PNone, Some w') /\ w_stolen w' = ONone :: w_stolen w.
Proof.
  intros k fmt uns c h i args rest w s -> Hs Hex Hno (l & Hp & He).
  assert (Hd: drop ONone (w_refs w) = None).
  { induction (w_refs w) as [|a r IH]; auto. simpl. destruct (obj_eqb a ONone) eqn:E.
    - apply obj_eqb_eq in E. exfalso. apply Hno. left. auto.
    - rewrite IH; auto. intros H. apply Hno. right. auto. }
  unfold pycall, f_simple.
  assert (Hpt: parse_tuple L (FO :: fmt) [] (PCap k h i :: rest) w = Val l w) by (unfold parse_tuple; rewrite Hp; auto).
  rewrite (bnd_val _ _ _ _ _ _ _ Hpt).
  destruct (parse_obj L _ _ _ _ 0%nat Hp eq_refl) as (a & Ha & Hs0). injection Ha as <-.
  rewrite (bnd_val _ _ _ _ _ _ _ (need_some _ _ _ _ Hs0)). cbn [snd].
  assert (Hk: kind_eqb k k = true) by (destruct k; auto).
  assert (Hpr: pointer k (@PCap F k h i) w = Val (h, i) w) by (unfold pointer; rewrite Hk; auto).
  rewrite (bnd_val _ _ _ _ _ _ _ Hpr). cbn [fst snd].
  unfold bnd at 1. rewrite (ccall_val L c h i _ s) by exact Hs. unfold bnd, check_err. rewrite He. simpl. rewrite Hex, Hd.
  eexists. split; reflexivity.
Qed.

(** what a simple function answers *)
Lemma simple_call : forall k fmt uns c r h i rest l (w : W) s,
  w_sys w h = Some s -> w_exc w = None -> (forall k', r <> RCap k') ->
  parse L (FO :: fmt) [] (PCap k h i :: rest) = inl l ->
  let q := l_call L c s i (cargs uns (tl l)) in
  exists w', pycall (f_simple L k fmt uns c r) (PCap k h i :: rest) w = (simple_value r q, Some w') /\ becomes w w' h (c_sys q).
Proof.
  intros k fmt uns c r h i rest l w s Hs Hex Hr Hp. cbv zeta. unfold pycall, f_simple.
  assert (Hpt: parse_tuple L (FO :: fmt) [] (PCap k h i :: rest) w = Val l w) by (unfold parse_tuple; rewrite Hp; auto).
  rewrite (bnd_val _ _ _ _ _ _ _ Hpt).
  destruct (parse_obj L _ _ _ _ 0%nat Hp eq_refl) as (a & Ha & Hs0). injection Ha as <-.
  rewrite (bnd_val _ _ _ _ _ _ _ (need_some _ _ _ _ Hs0)). cbn [snd].
  assert (Hk: kind_eqb k k = true) by (destruct k; auto).
  assert (Hpr: pointer k (@PCap F k h i) w = Val (h, i) w) by (unfold pointer; rewrite Hk; auto).
  rewrite (bnd_val _ _ _ _ _ _ _ Hpr). cbn [fst snd].
  set (q := l_call L c s i (cargs uns (tl l))).
  assert (Hc: ccall L c h i (cargs uns (tl l)) w = Val q (World (w_refs w) (w_stolen w) (w_blocks w) (w_next w) (w_exc w) (w_objs w)
    (fun k => if Nat.eqb k h then Some (c_sys q) else w_sys w k))) by (apply ccall_val; auto).
  destruct r; try (exfalso; eapply Hr; reflexivity); rewrite (bnd_val _ _ _ _ _ _ _ Hc);
    try (unfold bnd at 1, check_err, simple_value; destruct (c_err q =? 0) eqn:Eq; cbn [negb]);
    unfold bnd, newobj, raise, leave, ret; simpl; rewrite ?Hex, ?Nat.eqb_refl;
    try (eexists; split; [reflexivity|intros k'; simpl; auto]; fail).
  - apply Z.eqb_eq in Eq. rewrite Eq. eexists; split; [reflexivity|intros k'; simpl; auto].
  - destruct (drop ONone (w_refs w)); eexists; (split; [reflexivity|intros k'; simpl; auto]).
Qed.

(* ------------------------ closed systems ------------------------ *)
Lemma dangling : forall k fmt uns c r h i rest l (w : W), w_sys w h = None ->
  parse L (FO :: fmt) [] (PCap k h i :: rest) = inl l ->
  pycall (f_simple L k fmt uns c r) (PCap k h i :: rest) w = (PyCrash, None).
Proof.
  intros k fmt uns c r h i rest l w Hs Hp. unfold pycall, f_simple.
  assert (Hpt: parse_tuple L (FO :: fmt) [] (PCap k h i :: rest) w = Val l w) by (unfold parse_tuple; rewrite Hp; auto).
  rewrite (bnd_val _ _ _ _ _ _ _ Hpt).
  destruct (parse_obj L _ _ _ _ 0%nat Hp eq_refl) as (a & Ha & Hs0). injection Ha as <-.
  rewrite (bnd_val _ _ _ _ _ _ _ (need_some _ _ _ _ Hs0)). cbn [snd].
  assert (Hk: kind_eqb k k = true) by (destruct k; auto).
  assert (Hpr: pointer k (@PCap F k h i) w = Val (h, i) w) by (unfold pointer; rewrite Hk; auto).
  rewrite (bnd_val _ _ _ _ _ _ _ Hpr). cbn [fst snd].
  destruct r; unfold ccall, bnd, live; rewrite Hs; reflexivity.
Qed.
Lemma close_call : forall h i s (w : W), w_sys w h = Some s -> w_exc w = None ->
  exists w', pycall (f_close L) [PCap KSystem h i] w = (PyVal (PInt 0), Some w') /\ clean w w' /\ w_exc w' = None /\
    forall k, w_sys w' k = if Nat.eqb k h then None else w_sys w k.
Proof.
  intros h i s w Hs Hex. unfold pycall, f_close.
  unfold bnd, live. simpl. rewrite Hs. simpl. rewrite Hex, ?Nat.eqb_refl.
  eexists. split; [reflexivity|]. repeat split; auto.
Qed.
Lemma close_twice : forall h i s (w : W), w_sys w h = Some s -> w_exc w = None ->
  pycalls [(f_close L, [PCap KSystem h i]); (f_close L, [PCap KSystem h i])] w = None.
Proof.
  intros h i s w Hs Hex. destruct (close_call h i s w Hs Hex) as (w' & E & _ & _ & H). simpl. rewrite E. cbn [snd].
  assert (Hn: w_sys w' h = None) by (rewrite H, Nat.eqb_refl; auto).
  unfold pycall, f_close, bnd, live. simpl. rewrite Hn. reflexivity.
Qed.

(* ------------------------ particular functions ------------------------ *)
Lemma deser_not_bytes : forall h i v (w : W), (forall l, v <> PByt l) -> w_exc w = None ->
  fst (pycall (f_deserialize L) [PCap KSystem h i; v] w) = PyExc XSystem.
Proof.
  intros h i v w Hv Hex. unfold pycall, f_deserialize, bnd. simpl. destruct v; simpl; rewrite ?Hex; auto.
  exfalso. eapply Hv. reflexivity.
Qed.
Lemma deser_short : forall h i l s (w : W), w_sys w h = Some s -> l_deser L s l = None ->
  pycall (f_deserialize L) [PCap KSystem h i; PByt l] w = (PyCrash, None).
Proof. intros. unfold pycall, f_deserialize, bnd, live. simpl. rewrite H, H0. reflexivity. Qed.
Lemma getkin_four : forall h i x y z (w : W), pycall (f_waves_getkin L) [PCap KWaves h i; PFlt x; PFlt y; PFlt z] w = (PyCrash, None).
Proof. reflexivity. Qed.
Lemma getkin_time : forall h i x y z t sf (w : W), w_exc w = None ->
  fst (pycall (f_waves_getkin L) [PCap KWaves h i; PFlt x; PFlt y; PFlt z; PFlt t; sf] w) = PyExc XType.
Proof. reflexivity. Qed.
Lemma pbend_false : forall junk h i s (w : W), 256 <= junk -> w_sys w h = Some s -> w_exc w = None ->
  exists w', snd (pycall (f_line_set_pbend L junk) [PCap KLine h i; PBool false] w) = Some w' /\
    becomes w w' h (c_sys (l_call L "MoorDyn_SetLinePressBend" s i [CInt 1])).
Proof.
  intros junk h i s w Hj Hs Hex. unfold pycall, f_line_set_pbend.
  rewrite (bnd_val _ _ _ _ _ _ _ (eq_refl : parse_tuple L [FO; FB] [] [PCap KLine h i; PBool false] w = Val [VO (OArg 0) (PCap KLine h i); VB 0] w)).
  cbv zeta. rewrite (bnd_val _ _ _ _ _ _ _ (eq_refl : need (@s_obj F [VO (OArg 0) (PCap KLine h i); VB 0] 0) w = Val (OArg 0, PCap KLine h i) w)).
  rewrite (bnd_val _ _ _ _ _ _ _ (eq_refl : need (@s_byte F [VO (OArg 0) (PCap KLine h i); VB 0] 1) w = Val 0 w)).
  cbn [snd]. rewrite (bnd_val _ _ _ _ _ _ _ (eq_refl : pointer KLine (@PCap F KLine h i) w = Val (h, i) w)). cbn [fst snd].
  assert (E: (junk / 256 * 256 + 0 =? 0) = false).
  { apply Z.eqb_neq. assert (1 <= junk / 256) by (apply Z.div_le_lower_bound; lia). lia. }
  rewrite E. unfold bnd at 1. rewrite (ccall_val L _ h i _ s) by exact Hs. unfold bnd, check_err.
  destruct (c_err _ =? 0); unfold raise, leave, ret; simpl.
  - destruct (drop ONone (w_refs w)); eexists; (split; [reflexivity|intros k'; simpl; auto]).
  - eexists; (split; [reflexivity|intros k'; simpl; auto]).
Qed.
Lemma pint_call : forall h i P s (w : W), (forall a k, mok a k = true) -> w_sys w h = Some s -> w_exc w = None ->
  exists w', pycall (f_line_set_pint L mok) [PCap KLine h i; P] w = (fst (pint_answer L s i P), Some w') /\
    becomes w w' h (snd (pint_answer L s i P)) /\ w_blocks w' = w_blocks w.
Proof.
  intros h i P s w Hm Hs Hex. unfold pycall. rewrite pint_parsed.
  destruct (pint_body_spec L mok h i P s w Hs Hex) as (o & w1 & E & Hst & Hb & Hl & Ho & Ha).
  rewrite E. destruct (Ha Hm) as [Hbe Hr]. clear Ha.
  assert (Hv: forall v, fst (pint_answer L s i P) = PyVal v -> v = PNone).
  { intros v. unfold pint_answer. destruct (items P) as [l|x]; [|discriminate].
    destruct (negb _); [discriminate|]. destruct (floats L l); [|discriminate]. cbn [fst]. destruct (c_err _ =? 0); congruence. }
  assert (Hc: fst (pint_answer L s i P) <> PyCrash).
  { unfold pint_answer. destruct (items P) as [l|x]; [|discriminate].
    destruct (negb _); [discriminate|]. destruct (floats L l); [|discriminate]. cbn [fst]. destruct (c_err _ =? 0); discriminate. }
  destruct (fst (pint_answer L s i P)) as [v|x|] eqn:Ef; [| |contradiction].
  - specialize (Hv v eq_refl). subst v o. destruct Ho as [[_ Hn]|[Hn _]]; [|discriminate Hn].
    cbn [finish]. rewrite Hn. destruct (drop ONone (w_refs w1)); eexists; (split; [reflexivity|split; auto]).
  - destruct Hr as [-> Hx]. cbn [finish]. rewrite Hx. eexists; (split; [reflexivity|split; auto]).
Qed.
Lemma fast_leak : forall h i n s (w : W), (forall a k, mok a k = true) -> w_sys w h = Some s -> w_exc w = None ->
  Z.of_nat (l_nlines L s) < n <= int_max ->
  exists w', pycall (f_get_fast_tens L mok) [PCap KSystem h i; PInt n] w = (PyExc XRuntime, Some w') /\ left_behind w w' 0 4.
Proof.
  intros h i n s w Hm Hs Hex Hn. unfold pycall, f_get_fast_tens.
  assert (Hp: parse_tuple L [FO; FI] [] [PCap KSystem h i; PInt n] w = Val [VO (OArg 0) (PCap KSystem h i); VI n] w).
  { unfold parse_tuple, parse. cbn [length Nat.ltb Nat.leb orb Nat.add app parse_all parse1].
    assert (H1: (int_min <=? n) = true) by (apply Z.leb_le; unfold int_min; lia).
    assert (H2: (n <=? int_max) = true) by (apply Z.leb_le; lia). rewrite H1, H2. reflexivity. }
  rewrite (bnd_val _ _ _ _ _ _ _ Hp). cbv zeta.
  rewrite (bnd_val _ _ _ _ _ _ _ (eq_refl : need (@s_obj F [VO (OArg 0) (PCap KSystem h i); VI n] 0) w = Val (OArg 0, PCap KSystem h i) w)).
  rewrite (bnd_val _ _ _ _ _ _ _ (eq_refl : need (@s_int F [VO (OArg 0) (PCap KSystem h i); VI n] 1) w = Val n w)).
  cbn [snd]. rewrite (bnd_val _ _ _ _ _ _ _ (eq_refl : pointer KSystem (@PCap F KSystem h i) w = Val (h, i) w)). cbn [fst snd].
  assert (H0: (n <? 0) = false) by (apply Z.ltb_ge; lia). rewrite H0.
  unfold bnd at 1, malloc at 1. rewrite Hm. unfold bnd at 1, malloc at 1. rewrite Hm.
  unfold bnd at 1, malloc at 1. rewrite Hm. unfold bnd at 1, malloc at 1. rewrite Hm.
  unfold bnd at 1, live. cbn [w_refs w_stolen w_blocks w_next w_exc w_objs w_sys]. rewrite Hs.
  assert (H1: Nat.ltb (l_nlines L s) (Z.to_nat n) = true) by (apply Nat.ltb_lt; lia). rewrite H1.
  unfold bnd, raise, leave. cbn [finish w_refs w_stolen w_blocks w_next w_exc w_objs w_sys]. eexists. split; [reflexivity|].
  eexists [], [_; _; _; _]. cbn [w_refs w_stolen w_blocks length app]. auto.
Qed.
End P.
