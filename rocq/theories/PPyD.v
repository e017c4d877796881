(** Proofs about the Python module: whatever the arguments are. *)
From Coq Require Import String ZArith List Arith Bool Lia.
From Verif Require Import MPy SPy PPy PPyB PPyC.
Import ListNotations.
Open Scope Z_scope.

Section P.
Context {S F : Type}.
Variable L : lib S F.
Variable mok : nat -> nat -> bool.
Notation W := (world S F).

(** a piece of code ended by a return statement, with an exception exactly if it returned NULL *)
Definition good (r : res S F unit) : Prop :=
  match r with
  | Ret None w => exists e, w_exc w = Some e /\ e <> XSystem
  | Ret (Some _) w => w_exc w = None
  | _ => False
  end.
Lemma good_proper : forall args r, good r -> proper_result (fst (finish args r)).
Proof.
  intros args [[] w|[o|] w|]; simpl; intros H; try contradiction; unfold proper_result.
  - rewrite H. split; discriminate.
  - destruct H as (e & H & Hne). rewrite H. split; [discriminate|]. intros [= ->]. auto.
Qed.

(* ------------------------------ parsing ------------------------------ *)
Lemma parse_all_nth : forall args fmt i l k a, parse_all L fmt i args = inl l -> nth_error args k = Some a ->
  exists u s, nth_error fmt k = Some u /\ nth_error l k = Some s /\ parse1 L u (i + k) a = inl s.
Proof.
  induction args as [|a0 args IH]; intros fmt i l k a H Hk; [destruct k; discriminate|].
  destruct fmt as [|u fmt]; [discriminate|]. simpl in H.
  destruct (parse1 L u i a0) as [s|] eqn:E1; [|discriminate].
  destruct (parse_all L fmt (Datatypes.S i) args) as [l'|] eqn:E2; [|discriminate]. injection H as <-.
  destruct k as [|k]; simpl in Hk.
  - injection Hk as <-. exists u, s. rewrite Nat.add_0_r. auto.
  - destruct (IH fmt (Datatypes.S i) l' k a E2 Hk) as (u' & s' & H1 & H2 & H3). exists u', s'. simpl.
    replace (i + Datatypes.S k)%nat with (Datatypes.S i + k)%nat by lia. auto.
Qed.
Lemma parse_err : forall args fmt i e, parse_all L fmt i args = inr e -> e <> XSystem.
Proof.
  induction args as [|a0 args IH]; intros fmt i e H; [destruct fmt; discriminate H|].
  destruct fmt as [|u fmt]; simpl in H; [congruence|].
  destruct (parse1 L u i a0) as [s|e0] eqn:E1.
  - destruct (parse_all L fmt (Datatypes.S i) args) as [l'|] eqn:E2; [discriminate H|]. injection H as <-. eauto.
  - injection H as <-. destruct u, a0; simpl in E1; try discriminate; try (injection E1 as <-; discriminate);
      destruct (_ && _); try discriminate; injection E1 as <-; discriminate.
Qed.

Lemma parse_case : forall req opt args (w : W),
  (exists e, parse_tuple L req opt args w = Ret None (with_exc e w) /\ e <> XSystem) \/
  (exists l, parse_tuple L req opt args w = Val l w /\ parse L req opt args = inl l).
Proof.
  intros. unfold parse_tuple. destruct (parse L req opt args) as [l|e] eqn:E.
  - right. exists l. auto.
  - left. exists e. split; [reflexivity|]. unfold parse in E.
    destruct (_ || _); [injection E as <-; discriminate|]. eapply parse_err; eauto.
Qed.
Lemma parse_nth : forall req opt args l k u, parse L req opt args = inl l -> nth_error req k = Some u ->
  exists a s, nth_error args k = Some a /\ nth_error l k = Some s /\ parse1 L u k a = inl s.
Proof.
  intros req opt args l k u H Hu. unfold parse in H.
  destruct (Nat.ltb (length args) (length req)) eqn:E1; [discriminate|].
  destruct (Nat.ltb (length req + length opt) (length args)); [discriminate|]. simpl in H.
  apply Nat.ltb_ge in E1. assert (Hk: (k < length req)%nat) by (apply nth_error_Some; congruence).
  destruct (nth_error args k) as [a|] eqn:Ea.
  - destruct (parse_all_nth _ _ _ _ _ _ H Ea) as (u' & s & H1 & H2 & H3).
    rewrite nth_error_app1 in H1 by auto. rewrite H1 in Hu. injection Hu as <-. eauto.
  - apply nth_error_None in Ea. lia.
Qed.
Lemma parse_obj : forall req opt args l k, parse L req opt args = inl l -> nth_error req k = Some FO ->
  exists a, nth_error args k = Some a /\ s_obj l k = Some (OArg k, a).
Proof.
  intros req opt args l k H Hk. destruct (parse_nth _ _ _ _ _ _ H Hk) as (a & s & H1 & H2 & H3).
  injection H3 as <-. exists a. unfold s_obj. rewrite H2. auto.
Qed.
Lemma parse_int : forall req opt args l k, parse L req opt args = inl l -> nth_error req k = Some FI ->
  exists z, s_int l k = Some z.
Proof.
  intros req opt args l k H Hk. destruct (parse_nth _ _ _ _ _ _ H Hk) as (a & s & H1 & H2 & H3).
  unfold s_int. rewrite H2. destruct a; simpl in H3; try discriminate; try (injection H3 as <-; eauto).
  destruct (_ && _); try discriminate. injection H3 as <-; eauto.
Qed.
Lemma parse_byte : forall req opt args l k, parse L req opt args = inl l -> nth_error req k = Some FB ->
  exists z, s_byte l k = Some z.
Proof.
  intros req opt args l k H Hk. destruct (parse_nth _ _ _ _ _ _ H Hk) as (a & s & H1 & H2 & H3).
  unfold s_byte. rewrite H2. destruct a; simpl in H3; try discriminate; try (injection H3 as <-; eauto).
  destruct (_ && _); try discriminate. injection H3 as <-; eauto.
Qed.
Lemma parse_dbl : forall req opt args l k, parse L req opt args = inl l -> nth_error req k = Some FD ->
  exists f, s_dbl l k = Some f.
Proof.
  intros req opt args l k H Hk. destruct (parse_nth _ _ _ _ _ _ H Hk) as (a & s & H1 & H2 & H3).
  unfold s_dbl. rewrite H2. destruct a; simpl in H3; try discriminate; injection H3 as <-; eauto.
Qed.

Lemma pointer_case : forall k v (w : W),
  pointer k v w = Ret None (with_exc XValue w) \/ exists h i, v = PCap k h i /\ pointer k v w = Val (h, i) w.
Proof.
  intros k v w. destruct v; try (left; reflexivity). simpl. unfold bnd, raise, leave, ret.
  destruct (kind_eqb k k0) eqn:E; [|left; reflexivity]. right. exists h, i. split; auto.
  destruct k, k0; try discriminate; auto.
Qed.

Lemma bnd_val : forall A B (m : M A) (f : A -> M B) (w w' : W) a, m w = Val a w' -> bnd m f w = f a w'.
Proof. intros. unfold bnd. rewrite H. auto. Qed.
Lemma bnd_ret : forall A B (m : M A) (f : A -> M B) (w w' : W) o, m w = Ret o w' -> bnd m f w = Ret o w'.
Proof. intros. unfold bnd. rewrite H. auto. Qed.
Lemma need_some : forall A (a : A) (o : option A) (w : W), o = Some a -> need o w = Val a w.
Proof. intros A a o w ->. reflexivity. Qed.
Lemma live_some : forall h s (w : W), w_sys w h = Some s -> live h w = Val s w.
Proof. intros h s w H. unfold live. rewrite H. auto. Qed.

Lemma good_exc : forall e (w : W), e <> XSystem -> good (Ret None (with_exc e w)).
Proof. intros. exists e. auto. Qed.

(** parse, then continue *)
Ltac parsing req opt args w :=
  let e := fresh "e" in let l := fresh "l" in let H := fresh "Hp" in let H2 := fresh "Hq" in
  destruct (parse_case req opt args w) as [(e & H & H2)|(l & H & H2)];
  [rewrite (bnd_ret _ _ _ _ _ _ _ H); apply good_exc; assumption | rewrite (bnd_val _ _ _ _ _ _ _ H)].
Ltac objarg k :=
  let a := fresh "a" in let H := fresh "Ha" in let H2 := fresh "Hs" in
  match goal with
  | Hq : parse _ _ _ _ = inl _ |- _ =>
      destruct (parse_obj _ _ _ _ k Hq eq_refl) as (a & H & H2); rewrite (bnd_val _ _ _ _ _ _ _ (need_some _ _ _ _ H2)); cbn [snd]
  end.
Ltac dblarg k :=
  let f := fresh "f" in let H := fresh "Hf" in
  match goal with
  | Hq : parse _ _ _ _ = inl _ |- _ =>
      destruct (parse_dbl _ _ _ _ k Hq eq_refl) as (f & H); rewrite (bnd_val _ _ _ _ _ _ _ (need_some _ _ _ _ H))
  end.
Ltac intarg k :=
  let f := fresh "z" in let H := fresh "Hz" in
  match goal with
  | Hq : parse _ _ _ _ = inl _ |- _ =>
      destruct (parse_int _ _ _ _ k Hq eq_refl) as (f & H); rewrite (bnd_val _ _ _ _ _ _ _ (need_some _ _ _ _ H))
  end.
Ltac bytearg k :=
  let f := fresh "z" in let H := fresh "Hz" in
  match goal with
  | Hq : parse _ _ _ _ = inl _ |- _ =>
      destruct (parse_byte _ _ _ _ k Hq eq_refl) as (f & H); rewrite (bnd_val _ _ _ _ _ _ _ (need_some _ _ _ _ H))
  end.
Ltac ptr k a w h i :=
  let H := fresh "Hptr" in
  destruct (pointer_case k a w) as [H|(h & i & -> & H)];
  [rewrite (bnd_ret _ _ _ _ _ _ _ H); apply good_exc; discriminate | rewrite (bnd_val _ _ _ _ _ _ _ H); cbn [fst snd]].
Ltac isalive Hal h s :=
  match goal with
  | Hn : nth_error _ _ = Some (PCap _ h _) |- _ =>
      let E := fresh "Hsys" in
      pose proof (Hal _ _ _ (nth_error_In _ _ Hn)) as E; match type of E with w_sys ?w h <> None =>
      destruct (w_sys w h) as [s|] eqn:?; [clear E|contradiction] end
  end.

Lemma two_good : forall X V n (w : W) (k : nat -> nat -> M unit), w_exc w = None ->
  (forall px pv w' xs vs, w_sys w' = w_sys w -> w_exc w' = None -> w_blocks w' = (pv, map Some vs) :: (px, map Some xs) :: w_blocks w ->
     (px < pv)%nat -> (pv < w_next w')%nat -> length xs = n -> length vs = n -> good (k px pv w')) ->
  good (bnd (two_arrays L mok (OArg 1, X) (OArg 2, V) n) (fun p =>
    match fst p, snd p with Some px, Some pv => k px pv | _, _ => leave None end) w).
Proof.
  intros X V n w k Hex Hk.
  destruct (two_arrays_spec L mok (OArg 1, X) (OArg 2, V) n w Hex) as [H|H]; try discriminate.
  - destruct H as (w1 & r & H & Hr & Hst & Hb & Hsy & e & He & Hne & _). rewrite (bnd_ret _ _ _ _ _ _ _ H). exists e. auto.
  - destruct H as (w1 & xa & va & b & H & Hr & Hst & Hb & Hsy & Hlb & HN & HS). rewrite (bnd_val _ _ _ _ _ _ _ H). cbn [fst snd].
    assert (Hnone: xa = None \/ va = None -> good (Ret None w1)).
    { intros Hn. destruct (HN Hn) as (e & He & Hne & _). exists e. auto. }
    destruct xa as [px|]; [|apply Hnone; auto]. destruct va as [pv|]; [|apply Hnone; auto].
    destruct (HS px pv eq_refl eq_refl) as (xs & vs & Hx1 & _ & _ & Hlx & Hlv & -> & Hlt & Hlt2). exact (Hk px pv w1 xs vs Hsy Hx1 Hb Hlt Hlt2 Hlx Hlv).
Qed.

Lemma code_body_good : forall f n h mk X V s (w : W), w_sys w h = Some s -> w_exc w = None ->
  good (code_body L mok f n h mk (OArg 1, X) (OArg 2, V) w).
Proof.
  intros f n h mk X V s w Hs Hex. unfold code_body. apply two_good; auto.
  intros px pv w' xs vs H1 H2 H3 H4 H5 H6 H7. rewrite <- H1 in Hs.
  destruct (code_tail_spec L f n h mk px pv s xs vs w' (w_blocks w) Hs H3 H4 H6 H7) as (w2 & E & _ & _ & _ & _ & He & _).
  rewrite E. simpl. congruence.
Qed.
Lemma step_body_good : forall n h t dt X V s (w : W), w_sys w h = Some s -> w_exc w = None ->
  good (bnd (two_arrays L mok (OArg 1, X) (OArg 2, V) n) (fun p =>
    match fst p, snd p with Some px, Some pv => step_tail L mok n h t dt px pv | _, _ => leave None end) w).
Proof.
  intros n h t dt X V s w Hs Hex. apply two_good; auto.
  intros px pv w' xs vs H1 H2 H3 H4 H5 H6 H7. rewrite <- H1 in Hs.
  destruct (step_tail_spec L mok n h t dt px pv s xs vs w' (w_blocks w) Hs H3 H4 H5 H6 H7) as (w2 & E & _ & HR).
  rewrite E. cbv zeta in HR |- *. destruct (mok (w_next w') n).
  - destruct HR as [_ HR]. destruct (_ =? 0).
    + destruct HR as (_ & _ & He & _). simpl. congruence.
    + destruct HR as (_ & _ & He). exists XRuntime. split; auto. discriminate.
  - destruct HR as (_ & _ & _ & He). exists XMemory. split; auto. discriminate.
Qed.

Lemma step_good : forall args (w : W), alive w args -> w_exc w = None -> good (f_step L mok args w).
Proof.
  intros args w Hal Hex. unfold f_step.
  parsing [FO; FO; FO; FD; FD] (@nil funit) args w. objarg 0%nat. objarg 1%nat. objarg 2%nat. dblarg 3%nat. dblarg 4%nat.
  ptr KSystem a w h i. isalive Hal h s. rewrite (bnd_val _ _ _ _ _ _ _ (live_some _ _ _ Heqo)). cbv zeta.
  pose proof (step_body_good (l_ndof L s) h f f0 a0 a1 s w Heqo Hex) as G.
  rewrite <- (two_arrays_then L mok unit (OArg 1, a0) (OArg 2, a1) (l_ndof L s)
    (fun xa va => match xa, va with Some px, Some pv => step_tail L mok (l_ndof L s) h f f0 px pv | _, _ => leave None end) w) in G.
  exact G.
Qed.

Lemma init_good : forall args (w : W), alive w args -> w_exc w = None -> good (f_init L mok args w).
Proof.
  intros args w Hal Hex. unfold f_init.
  parsing [FO; FO; FO] [FI] args w. objarg 0%nat. objarg 1%nat. objarg 2%nat. cbv zeta.
  ptr KSystem a w h i. isalive Hal h s. rewrite (bnd_val _ _ _ _ _ _ _ (live_some _ _ _ Heqo)).
  match goal with |- context [ccall L ?nm h 0] => set (name := nm) end.
  pose proof (code_body_good name (l_ndof L s) h (fun x v => [CArr x; CArr v]) a0 a1 s w Heqo Hex) as G. unfold code_body in G.
  rewrite <- (two_arrays_then L mok unit (OArg 1, a0) (OArg 2, a1) (l_ndof L s)
    (fun xa va => match xa, va with Some px, Some pv => code_tail L name (l_ndof L s) h (fun x v => [CArr x; CArr v]) px pv | _, _ => leave None end) w) in G.
  exact G.
Qed.
Lemma wave_good : forall args (w : W), alive w args -> w_exc w = None -> good (f_ext_wave_set L mok args w).
Proof.
  intros args w Hal Hex. unfold f_ext_wave_set.
  parsing [FO; FO; FO; FD] (@nil funit) args w. objarg 0%nat. objarg 1%nat. objarg 2%nat. dblarg 3%nat. cbv zeta.
  ptr KSystem a w h i. isalive Hal h s. rewrite (bnd_val _ _ _ _ _ _ _ (live_some _ _ _ Heqo)).
  pose proof (code_body_good "MoorDyn_ExternalWaveKinSet" (l_wn L s * 3) h (fun x v => [CArr x; CArr v; CDbl f]) a0 a1 s w Heqo Hex) as G. unfold code_body in G.
  rewrite <- (two_arrays_then L mok unit (OArg 1, a0) (OArg 2, a1) (l_wn L s * 3)%nat
    (fun xa va => match xa, va with Some px, Some pv => code_tail L "MoorDyn_ExternalWaveKinSet" (l_wn L s * 3) h (fun x v => [CArr x; CArr v; CDbl f]) px pv | _, _ => leave None end) w) in G.
  exact G.
Qed.
Lemma pint_good : forall args (w : W), alive w args -> w_exc w = None -> good (f_line_set_pint L mok args w).
Proof.
  intros args w Hal Hex. unfold f_line_set_pint.
  parsing [FO; FO] (@nil funit) args w. objarg 0%nat. objarg 1%nat.
  ptr KLine a w h i. isalive Hal h s.
  destruct (pint_body_spec L mok h i a0 s w Heqo Hex) as (o & w' & E & _ & _ & _ & H & _).
  change (good (pint_body L mok h i (OArg 1, a0) w)). rewrite E.
  destruct H as [[-> H]|[-> H]]; simpl; auto.
Qed.
Lemma close_good : forall args (w : W), alive w args -> w_exc w = None -> good (f_close L args w).
Proof.
  intros args w Hal Hex. unfold f_close.
  parsing [FO] (@nil funit) args w. objarg 0%nat. ptr KSystem a w h i. isalive Hal h s.
  rewrite (bnd_val _ _ _ _ _ _ _ (live_some _ _ _ Heqo)). simpl. auto.
Qed.
Lemma create_good : forall args (w : W), w_exc w = None -> good (f_create L args w).
Proof.
  intros args w Hex. unfold f_create.
  parsing (@nil funit) [FS] args w. destruct (l_create L (s_str l 0)); simpl; auto.
  exists XRuntime. split; auto. discriminate.
Qed.
Lemma check_good : forall err (w : W) (k : M unit), (err =? 0 = true -> good (k w)) ->
  good (bnd (check_err err) (fun _ => k) w).
Proof.
  intros err w k H. unfold bnd, check_err. destruct (err =? 0); auto. exists XRuntime. split; auto. discriminate.
Qed.
Lemma serialize_good : forall args (w : W), alive w args -> w_exc w = None -> good (f_serialize L mok args w).
Proof.
  intros args w Hal Hex. unfold f_serialize.
  parsing [FO] (@nil funit) args w. objarg 0%nat. ptr KSystem a w h i. isalive Hal h s.
  rewrite (bnd_val _ _ _ _ _ _ _ (live_some _ _ _ Heqo)). apply check_good. intros Hc.
  unfold bnd at 1, malloc. destruct (mok (w_next w) (length (snd (l_ser L s)))).
  - apply check_good. intros _. unfold bnd, newobj, free, leave. cbn [w_blocks bget]. rewrite Nat.eqb_refl. simpl. auto.
  - exists XMemory. split; auto. discriminate.
Qed.
Lemma coords_good : forall args (w : W), alive w args -> w_exc w = None -> good (f_ext_wave_coords L mok args w).
Proof.
  intros args w Hal Hex. unfold f_ext_wave_coords.
  parsing [FO] (@nil funit) args w. objarg 0%nat. ptr KSystem a w h i. isalive Hal h s.
  rewrite (bnd_val _ _ _ _ _ _ _ (live_some _ _ _ Heqo)). cbv zeta.
  unfold bnd at 1, malloc. destruct (mok (w_next w) (l_wn L s * 3)).
  2: { exists XRuntime. split; auto. discriminate. }
  unfold ccall, bnd at 1, bnd at 1, live. cbn [w_sys]. rewrite Heqo. unfold bnd at 1, keep, ret at 1.
  cbn [w_refs w_stolen w_blocks w_next w_exc w_objs w_sys].
  set (r := l_call L "MoorDyn_ExternalWaveKinGetCoordinates" s 0 []).
  destruct (c_err r =? 0).
  - unfold bnd at 1, fill. cbn [w_blocks bget]. rewrite Nat.eqb_refl, put_all_new. unfold set_blocks.
    cbn [w_refs w_stolen w_blocks w_next w_exc w_objs w_sys bset]. rewrite Nat.eqb_refl. unfold bnd at 1, ret.
    unfold bnd at 1, tuple_of, bnd at 1, fetch. cbn [w_blocks bget]. rewrite Nat.eqb_refl, (cells_seq _ (c_out r)) by reflexivity.
    unfold newobj, bnd, free, leave. cbn [w_blocks bget w_refs w_stolen w_next w_exc w_objs w_sys]. rewrite Nat.eqb_refl. simpl. auto.
  - unfold bnd at 1, ret at 1. unfold bnd at 1, bnd at 1, free. cbn [w_blocks bget]. rewrite Nat.eqb_refl.
    exists XRuntime. split; auto. discriminate.
Qed.

Lemma fill_ok : forall p n (f : nat -> F) (w : W) c, bget p (w_blocks w) = Some c -> length c = n ->
  fill p n f w = Val tt (set_blocks (bset p (map (fun i => Some (f i)) (seq 0 n)) (w_blocks w)) w).
Proof.
  intros p n f w c H Hl. unfold fill. rewrite H.
  assert (E: forall n (c : list (option F)) (f : nat -> F), length c = n -> put_all n f c = Some (map (fun i => Some (f i)) (seq 0 n))).
  { clear. induction n; intros [|a c] f H; try discriminate; auto. simpl in *.
    rewrite IHn by lia. rewrite <- seq_shift, map_map. auto. }
  rewrite (E n c f Hl). auto.
Qed.
Lemma bget_bset : forall p q c (l : list (nat * list (option F))), bget p l <> None ->
  bget q (bset p c l) = if Nat.eqb p q then Some c else bget q l.
Proof.
  induction l as [|[k d] l IH]; simpl; intros H; [contradiction|].
  destruct (Nat.eqb k p) eqn:E.
  - simpl. apply Nat.eqb_eq in E. subst k. destruct (Nat.eqb p q); auto.
  - simpl. rewrite IH by auto. destruct (Nat.eqb k q) eqn:E2; auto.
    apply Nat.eqb_eq in E2. subst k. rewrite Nat.eqb_sym, E. auto.
Qed.

Lemma ccall_val : forall f h i args s (w : W), w_sys w h = Some s ->
  ccall L f h i args w = Val (l_call L f s i args) (World (w_refs w) (w_stolen w) (w_blocks w) (w_next w) (w_exc w) (w_objs w)
    (fun k => if Nat.eqb k h then Some (c_sys (l_call L f s i args)) else w_sys w k)).
Proof. intros. unfold ccall, bnd, live. rewrite H. reflexivity. Qed.

Lemma fast_good : forall args (w : W), alive w args -> w_exc w = None -> good (f_get_fast_tens L mok args w).
Proof.
  intros args w Hal Hex. unfold f_get_fast_tens.
  parsing [FO; FI] (@nil funit) args w. objarg 0%nat. intarg 1%nat. ptr KSystem a w h i. isalive Hal h s. cbv zeta.
  assert (Bad: forall w', good ((bnd (raise XMemory) (fun _ => leave None) : M unit) w')).
  { intros w'. exists XMemory. split; auto. discriminate. }
  destruct (z <? 0) eqn:Ez; [apply Bad|]. set (k := Z.to_nat z).
  unfold bnd at 1, malloc at 1. destruct (mok (w_next w) k) eqn:M1; cbv zeta.
  2: { unfold bnd at 1, malloc at 1. cbn [w_next]. destruct (mok (Datatypes.S (w_next w)) k); cbv zeta;
       unfold bnd at 1, malloc at 1; cbn [w_next]; destruct (mok (Datatypes.S (Datatypes.S (w_next w))) k); cbv zeta;
       unfold bnd at 1, malloc at 1; cbn [w_next]; destruct (mok (Datatypes.S (Datatypes.S (Datatypes.S (w_next w)))) k); cbv zeta; apply Bad. }
  unfold bnd at 1, malloc at 1. cbn [w_refs w_stolen w_blocks w_next w_exc w_objs w_sys]. destruct (mok (Datatypes.S (w_next w)) k) eqn:M2; cbv zeta.
  2: { unfold bnd at 1, malloc at 1; cbn [w_next]; destruct (mok (Datatypes.S (Datatypes.S (w_next w))) k); cbv zeta;
       unfold bnd at 1, malloc at 1; cbn [w_next]; destruct (mok (Datatypes.S (Datatypes.S (Datatypes.S (w_next w)))) k); cbv zeta; apply Bad. }
  unfold bnd at 1, malloc at 1. cbn [w_refs w_stolen w_blocks w_next w_exc w_objs w_sys]. destruct (mok (Datatypes.S (Datatypes.S (w_next w))) k) eqn:M3; cbv zeta.
  2: { unfold bnd at 1, malloc at 1; cbn [w_next]; destruct (mok (Datatypes.S (Datatypes.S (Datatypes.S (w_next w)))) k); cbv zeta; apply Bad. }
  unfold bnd at 1, malloc at 1. cbn [w_refs w_stolen w_blocks w_next w_exc w_objs w_sys]. destruct (mok (Datatypes.S (Datatypes.S (Datatypes.S (w_next w)))) k) eqn:M4; cbv zeta; [|apply Bad].
  set (p1 := w_next w). set (p2 := Datatypes.S p1). set (p3 := Datatypes.S p2). set (p4 := Datatypes.S p3).
  set (b0 := [(p4, repeat None k); (p3, repeat None k); (p2, repeat None k); (p1, repeat None k)] ++ w_blocks w).
  assert (D: Nat.eqb p4 p3 = false /\ Nat.eqb p4 p2 = false /\ Nat.eqb p4 p1 = false /\ Nat.eqb p3 p2 = false /\ Nat.eqb p3 p1 = false /\ Nat.eqb p2 p1 = false).
  { unfold p4, p3, p2. repeat split; apply Nat.eqb_neq; lia. }
  destruct D as (D43 & D42 & D41 & D32 & D31 & D21).
  assert (Hrep: length (repeat (@None F) k) = k) by apply repeat_length.
  unfold bnd at 1, live. cbn [w_sys]. rewrite Heqo. destruct (Nat.ltb (l_nlines L s) k) eqn:En.
  { exists XRuntime. split; auto. discriminate. }
  unfold bnd at 1, ret.
  unfold bnd at 1. rewrite (ccall_val _ h 0 _ s) by (cbn [w_sys]; exact Heqo).
  cbn [w_refs w_stolen w_blocks w_next w_exc w_objs w_sys].
  unfold bnd at 1. rewrite (fill_ok p1 k _ _ (repeat None k)) by (try exact Hrep; cbn [w_blocks bget]; rewrite ?D41, ?D31, ?D21, Nat.eqb_refl; auto).
  unfold set_blocks. cbn [w_refs w_stolen w_blocks w_next w_exc w_objs w_sys bset]. rewrite D41, D31, D21, Nat.eqb_refl.
  unfold bnd at 1. erewrite (ccall_val _ h 0) by (cbn [w_sys]; rewrite Nat.eqb_refl; reflexivity).
  cbn [w_refs w_stolen w_blocks w_next w_exc w_objs w_sys].
  unfold bnd at 1. rewrite (fill_ok p2 k _ _ (repeat None k)) by (try exact Hrep; cbn [w_blocks bget]; rewrite ?D42, ?D32, Nat.eqb_refl; auto).
  unfold set_blocks. cbn [w_refs w_stolen w_blocks w_next w_exc w_objs w_sys bset]. rewrite D42, D32, Nat.eqb_refl.
  unfold bnd at 1. erewrite (ccall_val _ h 0) by (cbn [w_sys]; rewrite Nat.eqb_refl; reflexivity).
  cbn [w_refs w_stolen w_blocks w_next w_exc w_objs w_sys].
  unfold bnd at 1. rewrite (fill_ok p3 k _ _ (repeat None k)) by (try exact Hrep; cbn [w_blocks bget]; rewrite ?D43, Nat.eqb_refl; auto).
  unfold set_blocks. cbn [w_refs w_stolen w_blocks w_next w_exc w_objs w_sys bset]. rewrite D43, Nat.eqb_refl.
  unfold bnd at 1. erewrite (ccall_val _ h 0) by (cbn [w_sys]; rewrite Nat.eqb_refl; reflexivity).
  cbn [w_refs w_stolen w_blocks w_next w_exc w_objs w_sys].
  unfold bnd at 1. rewrite (fill_ok p4 k _ _ (repeat None k)) by (try exact Hrep; cbn [w_blocks bget]; rewrite Nat.eqb_refl; auto).
  unfold set_blocks. cbn [w_refs w_stolen w_blocks w_next w_exc w_objs w_sys bset]. rewrite Nat.eqb_refl.
  unfold bnd at 1, fetch at 1. cbn [w_blocks bget]. rewrite D41, D31, D21, Nat.eqb_refl. erewrite cells_seq by reflexivity.
  unfold bnd at 1, fetch at 1. cbn [w_blocks bget]. rewrite D42, D32, Nat.eqb_refl. erewrite cells_seq by reflexivity.
  unfold bnd at 1, fetch at 1. cbn [w_blocks bget]. rewrite D43, Nat.eqb_refl. erewrite cells_seq by reflexivity.
  unfold bnd at 1, fetch at 1. cbn [w_blocks bget]. rewrite Nat.eqb_refl. erewrite cells_seq by reflexivity.
  unfold bnd at 1, free at 1. cbn [w_blocks bget]. rewrite D41, D31, D21, Nat.eqb_refl. unfold set_blocks. cbn [w_refs w_stolen w_blocks w_next w_exc w_objs w_sys bdel].
  rewrite D41, D31, D21, Nat.eqb_refl.
  unfold bnd at 1, free at 1. cbn [w_blocks bget]. rewrite D42, D32, Nat.eqb_refl. unfold set_blocks. cbn [w_refs w_stolen w_blocks w_next w_exc w_objs w_sys bdel].
  rewrite D42, D32, Nat.eqb_refl.
  unfold bnd at 1, free at 1. cbn [w_blocks bget]. rewrite D43, Nat.eqb_refl. unfold set_blocks. cbn [w_refs w_stolen w_blocks w_next w_exc w_objs w_sys bdel].
  rewrite D43, Nat.eqb_refl.
  unfold bnd at 1, free at 1. cbn [w_blocks bget]. rewrite Nat.eqb_refl. simpl. auto.
Qed.

Lemma simple_good : forall k fmt uns c r args (w : W), alive w args -> w_exc w = None -> good (f_simple L k fmt uns c r args w).
Proof.
  intros k fmt uns c r args w Hal Hex. unfold f_simple.
  parsing (FO :: fmt) (@nil funit) args w. objarg 0%nat. ptr k a w h i. isalive Hal h s.
  assert (G: forall v w', w_exc w' = None -> good ((bnd (newobj v) (fun o => leave (Some o)) : M unit) w')) by (intros; simpl; auto).
  assert (G2: forall w', w_exc w' = None -> good ((leave (Some ONone) : M unit) w')) by (intros; simpl; auto).
  destruct r; unfold bnd at 1; try (rewrite (ccall_val _ h i _ s) by exact Heqo; try (apply check_good; intros _); auto; fail).
  unfold live. rewrite Heqo. destruct (l_obj L s k0 _).
  - simpl. auto.
  - exists XRuntime. split; auto. discriminate.
Qed.
Lemma pbend_good : forall junk args (w : W), alive w args -> w_exc w = None -> good (f_line_set_pbend L junk args w).
Proof.
  intros junk args w Hal Hex. unfold f_line_set_pbend.
  parsing [FO; FB] (@nil funit) args w. objarg 0%nat. bytearg 1%nat. ptr KLine a w h i. isalive Hal h s. cbv zeta.
  unfold bnd at 1. rewrite (ccall_val _ h i _ s) by exact Heqo. apply check_good. intros _. simpl. auto.
Qed.
Lemma getkin_good : forall args (w : W), alive w args -> w_exc w = None -> length args = 5%nat -> good (f_waves_getkin L args w).
Proof.
  intros args w Hal Hex Hlen. unfold f_waves_getkin.
  parsing [FO; FD; FD; FD] [FO] args w. objarg 0%nat. dblarg 1%nat. dblarg 2%nat. dblarg 3%nat. ptr KWaves a w h i. isalive Hal h s.
  destruct (nth_error args 4) as [a4|] eqn:E4; [|apply nth_error_None in E4; lia].
  assert (Hs4: s_obj l 4 = Some (OArg 4, a4)).
  { unfold parse in Hq. destruct (_ || _); [discriminate|]. destruct (parse_all_nth _ _ _ _ _ _ Hq E4) as (u & sl & H1 & H2 & H3).
    injection H1 as <-. injection H3 as <-. unfold s_obj. rewrite H2. auto. }
  rewrite (bnd_val _ _ _ _ _ _ _ (need_some _ _ _ _ Hs4)). cbn [snd].
  assert (K: forall sb, good (bnd (ccall L "MoorDyn_GetWavesKin" h i [CDbl f; CDbl f0; CDbl f1; CPtr sb]) (fun r =>
     bnd (check_err (c_err r)) (fun _ =>
       bnd (newobj (PTup [PTup [PFlt (c_out r 0%nat); PFlt (c_out r 1%nat); PFlt (c_out r 2%nat)];
                          PTup [PFlt (c_out r 3%nat); PFlt (c_out r 4%nat); PFlt (c_out r 5%nat)];
                          PFlt (c_out r 6%nat); PFlt (c_out r 7%nat)])) (fun o => leave (Some o)))) w)).
  { intros sb. unfold bnd at 1. rewrite (ccall_val _ h i _ s) by exact Heqo. apply check_good. intros _. simpl. auto. }
  destruct a4; try (exact (K None)); try (simpl; exists XValue; split; auto; discriminate).
  destruct (pointer_case KSeafloor (@PCap F k h0 i0) w) as [H|(h1 & i1 & _ & H)].
  - unfold bnd at 1, bnd at 1. rewrite H. exists XValue. split; auto. discriminate.
  - unfold bnd at 1, bnd at 1. rewrite H. exact (K (Some i1)).
Qed.

(** the functions that are safe for all arguments *)
Lemma all_good : forall f args (w : W), safe_function L mok f -> alive w args -> w_exc w = None -> proper_result (fst (pycall f args w)).
Proof.
  intros f args w Hf Hal Hex. unfold pycall. apply good_proper.
  destruct Hf; auto using create_good, init_good, step_good, close_good, coords_good, wave_good, pint_good, fast_good, serialize_good, pbend_good, simple_good.
Qed.
End P.
