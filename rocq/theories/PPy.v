(** Proofs about the Python module: conversions of sequences, references, memory. *)
From Coq Require Import String ZArith List Arith Bool Lia.
From Verif Require Import MPy SPy.
Import ListNotations.
Open Scope Z_scope.

Section P.
Context {S F : Type}.
Variable L : lib S F.
Variable mok : nat -> nat -> bool.
Notation W := (world S F).
Notation floats := (floats L).

Lemma obj_eqb_refl : forall o, obj_eqb o o = true.
Proof. destruct o; simpl; auto using Nat.eqb_refl. Qed.
Lemma obj_eqb_eq : forall a b, obj_eqb a b = true -> a = b.
Proof. destruct a, b; simpl; intros H; try discriminate; auto; apply Nat.eqb_eq in H; subst; auto. Qed.

Lemma floats_length : forall l fs, floats l = Some fs -> length fs = length l.
Proof.
  induction l; simpl; intros fs H.
  - injection H as <-; auto.
  - destruct (l_tofloat L a); [|discriminate]. destruct (floats l) eqn:E; [|discriminate].
    injection H as <-. simpl. f_equal. auto.
Qed.

(* ------------------------------ converting ------------------------------ *)
Lemma put_cell_at : forall (pre : list (option F)) f r, put_cell (length pre) f (pre ++ None :: r) = Some (pre ++ Some f :: r).
Proof. induction pre; simpl; intros; auto. rewrite IHpre. auto. Qed.

Definition head_block (p : nat) (c : list (option F)) (w : W) : W :=
  World (w_refs w) (w_stolen w) ((p, c) :: w_blocks w) (w_next w) (w_exc w) (w_objs w) (w_sys w).
Definition with_exc (e : pyx) (w : W) : W :=
  World (w_refs w) (w_stolen w) (w_blocks w) (w_next w) (Some e) (w_objs w) (w_sys w).
Definition bump (w : W) : W :=
  World (w_refs w) (w_stolen w) (w_blocks w) (Datatypes.S (w_next w)) (w_exc w) (w_objs w) (w_sys w).

Lemma conv_loop_spec : forall l p pre w,
  conv_loop L p (length pre) l (head_block p (pre ++ repeat None (length l)) w) =
  match floats l with
  | Some fs => Val (Some p) (head_block p (pre ++ map Some fs) w)
  | None => Val None (with_exc XType w)
  end.
Proof.
  induction l as [|a l IH]; intros p pre w; simpl.
  - unfold ret. auto.
  - destruct (l_tofloat L a) as [f|] eqn:E.
    + unfold bnd at 1, store. cbn [head_block w_blocks bget]. rewrite Nat.eqb_refl.
      rewrite put_cell_at. cbn [set_blocks bset w_refs w_stolen w_next w_exc w_objs w_sys]. rewrite Nat.eqb_refl.
      specialize (IH p (pre ++ [Some f]) w). rewrite app_length in IH. simpl in IH. rewrite Nat.add_1_r in IH.
      rewrite <- app_assoc in IH. simpl in IH.
      etransitivity; [exact IH|].
      destruct (floats l); auto. rewrite <- app_assoc. auto.
    + unfold bnd, free, raise, ret. cbn [head_block w_blocks bget]. rewrite Nat.eqb_refl.
      cbn [set_blocks bdel w_refs w_stolen w_next w_exc w_objs w_sys]. rewrite Nat.eqb_refl. auto.
Qed.

Lemma convert_spec : forall l w,
  py_iterable_to_double L mok l w =
  if mok (w_next w) (length l) then
    match floats l with
    | Some fs => Val (Some (w_next w)) (head_block (w_next w) (map Some fs) (bump w))
    | None => Val None (with_exc XType (bump w))
    end
  else Val None (with_exc XMemory (bump w)).
Proof.
  intros. unfold py_iterable_to_double, bnd at 1, malloc. destruct (mok (w_next w) (length l)).
  - apply (conv_loop_spec l (w_next w) [] (bump w)).
  - unfold bnd, raise, ret. auto.
Qed.

Lemma cells_all : forall fs n, n = length fs -> cells n (map (@Some F) fs) = Some fs.
Proof. induction fs; intros n ->; simpl; auto. rewrite IHfs; auto. Qed.

Lemma put_all_new : forall n f, put_all n f (repeat (@None F) n) = Some (map (fun i => Some (f i)) (seq 0 n)).
Proof.
  induction n; intros f; simpl; auto. rewrite IHn. rewrite <- seq_shift, map_map. auto.
Qed.
Lemma cells_seq : forall n (f : nat -> F) c, c = map (fun i => Some (f i)) (seq 0 n) -> cells n c = Some (map f (seq 0 n)).
Proof.
  intros n f c ->. rewrite <- (map_map f (@Some F)). apply cells_all. rewrite map_length, seq_length. auto.
Qed.

(* ------------------------------ sequences ------------------------------ *)
Lemma seq_fast_spec : forall (a : obj * pyv F) (w : W),
  match items (snd a) with
  | inr e => seq_fast a w = Val None (with_exc e w)
  | inl l => exists o nx objs, seq_fast a w = Val (Some (o, l)) (World (o :: w_refs w) (w_stolen w) (w_blocks w) nx (w_exc w) objs (w_sys w))
      /\ (w_next w <= nx)%nat /\ (o = fst a \/ (o = ONew (w_next w) /\ w_next w < nx)%nat)
  end.
Proof.
  intros [o v] w. destruct v; try reflexivity.
  5: destruct raises; [reflexivity|].
  all: do 3 eexists; split; [reflexivity|]; cbn [fst w_next]; split; try lia; first [left; reflexivity|right; split; [reflexivity|lia]].
Qed.

Lemma get_seq_spec : forall (a : obj * pyv F) n (w : W),
  match items (snd a) with
  | inr e => get_seq a n w = Ret None (with_exc e w)
  | inl l => exists o nx objs,
      get_seq a n w = (if Nat.eqb (length l) n
                       then Val (o, l) (World (o :: w_refs w) (w_stolen w) (w_blocks w) nx (w_exc w) objs (w_sys w))
                       else Ret None (World (o :: w_refs w) (w_stolen w) (w_blocks w) nx (Some XValue) objs (w_sys w)))
      /\ (w_next w <= nx)%nat /\ (o = fst a \/ (o = ONew (w_next w) /\ w_next w < nx)%nat)
  end.
Proof.
  intros a n w. pose proof (seq_fast_spec a w) as H. destruct (items (snd a)) as [l|e].
  - destruct H as (o & nx & objs & H & H1 & H2). exists o, nx, objs. split; auto.
    unfold get_seq, bnd at 1. rewrite H. destruct (Nat.eqb (length l) n); reflexivity.
  - unfold get_seq, bnd at 1. rewrite H. reflexivity.
Qed.

(** The common beginning of the functions that take two sequences. *)
Definition two_arrays (x v : obj * pyv F) (n : nat) : M (option nat * option nat) :=
  bnd (get_seq x n) (fun x => bnd (get_seq v n) (fun v =>
  bnd (py_iterable_to_double L mok (snd x)) (fun xa => bnd (decref (fst x)) (fun _ =>
  bnd (py_iterable_to_double L mok (snd v)) (fun va => bnd (decref (fst v)) (fun _ => ret (xa, va))))))).

Lemma bnd_assoc : forall A B C (m : M A) (f : A -> M B) (g : B -> M C) (w : W),
  bnd (bnd m f) g w = bnd m (fun a => bnd (f a) g) w.
Proof. intros. unfold bnd. destruct (m w); auto. Qed.
Lemma bnd_ext : forall A B (m : M A) (f g : A -> M B) (w : W),
  (forall a w', f a w' = g a w') -> bnd m f w = bnd m g w.
Proof. intros. unfold bnd. destruct (m w); auto. Qed.

Lemma two_arrays_then : forall A x v n (k : option nat -> option nat -> M A) (w : W),
  bnd (get_seq x n) (fun x => bnd (get_seq v n) (fun v =>
  bnd (py_iterable_to_double L mok (snd x)) (fun xa => bnd (decref (fst x)) (fun _ =>
  bnd (py_iterable_to_double L mok (snd v)) (fun va => bnd (decref (fst v)) (fun _ => k xa va)))))) w =
  bnd (two_arrays x v n) (fun p => k (fst p) (snd p)) w.
Proof.
  intros. unfold two_arrays. symmetry. rewrite bnd_assoc. apply bnd_ext; intros.
  rewrite bnd_assoc. apply bnd_ext; intros. rewrite bnd_assoc. apply bnd_ext; intros.
  rewrite bnd_assoc. apply bnd_ext; intros. rewrite bnd_assoc. apply bnd_ext; intros.
  rewrite bnd_assoc. apply bnd_ext; intros. reflexivity.
Qed.

Lemma drop_head : forall o (l : list obj), drop o (o :: l) = Some l.
Proof. intros. simpl. rewrite obj_eqb_refl. auto. Qed.
Lemma drop_second : forall o a (l : list obj), a <> o -> drop o (a :: o :: l) = Some (a :: l).
Proof.
  intros. simpl. destruct (obj_eqb a o) eqn:E; [apply obj_eqb_eq in E; contradiction|].
  rewrite obj_eqb_refl. auto.
Qed.

(** What the beginning does. *)
Lemma two_arrays_spec : forall x v n (w : W), w_exc w = None -> fst x <> fst v ->
  (forall k, fst x <> ONew k) -> (forall k, fst v <> ONew k) ->
  (exists w' r, two_arrays x v n w = Ret None w' /\ w_refs w' = r ++ w_refs w /\ w_stolen w' = w_stolen w /\
     w_blocks w' = w_blocks w /\ w_sys w' = w_sys w /\
     exists e, w_exc w' = Some e /\ e <> XSystem /\ two L n (snd x) (snd v) = inr e /\ (length r, 0)%nat = two_leaves L n (snd x) (snd v)) \/
  (exists w' xa va b, two_arrays x v n w = Val (xa, va) w' /\ w_refs w' = w_refs w /\ w_stolen w' = w_stolen w /\
     w_blocks w' = b ++ w_blocks w /\ w_sys w' = w_sys w /\ length b = ((if xa then 1 else 0) + (if va then 1 else 0))%nat /\
     (xa = None \/ va = None -> exists e, w_exc w' = Some e /\ e <> XSystem /\
        ((forall i k, mok i k = true) -> two L n (snd x) (snd v) = inr e /\ (0, length b)%nat = two_leaves L n (snd x) (snd v))) /\
     (forall px pv, xa = Some px -> va = Some pv -> exists xs vs, w_exc w' = None /\ two L n (snd x) (snd v) = inl (xs, vs) /\
        two_leaves L n (snd x) (snd v) = (0, 0)%nat /\ length xs = n /\ length vs = n /\
        b = [(pv, map Some vs); (px, map Some xs)] /\ (px < pv)%nat /\ (pv < w_next w')%nat)).
Proof.
  intros x v n w Hex Hxv Hx Hv. remember (two_arrays x v n w) as T eqn:HT. unfold two_arrays in HT. unfold two, two_leaves.
  assert (Hne: forall (a : pyv F) e, items a = inr e -> e <> XSystem).
  { intros a e. destruct a; simpl; try discriminate; try (intros [= <-]; discriminate).
    destruct raises; try discriminate; intros [= <-]; discriminate. }
  pose proof (get_seq_spec x n w) as H. destruct (items (snd x)) as [lx|ex] eqn:Ex.
  2: { left. unfold bnd at 1 in HT. rewrite H in HT. subst T. exists (with_exc ex w), []. simpl. repeat split; auto.
       exists ex. repeat split; auto. eapply Hne; eauto. }
  destruct H as (ox & nx & ob & H & Hn1 & Ho1). unfold bnd at 1 in HT. rewrite H in HT. clear H.
  destruct (Nat.eqb (length lx) n) eqn:El; cbv iota in HT; simpl negb; cbv iota.
  2: { left. subst T. eexists _, [ox]. split; [reflexivity|]. simpl. repeat split; auto.
       exists XValue. repeat split; auto. discriminate. }
  set (w1 := World (ox :: w_refs w) (w_stolen w) (w_blocks w) nx (w_exc w) ob (w_sys w)) in HT.
  pose proof (get_seq_spec v n w1) as H. destruct (items (snd v)) as [lv|ev] eqn:Ev.
  2: { left. unfold bnd at 1 in HT. rewrite H in HT. subst T. exists (with_exc ev w1), [ox]. simpl. repeat split; auto.
       exists ev. repeat split; auto. eapply Hne; eauto. }
  destruct H as (ov & nv & ob2 & H & Hn2 & Ho2). unfold bnd at 1 in HT. rewrite H in HT. clear H.
  destruct (Nat.eqb (length lv) n) eqn:El2; cbv iota in HT; simpl negb; cbv iota.
  2: { left. subst T. eexists _, [ov; ox]. split; [reflexivity|]. simpl. repeat split; auto.
       exists XValue. repeat split; auto. discriminate. }
  right. subst w1. cbn [w_refs w_stolen w_blocks w_exc w_sys] in HT.
  assert (Hd: ov <> ox).
  { simpl in Hn2, Ho2. destruct Ho1 as [->|[-> Hlt]], Ho2 as [->|[-> Hlt2]].
    - congruence.
    - intro E. eapply Hx. symmetry. exact E.
    - eapply Hv.
    - intro E. injection E. lia. }
  apply Nat.eqb_eq in El, El2.
  set (w2 := World (ov :: ox :: w_refs w) (w_stolen w) (w_blocks w) nv (w_exc w) ob2 (w_sys w)).
  change (snd (ox, lx)) with lx in HT. change (snd (ov, lv)) with lv in HT. change (fst (ox, lx)) with ox in HT. change (fst (ov, lv)) with ov in HT.
  unfold bnd at 1 in HT. rewrite convert_spec in HT. subst w2. cbn [w_next] in HT.
  destruct (mok nv (length lx)) eqn:M1.
  - destruct (floats lx) as [fx|] eqn:Fx.
    + unfold bnd at 1, decref at 1 in HT. cbn [head_block bump w_refs w_stolen w_blocks w_next w_exc w_objs w_sys] in HT.
      rewrite drop_second in HT by auto. cbv beta iota in HT.
      unfold bnd at 1 in HT. rewrite convert_spec in HT. cbn [w_next] in HT.
      destruct (mok (Datatypes.S nv) (length lv)) eqn:M2.
      * destruct (floats lv) as [fv|] eqn:Fv; unfold bnd at 1, decref at 1, ret in HT;
          cbn [head_block bump with_exc w_refs w_stolen w_blocks w_next w_exc w_objs w_sys] in HT; rewrite drop_head in HT; cbv beta iota in HT; subst T.
        -- do 4 eexists. split; [reflexivity|]. simpl. repeat split; auto.
           ++ instantiate (1 := [_; _]). reflexivity.
           ++ reflexivity.
           ++ intros [H|H]; discriminate.
           ++ intros px pv [= <-] [= <-]. exists fx, fv. rewrite (floats_length _ _ Fx), (floats_length _ _ Fv).
              repeat split; auto.
        -- do 4 eexists. split; [reflexivity|]. simpl. repeat split; auto.
           ++ instantiate (1 := [_]). reflexivity.
           ++ reflexivity.
           ++ intros _. exists XType. repeat split; auto. discriminate.
           ++ intros px pv _ H; discriminate H.
      * unfold bnd at 1, decref at 1, ret in HT; cbn [head_block bump with_exc w_refs w_stolen w_blocks w_next w_exc w_objs w_sys] in HT.
        rewrite drop_head in HT. subst T. do 4 eexists. split; [reflexivity|]. simpl. repeat split; auto.
        ++ instantiate (1 := [_]). reflexivity.
        ++ reflexivity.
        ++ intros _. exists XMemory. split; auto. split; [discriminate|]. intros Hm. rewrite Hm in M2. discriminate.
        ++ intros px pv _ H; discriminate H.
    + unfold bnd at 1, decref at 1 in HT. cbn [with_exc bump w_refs w_stolen w_blocks w_next w_exc w_objs w_sys] in HT.
      rewrite drop_second in HT by auto. cbv beta iota in HT.
      unfold bnd at 1 in HT. rewrite convert_spec in HT. cbn [w_next] in HT.
      destruct (mok (Datatypes.S nv) (length lv)) eqn:M2.
      * destruct (floats lv) as [fv|] eqn:Fv; unfold bnd at 1, decref at 1, ret in HT;
          cbn [head_block bump with_exc w_refs w_stolen w_blocks w_next w_exc w_objs w_sys] in HT; rewrite drop_head in HT; cbv beta iota in HT; subst T.
        -- do 4 eexists. split; [reflexivity|]. simpl. repeat split; auto.
           ++ instantiate (1 := [_]). reflexivity.
           ++ reflexivity.
           ++ intros _. exists XType. repeat split; auto. discriminate.
           ++ intros px pv H; discriminate H.
        -- do 4 eexists. split; [reflexivity|]. simpl. repeat split; auto.
           ++ instantiate (1 := []). reflexivity.
           ++ reflexivity.
           ++ intros _. exists XType. repeat split; auto. discriminate.
           ++ intros px pv H; discriminate H.
      * unfold bnd at 1, decref at 1, ret in HT; cbn [head_block bump with_exc w_refs w_stolen w_blocks w_next w_exc w_objs w_sys] in HT.
        rewrite drop_head in HT. subst T. do 4 eexists. split; [reflexivity|]. simpl. repeat split; auto.
        ++ instantiate (1 := []). reflexivity.
        ++ reflexivity.
        ++ intros _. exists XMemory. split; auto. split; [discriminate|]. intros Hm. rewrite Hm in M2. discriminate.
        ++ intros px pv H; discriminate H.
  - unfold bnd at 1, decref at 1 in HT. cbn [with_exc bump w_refs w_stolen w_blocks w_next w_exc w_objs w_sys] in HT.
    rewrite drop_second in HT by auto. cbv beta iota in HT.
    unfold bnd at 1 in HT. rewrite convert_spec in HT. cbn [w_next] in HT.
    assert (Hm: ~ (forall i k, mok i k = true)) by (intros Hm; rewrite Hm in M1; discriminate).
    destruct (mok (Datatypes.S nv) (length lv)) eqn:M2.
    + destruct (floats lv) as [fv|] eqn:Fv; unfold bnd at 1, decref at 1, ret in HT;
        cbn [head_block bump with_exc w_refs w_stolen w_blocks w_next w_exc w_objs w_sys] in HT; rewrite drop_head in HT; cbv beta iota in HT; subst T.
      * do 4 eexists. split; [reflexivity|]. simpl. repeat split; auto.
        ++ instantiate (1 := [_]). reflexivity.
        ++ reflexivity.
        ++ intros _. exists XMemory. split; auto. split; [discriminate|]. intros; contradiction.
        ++ intros px pv H; discriminate H.
      * do 4 eexists. split; [reflexivity|]. simpl. repeat split; auto.
        ++ instantiate (1 := []). reflexivity.
        ++ reflexivity.
        ++ intros _. exists XType. split; auto. split; [discriminate|]. intros; contradiction.
        ++ intros px pv H; discriminate H.
    + unfold bnd at 1, decref at 1, ret in HT; cbn [head_block bump with_exc w_refs w_stolen w_blocks w_next w_exc w_objs w_sys] in HT.
      rewrite drop_head in HT. subst T. do 4 eexists. split; [reflexivity|]. simpl. repeat split; auto.
      ++ instantiate (1 := []). reflexivity.
      ++ reflexivity.
      ++ intros _. exists XMemory. split; auto. split; [discriminate|]. intros; contradiction.
      ++ intros px pv H; discriminate H.
Qed.
End P.
