(** Proofs about the Python layer. *)
From Coq Require Import String ZArith List Arith Bool Lia.
From Verif Require Import MPy SPy PPy PPyB PPyC PPyD PPyE MPyL SPyL.
Import ListNotations.
Open Scope string_scope.
Open Scope Z_scope.

Section P.
Context {S F : Type}.
Variable L : lib S F.
Variable mok : nat -> nat -> bool.
Variable junk : Z.
Variable place : string.
Notation W := (world S F).
Notation fn := (pyfun L mok junk place).

Definition fmt_of (t : dty) : funit := match t with TyInt => FI | TyFlt => FD | TyStr => FS end.
Lemma typed_parse : forall ts args cs, typed L ts args cs -> forall uns n,
  exists l, parse_all L (map fmt_of ts) n args = inl l /\ cargs uns l = cs.
Proof.
  intros ts args cs H. induction H; intros uns n.
  - exists []. auto.
  - destruct (IHtyped uns (Datatypes.S n)) as (l0 & H1 & H2). exists (VI z :: l0). split.
    + cbn [map fmt_of parse_all parse1]. assert (A: (int_min <=? z) && (z <=? int_max) = true).
      { apply andb_true_intro. split; apply Z.leb_le; unfold int_min; lia. }
      rewrite A, H1. reflexivity.
    + cbn [cargs map]. unfold cargs in H2. rewrite H2. f_equal. f_equal. destruct uns; auto. apply Z.mod_small. unfold int_max in H. lia.
  - destruct (IHtyped uns (Datatypes.S n)) as (l0 & H1 & H2). exists (VD f :: l0). cbn [map fmt_of parse_all parse1]. rewrite H1.
    split; auto. cbn [cargs map]. unfold cargs in H2. rewrite H2. auto.
  - destruct (IHtyped uns (Datatypes.S n)) as (l0 & H1 & H2). exists (VD (l_ofZ L z) :: l0). cbn [map fmt_of parse_all parse1]. rewrite H1.
    split; auto. cbn [cargs map]. unfold cargs in H2. rewrite H2. auto.
  - destruct (IHtyped uns (Datatypes.S n)) as (l0 & H1 & H2). exists (VS s :: l0). cbn [map fmt_of parse_all parse1]. rewrite H1.
    split; auto. cbn [cargs map]. unfold cargs in H2. rewrite H2. auto.
Qed.
Lemma typed_length : forall ts args cs, typed L ts args cs -> length args = length ts.
Proof. intros ts args cs H. induction H; simpl; auto. Qed.
Lemma typed_parsed : forall ts args cs uns c, typed L ts args cs ->
  exists l, parse L (FO :: map fmt_of ts) [] (c :: args) = inl l /\ cargs uns (tl l) = cs.
Proof.
  intros ts args cs uns c H. destruct (typed_parse _ _ _ H uns 1%nat) as (l & H1 & H2).
  exists (VO (OArg 0) c :: l). split; auto. unfold parse. rewrite app_nil_r. cbn [length]. rewrite map_length, (typed_length _ _ _ H), Nat.add_0_r, Nat.ltb_irrefl. cbn [orb parse_all parse1]. rewrite H1. auto.
Qed.

Lemma exprs_args : forall (a b : list (pyv F)), py_exprs (a ++ b) (map EArg (seq (length a) (length b))) = inl b.
Proof.
  intros a b. revert a. induction b as [|x b IH]; intros a; [reflexivity|].
  cbn [length seq map py_exprs py_expr]. specialize (IH (a ++ [x])%list). rewrite app_length, <- app_assoc in IH. cbn [length app] in IH.
  rewrite Nat.add_1_r in IH. rewrite IH. rewrite app_nth2, Nat.sub_diag by lia. reflexivity.
Qed.
Lemma bind_all : forall (args : list (pyv F)), py_bind (length args) [] args = Some args.
Proof.
  intros args. unfold py_bind. cbn [length]. rewrite Nat.add_0_r, Nat.ltb_irrefl. cbn [orb]. rewrite Nat.sub_diag. cbn [skipn]. rewrite app_nil_r. auto.
Qed.

(** the results of the module and of the layer *)
Definition fits (p : pypost) (c d : shape) : Prop :=
  match p with
  | PId => c = d
  | PNonzero => c = RInt /\ d = RBool
  | PDiscard => c = RNone /\ d = RNone
  | _ => False
  end.
Lemma post_value : forall p c d (q : creply S F), fits p c d -> py_post p (simple_value c q) = simple_value d q.
Proof.
  intros p c d q H. destruct p; simpl in H; try contradiction.
  - subst. destruct (simple_value d q) eqn:E; auto.
  - destruct H; subst. unfold simple_value. destruct (c_err q =? 0); reflexivity.
  - destruct H; subst. unfold simple_value. destruct (c_err q =? 0); reflexivity.
Qed.

Lemma row_does : forall d r c,
  find (fun r => String.eqb (y_name r) (d_name d)) (@ytable F) = Some r ->
  find (fun c => String.eqb (c_name c) (y_target r)) ctable = Some c ->
  y_params r = Datatypes.S (length (d_types d)) -> y_defaults r = [] ->
  y_args r = map EArg (seq 0 (Datatypes.S (length (d_types d)))) ->
  c_kind c = d_kind d -> c_fmt c = map fmt_of (d_types d) -> c_fun c = "MoorDyn_" ++ d_name d ->
  fits (y_post r) (c_shape c) (d_shape d) -> (forall k, c_shape c <> RCap k) -> does L fn d.
Proof.
  intros d r c Hr Hc Hn Hd Ha Hk Hf Hfun Hfit Hcap h i s w args cs Hs Hex Ht. cbv zeta. unfold pyfun. rewrite Hr.
  pose proof (typed_length _ _ _ Ht) as Hlen.
  assert (Hl: y_params r = length (PCap (d_kind d) h i :: args)) by (cbn [length]; lia).
  rewrite Hd, Hl, bind_all. unfold py_module, method. rewrite Hc, Ha. rewrite <- Hlen.
  pose proof (exprs_args [] (PCap (d_kind d) h i :: args)) as He. cbn [app length] in He. rewrite He. clear He.
  destruct (typed_parsed _ _ _ (c_uns c) (PCap (d_kind d) h i) Ht) as (l & Hp & Hca).
  rewrite Hk, Hf. rewrite Hfun.
  destruct (simple_call L (d_kind d) (map fmt_of (d_types d)) (c_uns c) ("MoorDyn_" ++ d_name d) (c_shape c) h i args l w s Hs Hex Hcap Hp) as (w' & E & Hb).
  rewrite Hca in E, Hb. cbv zeta. rewrite E. cbn [fst snd]. rewrite (post_value _ _ _ _ Hfit). exists w'. auto.
Qed.

Lemma documented_does : forall d, In d documented -> ~ In (d_name d) exceptions -> does L fn d.
Proof.
  intros d Hin Hex. unfold documented in Hin. cbn [In] in Hin.
  repeat (destruct Hin as [<-|Hin]);
    try (exfalso; apply Hex; unfold exceptions; cbn [d_name In]; tauto);
    try contradiction;
    (eapply row_does; try reflexivity; try (split; reflexivity); try (intros k H; discriminate H)).
Qed.

(* ------------------------------ the objects of a system ------------------------------ *)
Lemma object_call : forall k fmt uns c k' h i rest l (w : W) s, w_sys w h = Some s -> w_exc w = None ->
  parse L (FO :: fmt) [] (PCap k h i :: rest) = inl l ->
  exists w', pycall (f_simple L k fmt uns c (RCap k')) (PCap k h i :: rest) w =
    (match l_obj L s k' (match s_int l 1 with Some z => z mod 2 ^ 32 | None => 0 end) with
     | Some j => PyVal (PCap k' h j) | None => PyExc XRuntime end, Some w') /\ untouched w w'.
Proof.
  intros k fmt uns c k' h i rest l w s Hs Hex Hp. unfold pycall, f_simple.
  assert (Hpt: parse_tuple L (FO :: fmt) [] (PCap k h i :: rest) w = Val l w) by (unfold parse_tuple; rewrite Hp; auto).
  rewrite (bnd_val _ _ _ _ _ _ _ Hpt).
  destruct (parse_obj L _ _ _ _ 0%nat Hp eq_refl) as (a & Ha & Hs0). injection Ha as <-.
  rewrite (bnd_val _ _ _ _ _ _ _ (need_some _ _ _ _ Hs0)). cbn [snd].
  assert (Hk: kind_eqb k k = true) by (destruct k; auto).
  assert (Hpr: pointer k (@PCap F k h i) w = Val (h, i) w) by (unfold pointer; rewrite Hk; auto).
  rewrite (bnd_val _ _ _ _ _ _ _ Hpr). cbn [fst snd].
  unfold bnd at 1, live. rewrite Hs. destruct (l_obj L s k' _) as [j|]; unfold bnd, newobj, raise, leave; simpl; rewrite ?Hex, ?Nat.eqb_refl;
    eexists; (split; [reflexivity|intro; reflexivity]).
Qed.
Definition getters : list (string * kind) := [("GetBody", KBody); ("GetRod", KRod); ("GetPoint", KPoint); ("GetLine", KLine)].
Lemma object_get : forall name k h i n s (w : W), In (name, k) getters ->
  w_sys w h = Some s -> w_exc w = None -> 0 <= n <= int_max ->
  exists w', fn name [PCap KSystem h i; PInt n] w =
    (match l_obj L s k n with Some j => PyVal (PCap k h j) | None => PyExc XRuntime end, Some w') /\ untouched w w'.
Proof.
  intros name k h i n s w Hin Hs Hex Hn.
  assert (Hp: parse L (FO :: [FI]) [] [PCap KSystem h i; PInt n] = inl [VO (OArg 0) (PCap KSystem h i); VI n]).
  { unfold parse. cbn [length Nat.ltb Nat.leb orb Nat.add app parse_all parse1].
    assert (H1: (int_min <=? n) = true) by (apply Z.leb_le; unfold int_min; lia).
    assert (H2: (n <=? int_max) = true) by (apply Z.leb_le; lia). rewrite H1, H2. reflexivity. }
  assert (Hmod: n mod 2 ^ 32 = n) by (apply Z.mod_small; unfold int_max in Hn; lia).
  assert (K: forall c k', exists w', pycall (f_simple L KSystem [FI] false c (RCap k')) [PCap KSystem h i; PInt n] w =
    (match l_obj L s k' n with Some j => PyVal (PCap k' h j) | None => PyExc XRuntime end, Some w') /\ untouched w w').
  { intros c k'. destruct (object_call KSystem [FI] false c k' h i [PInt n] _ w s Hs Hex Hp) as (w' & E & Hu).
    cbn [s_int nth_error] in E. rewrite Hmod in E. exists w'. auto. }
  unfold getters in Hin. cbn [In] in Hin.
  repeat (destruct Hin as [[= <- <-]|Hin]); try contradiction;
    match goal with |- exists w', fn ?nm _ _ = _ /\ _ =>
      let m := eval vm_compute in (match find (fun r => String.eqb (y_name r) nm) (@ytable F) with
                 | Some r => match find (fun c => String.eqb (c_name c) (y_target r)) ctable with Some c => (c_fun c, c_shape c) | None => ("", RInt) end
                 | None => ("", RInt) end) in
      match m with (?cf, RCap ?kk) =>
        destruct (K cf kk) as (w' & E & Hu); exists w'; split; [|exact Hu];
        assert (X: fn nm [PCap KSystem h i; PInt n] w = let r := pycall (f_simple L KSystem [FI] false cf (RCap kk)) [PCap KSystem h i; PInt n] w in (py_post PId (fst r), snd r)) by reflexivity;
        rewrite X, E; cbn [fst snd]; destruct (l_obj L s kk n); reflexivity
      end
    end.
Qed.
Lemma waves_get : forall h i s (w : W), w_sys w h = Some s -> w_exc w = None ->
  exists w', fn "GetWaves" [PCap KSystem h i] w =
    (match l_obj L s KWaves 0 with Some j => PyVal (PCap KWaves h j) | None => PyExc XRuntime end, Some w') /\ untouched w w'.
Proof.
  intros h i s w Hs Hex. destruct (object_call KSystem [] false "MoorDyn_GetWaves" KWaves h i [] [VO (OArg 0) (PCap KSystem h i)] w s Hs Hex eq_refl) as (w' & E & Hu).
  exists w'. split; [|exact Hu].
  assert (X: fn "GetWaves" [PCap KSystem h i] w = let r := pycall (f_simple L KSystem [] false "MoorDyn_GetWaves" (RCap KWaves)) [PCap KSystem h i] w in (py_post PId (fst r), snd r)) by reflexivity.
  rewrite X, E. cbn [fst snd s_int nth_error]. destruct (l_obj L s KWaves 0); reflexivity.
Qed.
Lemma seafloor_get : forall h i s (w : W), w_sys w h = Some s -> w_exc w = None ->
  exists w', fn "GetSeafloor" [PCap KSystem h i] w =
    (PyVal match l_obj L s KSeafloor 0 with Some j => PCap KSeafloor h j | None => PNone end, Some w') /\ untouched w w'.
Proof.
  intros h i s w Hs Hex. destruct (object_call KSystem [] false "MoorDyn_GetSeafloor" KSeafloor h i [] [VO (OArg 0) (PCap KSystem h i)] w s Hs Hex eq_refl) as (w' & E & Hu).
  exists w'. split; [|exact Hu].
  assert (X: fn "GetSeafloor" [PCap KSystem h i] w = let r := pycall (f_simple L KSystem [] false "MoorDyn_GetSeafloor" (RCap KSeafloor)) [PCap KSystem h i] w in (py_post PCatch (fst r), snd r)) by reflexivity.
  rewrite X, E. cbn [fst snd s_int nth_error]. destruct (l_obj L s KSeafloor 0); reflexivity.
Qed.

(* ------------------------------ arrays ------------------------------ *)
Lemma list_items : forall (v : pyv F), py_list v = match items v with inl l => inl (PLst l) | inr e => inr e end.
Proof. intros []; simpl; auto. destruct raises; auto. Qed.
Lemma two_items : forall n (X V : pyv F) xs vs, items X = inl xs -> items V = inl vs -> two L n (PLst xs) (PLst vs) = two L n X V.
Proof. intros. unfold two. simpl. rewrite H, H0. auto. Qed.
Lemma post_id : forall r : @pyres F, py_post PId r = r.
Proof. intros [| |]; reflexivity. Qed.

Lemma step_fn : forall h i X V t dt s xs vs (w : W),
  (forall a k, mok a k = true) -> w_sys w h = Some s -> w_exc w = None -> items X = inl xs -> items V = inl vs ->
  exists w', fn "Step" [PCap KSystem h i; X; V; PFlt t; PFlt dt] w = (fst (step_answer L s X V t dt), Some w') /\
    becomes w w' h (snd (step_answer L s X V t dt)).
Proof.
  intros h i X V t dt s xs vs w Hm Hs Hex HX HV.
  assert (Y: fn "Step" [PCap KSystem h i; X; V; PFlt t; PFlt dt] w =
    py_module L mok junk "step" (py_exprs [PCap KSystem h i; X; V; PFlt t; PFlt dt] [EArg 0; EList 1; EList 2; EArg 3; EArg 4]) PId w) by reflexivity.
  rewrite Y. cbn [py_exprs py_expr nth]. rewrite !list_items, HX, HV.
  assert (Z: forall l, py_module L mok junk "step" (inl l) PId w = let r := pycall (f_step L mok) l w in (py_post PId (fst r), snd r)) by reflexivity.
  rewrite Z. cbv zeta. destruct (step_call L mok h i (PLst xs) (PLst vs) t dt s w Hm Hs Hex) as (w' & E & Hb & _).
  rewrite E. cbn [fst snd]. rewrite post_id. exists w'. unfold step_answer in *. rewrite (two_items _ X V xs vs HX HV) in *. auto.
Qed.
Lemma init_fn : forall h i X V s xs vs (skip : bool) (w : W),
  (forall a k, mok a k = true) -> w_sys w h = Some s -> w_exc w = None -> items X = inl xs -> items V = inl vs ->
  exists w', fn (if skip then "Init_NoIC" else "Init") [PCap KSystem h i; X; V] w = (fst (init_answer L s X V skip), Some w') /\
    becomes w w' h (snd (init_answer L s X V skip)).
Proof.
  intros h i X V s xs vs skip w Hm Hs Hex HX HV.
  assert (Y: fn (if skip then "Init_NoIC" else "Init") [PCap KSystem h i; X; V] w =
    py_module L mok junk "init" (py_exprs [PCap KSystem h i; X; V] [EArg 0; EList 1; EList 2; EInt (if skip then 1 else 0)]) PId w) by (destruct skip; reflexivity).
  rewrite Y. cbn [py_exprs py_expr nth]. rewrite !list_items, HX, HV.
  assert (Z: forall l, py_module L mok junk "init" (inl l) PId w = let r := pycall (f_init L mok) l w in (py_post PId (fst r), snd r)) by reflexivity.
  rewrite Z. cbv zeta. destruct (init_call L mok h i (PLst xs) (PLst vs) (Some (if skip then 1 else 0)) s w Hm Hs Hex) as (w' & E & Hb & _).
  { intros z [= <-]. destruct skip; unfold int_min, int_max; lia. }
  assert (Hsk: negb ((if skip then 1 else 0) =? 0) = skip) by (destruct skip; auto). rewrite Hsk in *.
  cbn [app] in E. rewrite E. cbn [fst snd]. rewrite post_id. exists w'. unfold init_answer in *. rewrite (two_items _ X V xs vs HX HV) in *. auto.
Qed.

Lemma entries_points : forall l : list (F * F * F), py_entries (points l) = map (fun p => PLst [PFlt (fst (fst p)); PFlt (snd (fst p)); PFlt (snd p)]) l.
Proof. reflexivity. Qed.
Lemma flatten_points : forall (u a : list (F * F * F)) uu aa, length u = length a ->
  flatten3 (py_entries (points u)) (py_entries (points a)) uu aa = inl (uu ++ map PFlt (flat u), aa ++ map PFlt (flat a))%list.
Proof.
  intros u. induction u as [|[[x y] z] u IH]; intros [|[[b c] d] a] uu aa Hl; try discriminate Hl.
  - simpl. rewrite !app_nil_r. auto.
  - cbn [length] in Hl. injection Hl as Hl. rewrite !entries_points in *. cbn [map flatten3 py_len length Nat.eqb negb py_entries fst snd flat].
    specialize (IH a (uu ++ [PFlt x; PFlt y; PFlt z])%list (aa ++ [PFlt b; PFlt c; PFlt d])%list Hl).
    rewrite !entries_points in IH. rewrite IH, <- !app_assoc. reflexivity.
Qed.
Lemma set_wave_fn : forall h i u a t s (w : W),
  (forall a k, mok a k = true) -> w_sys w h = Some s -> w_exc w = None -> length u = length a ->
  (forall f, l_tofloat L (PFlt f) = Some f) ->
  exists w', fn "SetWaveKin" [PCap KSystem h i; points u; points a; PFlt t] w =
    (if Nat.eqb (length u) (l_wn L s)
     then PyVal (PInt (c_err (l_call L "MoorDyn_ExternalWaveKinSet" s 0 [CArr (flat u); CArr (flat a); CDbl t])))
     else PyExc XValue, Some w') /\
    becomes w w' h (if Nat.eqb (length u) (l_wn L s) then c_sys (l_call L "MoorDyn_ExternalWaveKinSet" s 0 [CArr (flat u); CArr (flat a); CDbl t]) else s).
Proof.
  intros h i u a t s w Hm Hs Hex Hl Hf.
  assert (Y: fn "SetWaveKin" [PCap KSystem h i; points u; points a; PFlt t] w = set_wave_kin L mok junk [PCap KSystem h i; points u; points a; PFlt t] w) by reflexivity.
  rewrite Y. unfold set_wave_kin.
  assert (E1: py_len (points u) = Some (length u)) by (unfold points; simpl; rewrite map_length; auto).
  assert (E2: py_len (points a) = Some (length a)) by (unfold points; simpl; rewrite map_length; auto).
  rewrite E1, E2, Hl, Nat.eqb_refl. cbn [negb]. rewrite (flatten_points u a [] [] Hl). cbn [app].
  assert (Z: forall l, py_module L mok junk "ext_wave_set" (inl l) PId w = let r := pycall (f_ext_wave_set L mok) l w in (py_post PId (fst r), snd r)) by reflexivity.
  rewrite Z. cbv zeta.
  destruct (wave_call L mok h i (PLst (map PFlt (flat u))) (PLst (map PFlt (flat a))) t s w Hm Hs Hex) as (w' & E & Hb & _).
  rewrite E. cbn [fst snd]. rewrite post_id. exists w'.
  assert (Fl: forall l, floats L (map PFlt l) = Some l) by (induction l; simpl; auto; rewrite Hf, IHl; auto).
  assert (Ln: forall l : list (F * F * F), length (flat l) = (3 * length l)%nat).
  { induction l as [|[[? ?] ?] l IH]; cbn [flat length]; lia. }
  assert (T: two L (3 * l_wn L s) (PLst (map PFlt (flat u))) (PLst (map PFlt (flat a))) =
             if Nat.eqb (length a) (l_wn L s) then inl (flat u, flat a) else inr XValue).
  { unfold two. cbn [items]. rewrite !map_length, !Ln, Hl.
    destruct (Nat.eqb (length a) (l_wn L s)) eqn:En.
    - apply Nat.eqb_eq in En. rewrite En, Nat.eqb_refl. cbn [negb]. rewrite !Fl. auto.
    - apply Nat.eqb_neq in En. assert (Q: Nat.eqb (3 * length a) (3 * l_wn L s) = false) by (apply Nat.eqb_neq; lia). rewrite Q. auto. }
  unfold wave_answer in *. rewrite T in *. destruct (Nat.eqb (length a) (l_wn L s)); cbn [fst snd] in *; auto.
Qed.

(** what ext_wave_coords returns *)
Lemma coords_call : forall h i s (w : W), (forall a k, mok a k = true) -> w_sys w h = Some s -> w_exc w = None ->
  let q := l_call L "MoorDyn_ExternalWaveKinGetCoordinates" s 0 [] in
  exists w', pycall (f_ext_wave_coords L mok) [PCap KSystem h i] w =
    (if c_err q =? 0 then PyVal (PTup (map (fun j => PFlt (c_out q j)) (seq 0 (l_wn L s * 3)))) else PyExc XRuntime, Some w') /\
    becomes w w' h (c_sys q).
Proof.
  intros h i s w Hm Hs Hex. cbv zeta. unfold pycall, f_ext_wave_coords.
  rewrite (bnd_val _ _ _ _ _ _ _ (eq_refl : parse_tuple L [FO] [] [PCap KSystem h i] w = Val [VO (OArg 0) (PCap KSystem h i)] w)).
  rewrite (bnd_val _ _ _ _ _ _ _ (eq_refl : need (@s_obj F [VO (OArg 0) (PCap KSystem h i)] 0) w = Val (OArg 0, PCap KSystem h i) w)).
  cbn [snd]. rewrite (bnd_val _ _ _ _ _ _ _ (eq_refl : pointer KSystem (@PCap F KSystem h i) w = Val (h, i) w)). cbn [fst snd].
  unfold bnd at 1, live. rewrite Hs. cbv zeta. unfold bnd at 1, malloc. rewrite Hm.
  unfold bnd at 1. rewrite (ccall_val L _ h 0 _ s) by exact Hs. cbn [w_refs w_stolen w_blocks w_next w_exc w_objs w_sys].
  set (r := l_call L "MoorDyn_ExternalWaveKinGetCoordinates" s 0 []).
  destruct (c_err r =? 0).
  - unfold bnd at 1, fill. cbn [w_blocks bget]. rewrite Nat.eqb_refl, put_all_new. unfold set_blocks.
    cbn [w_refs w_stolen w_blocks w_next w_exc w_objs w_sys bset]. rewrite Nat.eqb_refl. unfold bnd at 1, ret.
    unfold bnd at 1, tuple_of, bnd at 1, fetch. cbn [w_blocks bget]. rewrite Nat.eqb_refl, (cells_seq _ (c_out r)) by reflexivity.
    unfold newobj, bnd, free, leave. cbn [w_blocks bget w_refs w_stolen w_next w_exc w_objs w_sys]. rewrite Nat.eqb_refl.
    unfold set_blocks. cbn [w_blocks bdel w_refs w_stolen w_next w_exc w_objs w_sys finish oget]. rewrite Hex, drop_head, !Nat.eqb_refl.
    eexists. split; [rewrite map_map; reflexivity|intros k; simpl; auto].
  - unfold bnd at 1, ret at 1. unfold bnd at 1, bnd at 1, free. cbn [w_blocks bget]. rewrite Nat.eqb_refl.
    unfold set_blocks. cbn [w_blocks bdel w_refs w_stolen w_next w_exc w_objs w_sys]. unfold raise, leave. cbn [finish w_exc].
    eexists. split; [reflexivity|intros k; simpl; auto].
Qed.
Lemma group_seq : forall (f : nat -> pyv F) n k, group3 (map f (seq k (n * 3))) = map (fun j => PLst [f (k + 3 * j)%nat; f (k + 3 * j + 1)%nat; f (k + 3 * j + 2)%nat]) (seq 0 n).
Proof.
  intros f n. induction n; intros k; [reflexivity|].
  cbn [Nat.mul Nat.add seq map group3].
  assert (E: forall a b c a' b' c', a = a' -> b = b' -> c = c' -> PLst [f a; f b; f c] = PLst [f a'; f b'; f c']) by (intros; subst; auto).
  f_equal.
  - apply E; lia.
  - rewrite IHn, <- seq_shift, map_map. apply map_ext. intros j. apply E; lia.
Qed.
Lemma coords_fn : forall h i s (w : W), (forall a k, mok a k = true) -> w_sys w h = Some s -> w_exc w = None ->
  let q := l_call L "MoorDyn_ExternalWaveKinGetCoordinates" s 0 [] in
  exists w', fn "GetWaveKinCoordinates" [PCap KSystem h i] w =
    (if c_err q =? 0 then PyVal (points (map (fun j => (c_out q (3 * j)%nat, c_out q (3 * j + 1)%nat, c_out q (3 * j + 2)%nat)) (seq 0 (l_wn L s))))
     else PyExc XRuntime, Some w') /\
    becomes w w' h (c_sys q).
Proof.
  intros h i s w Hm Hs Hex. cbv zeta. destruct (coords_call h i s w Hm Hs Hex) as (w' & E & Hb).
  assert (X: fn "GetWaveKinCoordinates" [PCap KSystem h i] w = let r := pycall (f_ext_wave_coords L mok) [PCap KSystem h i] w in (py_post PGroup (fst r), snd r)) by reflexivity.
  rewrite X, E. cbn [fst snd]. exists w'. split; [|exact Hb].
  destruct (c_err _ =? 0); [|reflexivity]. cbn [py_post]. rewrite group_seq. unfold points. rewrite map_map. reflexivity.
Qed.

(* ------------------------------ the functions that do something else ------------------------------ *)
Lemma waves_kin_fn : forall args (w : W), (length args <= 6)%nat -> fn "GetWavesKin" args w = (PyExc XType, snd (fn "GetWavesKin" args w)).
Proof.
  intros args w Hl.
  do 7 (destruct args as [|? args]; [reflexivity|]). simpl in Hl. lia.
Qed.
Lemma waves_kin_world : forall args (w : W), exists w', snd (fn "GetWavesKin" args w) = Some w' /\ untouched w w'.
Proof.
  intros args w.
  do 7 (destruct args as [|? args]; [eexists; split; [reflexivity|intro; reflexivity]|]).
  eexists; split; [reflexivity|intro; reflexivity].
Qed.
Lemma waves_kin_more : forall args (w : W), fst (fn "GetWavesKin" args w) = PyExc XType.
Proof. intros args w. do 7 (destruct args as [|? args]; [reflexivity|]). reflexivity. Qed.

Lemma simple_fn1 : forall name cf k r h i s (w : W), (forall k', r <> RCap k') -> w_sys w h = Some s -> w_exc w = None ->
  fn name [PCap k h i] w = (let r := pycall (f_simple L k [] false cf r) [PCap k h i] w in (py_post PId (fst r), snd r)) ->
  exists w', fn name [PCap k h i] w = (simple_value r (l_call L cf s i []), Some w') /\ becomes w w' h (c_sys (l_call L cf s i [])).
Proof.
  intros name cf k r h i s w Hr Hs Hex H.
  destruct (simple_call L k [] false cf r h i [] [VO (OArg 0) (PCap k h i)] w s Hs Hex Hr eq_refl) as (w' & E & Hb).
  rewrite H, E. cbn [fst snd]. rewrite post_id. exists w'. auto.
Qed.
Lemma wave_n_fn : forall h i s (w : W), w_sys w h = Some s -> w_exc w = None ->
  exists w', fn "ExternalWaveKinGetN" [PCap KSystem h i] w =
    (if c_err (l_call L "MoorDyn_ExternalWaveKinInit" s i []) =? 0 then PyVal (PInt 0) else PyExc XRuntime, Some w') /\
    becomes w w' h (c_sys (l_call L "MoorDyn_ExternalWaveKinInit" s i [])).
Proof.
  intros h i s w Hs Hex. destruct (simple_fn1 "ExternalWaveKinGetN" "MoorDyn_ExternalWaveKinInit" KSystem RErr0 h i s w) as (w' & E & Hb); auto; try discriminate.
  exists w'. rewrite E. split; auto. unfold simple_value. destruct (c_err _ =? 0); reflexivity.
Qed.
Lemma wave_init_fn : forall h i s (w : W), w_sys w h = Some s -> w_exc w = None ->
  exists w', fn "ExternalWaveKinInit" [PCap KSystem h i] w =
    (if c_err (l_call L "MoorDyn_ExternalWaveKinInit" s i []) =? 0 then PyVal (PInt 0) else PyExc XRuntime, Some w') /\
    becomes w w' h (c_sys (l_call L "MoorDyn_ExternalWaveKinInit" s i [])).
Proof.
  intros h i s w Hs Hex. destruct (simple_fn1 "ExternalWaveKinInit" "MoorDyn_ExternalWaveKinInit" KSystem RErr0 h i s w) as (w' & E & Hb); auto; try discriminate.
  exists w'. rewrite E. split; auto. unfold simple_value. destruct (c_err _ =? 0); reflexivity.
Qed.
Lemma seabed_fn : forall h i n s (w : W), w_sys w h = Some s -> w_exc w = None -> 0 <= n <= int_max ->
  exists w', fn "GetLineNodeSeabedForce" [PCap KLine h i; PInt n] w =
    (simple_value (RVec 3) (l_call L "MoorDyn_GetLineNodeFroudeKrilov" s i [CInt n]), Some w').
Proof.
  intros h i n s w Hs Hex Hn.
  assert (X: fn "GetLineNodeSeabedForce" [PCap KLine h i; PInt n] w = fn "GetLineNodeFroudeKrilov" [PCap KLine h i; PInt n] w) by reflexivity.
  assert (D: does L fn (Doc "GetLineNodeFroudeKrilov" KLine [TyInt] (RVec 3))).
  { apply documented_does; [unfold documented; cbn [In]; tauto|]. unfold exceptions. cbn [d_name In]. intros H.
    repeat (destruct H as [H|H]; [discriminate H|]). exact H. }
  destruct (D h i s w [PInt n] [CInt n] Hs Hex) as (w' & E & _). { constructor; [exact Hn|constructor]. }
  exists w'. rewrite X. exact E.
Qed.
Lemma is_pbend_fn : forall v (w : W), fn "IsLinePressBend" [v] w = (PyExc XName, Some w).
Proof. reflexivity. Qed.
Lemma use_vtk_fn : forall v f (w : W), fn "UseBodyVTK" [v; f] w = (PyExc XAttribute, Some w).
Proof. reflexivity. Qed.

(* ------------------------------ Log ------------------------------ *)
Lemma log_fn : forall h i level msg s (w : W), w_sys w h = Some s -> w_exc w = None -> int_min <= level <= int_max ->
  exists head w', fn "Log" [PCap KSystem h i; PInt level; PStr msg] w =
    (PyVal (PInt (c_err (l_call L "MoorDyn_Log" s i [CInt level; CStr (head ++ place ++ msg)]))), Some w') /\
    becomes w w' h (c_sys (l_call L "MoorDyn_Log" s i [CInt level; CStr (head ++ place ++ msg)])) /\
    (3 <= level -> head = "ERR ") /\ (level = 2 -> head = "WRN ") /\ (level = 1 -> head = "MSG ") /\ (level <= 0 -> head = "DBG ").
Proof.
  intros h i level msg s w Hs Hex Hl.
  set (head := if 3 <=? level then "ERR " else if level =? 2 then "WRN " else if level =? 1 then "MSG " else "DBG ").
  assert (X: fn "Log" [PCap KSystem h i; PInt level; PStr msg] w =
    let r := pycall (f_simple L KSystem [FI; FS] false "MoorDyn_Log" RCode) [PCap KSystem h i; PInt level; PStr (head ++ place ++ msg)] w in (py_post PId (fst r), snd r)) by reflexivity.
  assert (Hp: parse L (FO :: [FI; FS]) [] [PCap KSystem h i; PInt level; PStr (head ++ place ++ msg)] =
    inl [VO (OArg 0) (PCap KSystem h i); VI level; VS (head ++ place ++ msg)]).
  { unfold parse. cbn [length Nat.ltb Nat.leb orb Nat.add app parse_all parse1].
    assert (H1: (int_min <=? level) = true) by (apply Z.leb_le; lia).
    assert (H2: (level <=? int_max) = true) by (apply Z.leb_le; lia). rewrite H1, H2. reflexivity. }
  destruct (simple_call L KSystem [FI; FS] false "MoorDyn_Log" RCode h i _ _ w s Hs Hex (fun k H => ltac:(discriminate H)) Hp) as (w' & E & Hb).
  exists head, w'. rewrite X, E. cbn [fst snd simple_value py_post cargs tl map] in *. split; [reflexivity|]. split; [exact Hb|].
  unfold head. repeat split; intros H.
  - apply Z.leb_le in H. rewrite H. auto.
  - subst. reflexivity.
  - subst. reflexivity.
  - assert (A: (3 <=? level) = false) by (apply Z.leb_gt; lia). assert (B: (level =? 2) = false) by (apply Z.eqb_neq; lia).
    assert (C: (level =? 1) = false) by (apply Z.eqb_neq; lia). rewrite A, B, C. auto.
Qed.
End P.
