(** Whole systems of lines and points commute with isometries of the horizontal plane. *)
From Coq Require Import Reals List Arith ZArith Bool Lra Lia FunctionalExtensionality.
From Verif Require Import MErr MVec MStateOps MMat MInterp MLine MRod MBody MScheme MSys SMat SLine SFrame PMat PLine PFrame PFrameB PFrameF PSymm.
From Verif Require MStep MNodes.
Import ListNotations.
Open Scope R_scope.

Lemma vget_map {A B} (h : A -> B) l i : vget (map h l) i = lift h (vget l i).
Proof. unfold vget. rewrite nth_error_map. destruct (nth_error l i); reflexivity. Qed.
Lemma vset_map {A B} (h : A -> B) l i x : vset (map h l) i (h x) = lift (map h) (vset l i x).
Proof. revert i. induction l as [|a l IH]; intros [|i]; cbn; try reflexivity. rewrite IH. now destruct (vset l i x). Qed.

Lemma F2_length {A B} (Q : A -> B -> Prop) l m : Forall2 Q l m -> length l = length m. Proof. induction 1; cbn; auto. Qed.

Section N.
Variable g : plane.
Hypothesis HG : isometry g.
Notation T := (turn g). Notation P := (place g). Notation ML := (moved_line g). Notation MP := (moved_spoint g).
Notation hS := (fun s : lst => St (map P (pos s)) (map T (vel s))).
Notation pS := (fun s : pst => St (P (pos s)) (T (vel s))).
Notation hD := (fun s : dlst => Dr (map T (dvel s)) (map T (dacc s))).
Notation pD := (fun s : dpst => Dr (T (dvel s)) (T (dacc s))).
Lemma nodes_moved L r rd r' rd' : (forall i, r' i = P (r i)) -> (forall i, rd' i = T (rd i)) -> line_nodes (ML L) r' rd' = ML (line_nodes L r rd).
Proof. intros H1 H2. unfold line_nodes, moved_line. cbn. apply functional_extensionality in H1. apply functional_extensionality in H2. now rewrite H1, H2. Qed.
Lemma lengths_moved L seg : line_lengths (ML L) seg = ML (line_lengths L seg). Proof. reflexivity. Qed.
Lemma set_end_moved L ep r rd : set_end (ML L) ep (P r) (T rd) = lift ML (set_end L ep r rd).
Proof.
  unfold set_end. destruct (Z.eqb ep ENDPOINT_B); [cbn; f_equal; apply nodes_moved; intro i; unfold put_node; cbn; now destruct (Nat.eqb _ _)|].
  destruct (Z.eqb ep ENDPOINT_A); [cbn; f_equal; apply nodes_moved; intro i; unfold put_node; cbn; now destruct (Nat.eqb _ _)|reflexivity].
Qed.
Lemma nth_map (h : v3 -> v3) j l : (j < length l)%nat -> nth j (map h l) vzero = h (nth j l vzero).
Proof. intro H. rewrite (nth_indep _ vzero (h vzero)) by (now rewrite map_length). apply map_nth. Qed.
Lemma state_moved L s : line_set_state (ML L) (hS s) = lift ML (line_set_state L s).
Proof.
  unfold line_set_state. cbn [pos vel lN moved_line]. rewrite !map_length. destruct (Nat.eqb_spec (length (pos s)) (lN L - 1)) as [E1|]; cbn [negb orb]; [|reflexivity]. destruct (Nat.eqb_spec (length (vel s)) (lN L - 1)) as [E2|]; cbn [negb]; [|reflexivity].
  cbn. f_equal. apply nodes_moved; intro i; unfold set_inner; cbn [lr lrd moved_line]; destruct (Nat.ltb_spec 0 i); cbn [andb]; try reflexivity; destruct (Nat.ltb_spec i (lN L)); try reflexivity; apply nth_map; lia.
Qed.
Lemma pass_ends_moved att r rd ls : pass_ends att (P r) (T rd) (map ML ls) = lift (map ML) (pass_ends att r rd ls).
Proof.
  revert ls. induction att as [|[i ep] att IH]; intro ls; cbn [pass_ends]; [reflexivity|]. rewrite vget_map. apply (lift_bind ML). intro L. rewrite set_end_moved. apply (lift_bind ML). intro L1. rewrite vset_map. apply (lift_bind (map ML)). apply IH.
Qed.
Lemma pass_points_moved ps ls : pass_points (map MP ps) (map ML ls) = lift (map ML) (pass_points ps ls).
Proof. revert ls. induction ps as [|p ps IH]; intro ls; cbn [pass_points map]; [reflexivity|]. cbn [sp_att sp_r sp_rd moved_spoint]. rewrite pass_ends_moved. apply (lift_bind (map ML)). apply IH. Qed.
Lemma set_points_moved i ps cs st : set_points i (map MP ps) (map (moved_cpt g) cs) (map pS st) = lift (map MP) (set_points i ps cs st).
Proof.
  revert i cs. induction ps as [|p ps IH]; intros i cs; cbn [set_points map]; [reflexivity|]. cbn [sp_type moved_spoint]. destruct (sp_type p).
  - destruct cs as [|c cs]; cbn [map]; [reflexivity|]. rewrite IH. apply (lift_bind (map MP)). reflexivity.
  - rewrite vget_map. apply (lift_bind pS). intro s. rewrite IH. apply (lift_bind (map MP)). reflexivity.
  - rewrite IH. apply (lift_bind (map MP)). reflexivity.
Qed.
Lemma set_lines_moved i ls st : set_lines i (map ML ls) (map hS st) = lift (map ML) (set_lines i ls st).
Proof. revert i. induction ls as [|L ls IH]; intro i; cbn [set_lines map]; [reflexivity|]. rewrite vget_map. apply (lift_bind hS). intro s. rewrite state_moved. apply (lift_bind ML). intro L1. rewrite IH. apply (lift_bind (map ML)). reflexivity. Qed.
Lemma upd_net_moved e e' t l x x' : moved_sys g e e' -> moved_state g x x' -> upd_net e' t l x' = lift (moved_net g) (upd_net e t l x).
Proof.
  intros (B1 & B2 & ->) (S1 & S2 & ->). unfold upd_net. cbn [MStep.e_rest MStep.e_pts n_pts n_lines n_cfl n_objs moved_net s_points s_lines]. rewrite set_points_moved. apply (lift_bind (map MP)). intro ps. rewrite pass_points_moved. apply (lift_bind (map ML)). intro ls. rewrite set_lines_moved. apply (lift_bind (map ML)). reflexivity.
Qed.

Variables (sea sea' : R -> v3 -> MNodes.wkin) (depth depth' : R -> R -> R) (ec : envc).
Hypothesis HSea : moved_sea g sea sea'.
Hypothesis HDep : moved_depth g depth depth'.
Lemma water_moved t L : moved_water g (line_water sea depth t L) (line_water sea' depth' t (ML L)).
Proof. split; [|exact HDep]. intro i. cbn. rewrite HSea. cbn. auto. Qed.
Lemma inv_moved m m' : moved_matrix g m m' -> invertible m' = invertible m.
Proof. intro H. unfold invertible. now rewrite (det_moved g HG m m' H). Qed.
Definition calc_rel (x x' : dlst * lineout) : Prop := fst x' = hD (fst x) /\ moved_out g (snd x) (snd x').
Lemma line_calc_moved t L : orel calc_rel (line_calc sea depth ec t L) (line_calc sea' depth' ec t (ML L)).
Proof.
  unfold line_calc. cbv zeta. pose proof (line_moved g HG L ec _ _ (water_moved t L)) as H. set (k := line_water sea depth t L) in *. set (k' := line_water sea' depth' t (ML L)) in *.
  assert (HM : forall i, moved_matrix g (lM L ec k i) (lM (ML L) ec k' i)) by (intro i; apply (lM_moved g HG L ec k k' (water_moved t L))).
  destruct (line_forces L ec k) as [F|], (line_forces (ML L) ec k') as [F'|]; cbn in H; try contradiction; [|reflexivity].
  assert (EI : forallb invertible (inner_nodes (ML L) (lM (ML L) ec k')) = forallb invertible (inner_nodes L (lM L ec k))).
  { unfold inner_nodes. cbn [lN moved_line]. induction (seq 1 (lN L - 1)) as [|i l IH]; cbn; [reflexivity|]. rewrite IH. f_equal. apply inv_moved, HM. }
  rewrite EI. destruct (forallb invertible (inner_nodes L (lM L ec k))) eqn:EF; [|reflexivity]. cbn. split; cbn.
  - unfold inner_nodes in *. cbn [lN moved_line lrd]. rewrite !map_map. f_equal. apply map_ext_in. intros i Hi. rewrite H. apply (minv_moved g HG); [apply HM|]. rewrite forallb_forall in EF. specialize (EF (lM L ec k i) (in_map _ _ _ Hi)). unfold invertible in EF. destruct (Req_EM_T _ _); [discriminate|assumption].
  - split; [reflexivity|]. split; [intros i Hi; cbn; split; [apply H|apply HM]|]. cbn. unfold spin. rewrite (turn_zero g). split; unfold vscale, vzero; cbn; f_equal; ring.
Qed.
Lemma with_lengths_moved ls us : with_lengths (map ML ls) us = lift (map ML) (with_lengths ls us).
Proof. revert us. induction ls as [|L ls IH]; intros [|u us]; cbn [with_lengths map]; try reflexivity. rewrite IH. apply (lift_bind (map ML)). reflexivity. Qed.
Lemma omap_rel {A A' B B'} (f : A -> outcome B) (f' : A' -> outcome B') h (Q : B -> B' -> Prop) : (forall a, orel Q (f a) (f' (h a))) -> forall l, orel (Forall2 Q) (omap f l) (omap f' (map h l)).
Proof. intro H. induction l as [|a l IH]; cbn [omap map]; [constructor|]. eapply orel_bind; [apply H|]. intros. eapply orel_bind; [apply IH|]. intros. cbn. now constructor. Qed.
Lemma point_of_moved p outs outs' : Forall2 (moved_out g) outs outs' -> orel (moved_point g) (point_of p outs) (point_of (MP p) outs').
Proof.
  intro HO. unfold point_of. cbn [sp_att moved_spoint]. eapply orel_bind with (P := Forall2 (fun x x' => moved_out g (fst x) (fst x') /\ snd x' = snd x)).
  - induction (sp_att p) as [|[i ep] att IH]; cbn [omap]; [constructor|]. eapply orel_bind with (P := fun x x' => moved_out g (fst x) (fst x') /\ snd x' = snd x).
    + cbn [fst snd]. eapply orel_bind; [now apply (vget_rel (moved_out g))|]. intros o o' Ho. cbn. now split.
    + intros. eapply orel_bind; [apply IH|]. intros. cbn. now constructor.
  - intros a a' Ha. cbn. unfold moved_point. cbn. tauto.
Qed.
Definition pcalc_rel (x x' : spoint * dpst) : Prop := fst x' = MP (fst x) /\ snd x' = pD (snd x).
Lemma point_calc_moved t outs outs' p d : Forall2 (moved_out g) outs outs' -> orel pcalc_rel (point_calc sea ec t outs p d) (point_calc sea' ec t outs' (MP p) (pD d)).
Proof.
  intro HO. unfold point_calc. cbn [sp_type sp_r moved_spoint]. rewrite HSea. cbn [MNodes.w_u]. set (U := MNodes.w_u (sea t (sp_r p))). pose proof (point_of_moved p outs outs' HO) as HP.
  assert (HF : forall q q', moved_point g q q' -> orel (pair_moved g) (point_rhs q ec U) (point_rhs q' ec (T U))).
  { intros q q' Hq. pose proof (point_moved g HG q q' ec U Hq) as H. destruct (point_rhs q ec U), (point_rhs q' ec (T U)); cbn in *; auto. }
  destruct (sp_type p); [| |now split].
  - eapply orel_bind; [exact HP|]. intros q q' Hq. eapply orel_bind; [apply HF, Hq|]. intros FM FM' (H1 & H2). cbn. split; cbn; [|reflexivity]. unfold sp_force, moved_spoint. cbn. now rewrite H1.
  - eapply orel_bind; [exact HP|]. intros q q' Hq. pose proof (HF q q' Hq) as HR. destruct (point_rhs q ec U) as [[F M]| | |] eqn:ER, (point_rhs q' ec (T U)) as [[F' M']| | |] eqn:ER'; cbn in HR |- *; try contradiction; auto.
    destruct HR as (H1 & H2). cbn in H1, H2. rewrite (inv_moved _ _ H2). destruct (invertible M) eqn:EI; [|reflexivity]. assert (HD : mdet M <> 0) by (unfold invertible in EI; destruct (Req_EM_T _ _); [discriminate|assumption]).
    destruct (point_deriv q ec U) as [x| | |] eqn:EX.
    + rewrite (point_deriv_moved g HG q q' ec U x Hq EX) by (intros F0 M0 E0; rewrite ER in E0; injection E0 as <- <-; exact HD). cbn. split; cbn; [|reflexivity]. unfold sp_force, moved_spoint. cbn. now rewrite H1.
    + unfold point_deriv in *. destruct Hq as (TQ & _). rewrite TQ. destruct (p_type q); try discriminate EX; try (rewrite ER in EX; discriminate EX); cbn; now injection EX as <-.
    + unfold point_deriv in EX. destruct (p_type q); try discriminate EX. rewrite ER in EX. discriminate EX.
    + unfold point_deriv in EX. destruct (p_type q); try discriminate EX. rewrite ER in EX. discriminate EX.
Qed.
Lemma zipw_rel {A A' B B' C C'} (f : A -> B -> outcome C) (f' : A' -> B' -> outcome C') h1 h2 (Q : C -> C' -> Prop) : (forall a b, orel Q (f a b) (f' (h1 a) (h2 b))) -> forall l m, orel (Forall2 Q) (zipw f l m) (zipw f' (map h1 l) (map h2 m)).
Proof. intro H. induction l as [|a l IH]; intros [|b m]; cbn [zipw map]; cbn; auto. eapply orel_bind; [apply H|]. intros. eapply orel_bind; [apply IH|]. intros. cbn. now constructor. Qed.
Lemma cal_net_moved e e' d d' : moved_sys g e e' -> moved_deriv g d d' -> orel (fun p p' => fst p' = moved_net g (fst p) /\ moved_deriv g (snd p) (snd p')) (cal_net sea depth ec e d) (cal_net sea' depth' ec e' d').
Proof.
  intros (B1 & B2 & ->) (D1 & D2 & ->). unfold cal_net. cbv zeta. cbn [MStep.e_rest MStep.e_lin n_lines n_pts n_time n_cfl n_objs moved_net d_lines d_points d_rods d_bodies]. rewrite with_lengths_moved. destruct (with_lengths _ _) as [ls| | |]; cbn [lift obind]; [|reflexivity|exact I|exact I].
  eapply orel_bind; [apply (omap_rel _ _ ML calc_rel); intro; apply line_calc_moved|]. intros lo lo' HL. rewrite !map_length. rewrite <- (F2_length _ _ _ HL). destruct (orb _ _); [exact I|].
  eapply orel_bind; [apply (zipw_rel _ _ MP pD pcalc_rel); intros a b; apply point_calc_moved|].
  - induction HL as [|x x' l l' (_ & Hx) HL IH]; cbn; [constructor|]. now constructor.
  - intros pd pd' HPd. cbn. split; cbn.
    + unfold moved_net. cbn. f_equal. induction HPd as [|x x' l l' (Hx & _) HPd IH]; cbn; [reflexivity|]. now rewrite Hx, IH.
    + unfold moved_deriv. cbn. repeat split; auto. f_equal.
      * induction HL as [|x x' l l' (Hx & _) HL IH]; cbn; [reflexivity|]. now rewrite Hx, IH.
      * induction HPd as [|x x' l l' (_ & Hx) HPd IH]; cbn; [reflexivity|]. now rewrite Hx, IH.
Qed.
End N.
