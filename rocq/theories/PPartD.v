(** Parts of a system move and pull as in the whole: evaluations, time steps and simulations. *)
From Coq Require Import Reals List Arith ZArith Bool Lra Lia Permutation.
From Verif Require Import MErr MVec MStateOps MMat MInterp MLine MRod MBody MScheme MSys PLine SPart PPart PPartB PPartC PDemo.
From Verif Require MStep MNodes.
Import ListNotations.
Open Scope R_scope.
Notation orel := PPart.orel. Notation orel_bind := PPart.orel_bind. Notation orel_ok := PPart.orel_ok. Notation orel_weak := PPart.orel_weak.

Lemma orel_get {A B} (P : A -> B -> Prop) a b y : orel P a b -> b = Ok y -> exists x, a = Ok x /\ P x y. Proof. intros H E. exact (H y E). Qed.
Lemma found_map_R {A B} (f : A -> B) no l l' : found no (map f l) (map f l') -> foundR (fun x x' => f x = f x') no l l'.
Proof. intros H i x Hx. specialize (H i (f x)). rewrite !nth_error_map, Hx in H. specialize (H eq_refl). destruct (nth_error l' (no i)) as [x'|]; cbn in H; [|discriminate]. exists x'. split; [reflexivity|congruence]. Qed.
Lemma found_R_map {A B} (f : A -> B) no l l' : foundR (fun x x' => f x = f x') no l l' -> found no (map f l) (map f l').
Proof. intros H i b Hb. rewrite nth_error_map in Hb |- *. destruct (nth_error l i) as [x|] eqn:E; cbn in Hb; [|discriminate]. destruct (H i x E) as (x' & -> & Hx). cbn. congruence. Qed.
Lemma found_eq {A} no (l l' : list A) : found no l l' -> foundR eq no l l'. Proof. intros H i x Hx. exists x. split; [exact (H i x Hx)|reflexivity]. Qed.

Section D.
Variable q : numbering.
Variables (sea : R -> v3 -> MNodes.wkin) (depth : R -> R -> R) (ec : envc).
Variables (nl np : nat) (ty ty' : list ptype) (att att' : list (list (nat * Z))).
Notation sys := (MStep.sys net).
(** parts with given types and attachments *)
Definition PE (e e' : sys) : Prop := part_sys q nl np e e' /\ map sp_type (n_pts (MStep.e_rest _ e)) = ty /\ map sp_type (n_pts (MStep.e_rest _ e')) = ty' /\ map sp_att (n_pts (MStep.e_rest _ e)) = att /\ map sp_att (n_pts (MStep.e_rest _ e')) = att'.
Notation RS := (part_state q nl np). Notation RD := (part_deriv q nl np).
Definition ptrel (p p' : spoint) : Prop := bare p = bare p' /\ Permutation (map (fun x => (line_no q (fst x), snd x)) (sp_att p)) (sp_att p') /\ forall i ep, In (i, ep) (sp_att p) -> (i < nl)%nat /\ an_end ep.
Lemma points_rel ps ps' : found (point_no q) (map bare ps) (map bare ps') -> separated q nl (map sp_att ps) (map sp_att ps') -> foundR ptrel (point_no q) ps ps'.
Proof.
  intros H (S1 & S2 & S3 & _) k p Hk. destruct (found_map_R _ _ _ _ H k p Hk) as (p' & Hk' & HB). exists p'. split; [exact Hk'|]. split; [exact HB|]. assert (EA : nth_error (map sp_att ps) k = Some (sp_att p)) by (rewrite nth_error_map, Hk; reflexivity). split.
  - destruct (S2 k (sp_att p) EA) as (a' & Ha' & HP). rewrite nth_error_map, Hk' in Ha'. injection Ha' as <-. exact HP.
  - intros i ep Hi. exact (S3 k _ i ep EA Hi).
Qed.
(* ----- Update ----- *)
Lemma set_points_part ps ps' cs cs' st st' : found (point_no q) (map bare ps) (map bare ps') -> same_coupled q (map sp_type ps) (map sp_type ps') cs cs' -> length cs = coupled_count (map sp_type ps) ->
  found (point_no q) st st' -> length st = length ps -> orel (fun r r' => found (point_no q) (map bare r) (map bare r') /\ length r = length ps /\ map sp_type r = map sp_type ps /\ map sp_att r = map sp_att ps /\ map sp_type r' = map sp_type ps' /\ map sp_att r' = map sp_att ps') (set_points 0 ps cs st) (set_points 0 ps' cs' st').
Proof.
  intros HB HC HL HS HLS r' E'. destruct (set_points_nth _ _ _ _ _ E') as (L' & T' & A' & C' & N'). destruct (set_points_ok ps 0 cs st ltac:(lia) ltac:(lia)) as (r & E). exists r. split; [exact E|]. destruct (set_points_nth _ _ _ _ _ E) as (L & T & A & C & N). split; [|split; [exact L|split; [exact T|split; [exact A|split; [exact T'|exact A']]]]].
  apply found_R_map. intros k x Hx. destruct (nth_some ps k) as (p & Hp); [rewrite <- L; eapply some_lt; eassumption|]. destruct (found_map_R _ _ _ _ HB k p Hp) as (p' & Hp' & HBP). specialize (N k p Hp). specialize (N' _ p' Hp'). cbn [plus] in N, N'. assert (ET : sp_type p' = sp_type p) by (unfold bare in HBP; congruence). rewrite ET in N'. destruct (sp_type p) eqn:EP.
  - destruct N as (c & Hc & Hr). destruct N' as (c' & Hc' & Hr'). exists (sp_move p' (MStep.p_r c') (MStep.p_rd c')). split; [exact Hr'|]. assert (c' = c). { assert (K : nth_error (map sp_type ps) k = Some PCoupled) by (rewrite nth_error_map, Hp; cbn; congruence). specialize (HC k K). congruence. } subst c'. rewrite Hr in Hx. injection Hx as <-. unfold bare in *. cbn. congruence.
  - destruct N as (s & Hs & Hr). destruct N' as (s' & Hs' & Hr'). exists (sp_move p' (pos s') (vel s')). split; [exact Hr'|]. assert (s' = s) by (specialize (HS k s Hs); congruence). subst s'. rewrite Hr in Hx. injection Hx as <-. unfold bare in *. cbn. congruence.
  - exists p'. split; [exact N'|]. rewrite N in Hx. injection Hx as <-. exact HBP.
Qed.
Lemma pass_points_part ps ps' ls ls' : found (point_no q) (map bare ps) (map bare ps') -> length ps = np -> length ls = nl -> separated q nl (map sp_att ps) (map sp_att ps') -> found (line_no q) ls ls' -> (forall L, In L ls -> (0 < lN L)%nat) ->
  orel (fun r r' => found (line_no q) r r' /\ length r = nl /\ forall L, In L r -> (0 < lN L)%nat) (pass_points ps ls) (pass_points ps' ls').
Proof.
  intros HB HP HL HS HF HN r' E'. destruct (pass_points_nth _ _ _ E') as (L' & N'). pose proof (points_rel _ _ HB HS) as HR. destruct HS as (S1 & S2 & S3 & S4 & S5).
  destruct (pass_points_ok ps ls) as (r & E). { intros p i ep Hp Hi. apply In_nth_error in Hp. destruct Hp as (k & Hk). rewrite HL. destruct (HR k p Hk) as (p' & _ & _ & _ & HV). exact (HV i ep Hi). }
  exists r. split; [exact E|]. destruct (pass_points_nth _ _ _ E) as (L1 & N). split; [|split; [congruence|]].
  - intros i X HX. assert (Hi : (i < nl)%nat) by (rewrite <- HL, <- L1; eapply some_lt; eassumption). destruct (nth_some ls i ltac:(lia)) as (L & EL). destruct (N i L EL) as (L2 & W & E2). rewrite HX in E2. injection E2 as <-. destruct (N' (line_no q i) L (HF i L EL)) as (L3 & W' & E3). rewrite E3. f_equal.
    assert (WW : writes L (ends_of ps i) = writes L (ends_of ps' (line_no q i))).
    { apply writes_same.
      - apply HN. exact (nth_error_In _ _ EL).
      - intros ep v Hv. apply ends_of_in in Hv. destruct Hv as (k & p & Hk & Ha & _). destruct (HR k p Hk) as (p' & _ & _ & _ & HV). exact (proj2 (HV i ep Ha)).
      - intros ep v v' Hv Hv'. apply ends_of_in in Hv. apply ends_of_in in Hv'. destruct Hv as (k & p & Hk & Ha & ->). destruct Hv' as (j & p' & Hj & Hb & ->). assert (k = j). { apply (S4 k j (sp_att p) (sp_att p') (i, ep)); auto; rewrite nth_error_map; [rewrite Hk|rewrite Hj]; reflexivity. } subst j. congruence.
      - intros [ep v]. rewrite !ends_of_in. split.
        + intros (k & p & Hk & Ha & ->). destruct (HR k p Hk) as (p' & Hk' & HBP & HPm & HV). exists (point_no q k), p'. split; [exact Hk'|]. split; [|unfold bare in HBP; congruence]. apply (Permutation_in _ HPm). apply in_map_iff. exists (i, ep). split; [reflexivity|exact Ha].
        + intros (k' & p' & Hk' & Ha & ->). assert (EA : nth_error (map sp_att ps') k' = Some (sp_att p')) by (rewrite nth_error_map, Hk'; reflexivity). destruct (S5 k' _ i ep EA Ha Hi) as (k & -> & Hk). rewrite map_length in Hk. destruct (nth_some ps k Hk) as (p & Ep). destruct (HR k p Ep) as (p2 & Hk2 & HBP & HPm & HV). rewrite Hk' in Hk2. injection Hk2 as <-. exists k, p. split; [exact Ep|]. split; [|unfold bare in HBP; congruence].
          apply (Permutation_in _ (Permutation_sym HPm)) in Ha. apply in_map_iff in Ha. destruct Ha as ((i2 & e2) & EI & Ha). cbn in EI. injection EI as EI ->. assert (i2 = i) by (apply S1; [exact (proj1 (HV i2 ep Ha))|exact Hi|exact EI]). now subst i2. }
    rewrite WW in W. congruence.
  - intros L HI. apply In_nth_error in HI. destruct HI as (i & Hi). destruct (nth_some ls i) as (L0 & E0); [rewrite <- L1; eapply some_lt; eassumption|]. destruct (N i L0 E0) as (L2 & W & E2). rewrite Hi in E2. injection E2 as <-. rewrite (writes_lN _ _ _ W). apply HN. exact (nth_error_In _ _ E0).
Qed.
Lemma set_state_lN L s L2 : line_set_state L s = Ok L2 -> lN L2 = lN L.
Proof. unfold line_set_state. destruct (orb _ _); [discriminate|]. intro H. injection H as <-. reflexivity. Qed.
Lemma upd_net_part e e' t l x x' : PE e e' -> RS x x' -> orel (fun n n' => forall e1 e1', MStep.e_bod _ e1 = [] -> MStep.e_rod _ e1 = [] -> MStep.e_bod _ e1' = [] -> MStep.e_rod _ e1' = [] -> MStep.e_pts _ e1 = MStep.e_pts _ e -> MStep.e_pts _ e1' = MStep.e_pts _ e' -> MStep.e_lin _ e1 = MStep.e_lin _ e -> MStep.e_lin _ e1' = MStep.e_lin _ e' -> MStep.e_rest _ e1 = n -> MStep.e_rest _ e1' = n' -> PE e1 e1') (upd_net e t l x) (upd_net e' t l x').
Proof.
  intros (HE & T1 & T2 & A1 & A2) HX. destruct HE as (B1 & B2 & B3 & B4 & (L1 & L2 & L3) & (U1 & U2) & (P1 & P2) & (C1 & C2) & SP & TT). destruct HX as (_ & _ & X1 & X2 & X3 & X4). unfold upd_net. cbv zeta.
  eapply orel_bind; [apply set_points_part; [exact P2|exact C2|exact C1|exact X4|congruence]|]. cbv beta. intros ps ps' (Q1 & Q2 & Q3 & Q4 & Q5 & Q6).
  eapply orel_bind; [apply pass_points_part; [exact Q1|congruence|exact L1|rewrite Q4, Q6; exact SP|exact L2|exact L3]|]. cbv beta. intros ls ls' (M1 & M2 & M3). rewrite !set_lines_zip. cbn [skipn].
  intros n' E'. destruct (zipw line_set_state ls' (s_lines x')) as [r'| | |] eqn:EZ; cbn in E'; try discriminate. injection E' as <-. destruct (zipw_part line_set_state (line_no q) ls ls' (s_lines x) (s_lines x') ltac:(congruence) M1 X3 r' EZ) as (r & ER & F1 & F2). rewrite ER. cbn [obind]. eexists. split; [reflexivity|]. intros e1 e1' G1 G2 G3 G4 G5 G6 G7 G8 G9 G10.
  unfold PE. rewrite G9, G10. cbn [n_pts n_lines n_time]. split; [|repeat split; congruence]. unfold part_sys. cbv zeta. rewrite G1, G2, G3, G4, G5, G6, G7, G8, G9, G10. cbn [n_pts n_lines n_time]. rewrite Q3, Q4, Q5, Q6.
  repeat (split; [reflexivity|]). split; [split; [congruence|split; [exact F1|]]|]. { intros L HI. apply In_nth_error in HI. destruct HI as (i & Hi). destruct (zipw_nth _ _ _ _ ER) as (Z1 & Z2 & Z3). destruct (nth_some ls i) as (L0 & E0); [rewrite <- Z2; eapply some_lt; eassumption|]. destruct (nth_some (s_lines x) i) as (s & Es); [pose proof (some_lt _ _ _ E0); lia|]. destruct (Z3 i L0 s E0 Es) as (L4 & W & E4). rewrite Hi in E4. injection E4 as <-. rewrite (set_state_lN _ _ _ W). apply M3. exact (nth_error_In _ _ E0). }
  split; [split; assumption|]. split; [split; [congruence|exact Q1]|]. split; [split; assumption|]. split; [exact SP|reflexivity].
Qed.
Notation UPD := (MStep.upd_sys mst net upd_net).
Lemma nth_error_map_eq {A B} (f : A -> B) l l' i j : nth_error l' j = nth_error l i -> nth_error (map f l') j = nth_error (map f l) i.
Proof. intro H. rewrite !nth_error_map, H. reflexivity. Qed.
Lemma upd_part e e' t l x x' : PE e e' -> RS x x' -> orel PE (UPD e t l x) (UPD e' t l x').
Proof.
  intros HE HX. unfold MStep.upd_sys. cbv zeta. destruct HE as (HE & T1 & T2 & A1 & A2). destruct HE as (B1 & B2 & B3 & B4 & HL & (U1 & U2) & HP & (C1 & C2) & SP & TT). rewrite B1, B2, B3, B4. cbn [map].
  eapply orel_bind.
  - apply upd_net_part; [|exact HX]. unfold PE. cbn [MStep.e_rest]. split; [|auto]. unfold part_sys. cbv zeta. cbn [MStep.e_rest MStep.e_bod MStep.e_rod MStep.e_pts MStep.e_lin]. repeat (split; [reflexivity|]). split; [exact HL|]. split; [split; [now rewrite map_length|now apply map_part]|]. split; [exact HP|]. split; [split; [now rewrite map_length|]|split; [exact SP|exact TT]].
    intros k Hk. apply nth_error_map_eq. exact (C2 k Hk).
  - cbv beta. intros n n' H. apply orel_ok. apply H; reflexivity.
Qed.
(* ----- CalcStateDeriv ----- *)
Lemma point_of_part p p' outs outs' : ptrel p p' -> length outs = nl -> found (line_no q) outs outs' ->
  orel (fun x x' => p_type x = p_type x' /\ p_r x = p_r x' /\ p_rd x = p_rd x' /\ p_M x = p_M x' /\ p_V x = p_V x' /\ p_F x = p_F x' /\ p_CdA x = p_CdA x' /\ p_Ca x = p_Ca x' /\ Permutation (p_att x) (p_att x')) (point_of p outs) (point_of p' outs').
Proof.
  intros (HB & HP & HV) HL HF. unfold point_of. set (g := fun o : list lineout => fun ie : nat * Z => (x <- vget o (fst ie) ;; Ok (x, snd ie))).
  assert (G : omap (g outs) (sp_att p) = omap (g outs') (map (fun x => (line_no q (fst x), snd x)) (sp_att p))).
  { revert HV. generalize (sp_att p). clear HP. induction l as [|[i ep] l IH]; intro HV; cbn [omap map]; [reflexivity|]. rewrite IH by (intros j e Hj; apply HV; now right). f_equal. unfold g. cbn [fst snd]. destruct (nth_some outs i) as (o & Eo); [rewrite HL; exact (proj1 (HV i ep (or_introl eq_refl)))|]. now rewrite (nth_vget _ _ _ Eo), (nth_vget _ _ _ (HF i o Eo)). }
  eapply orel_bind with (P := @Permutation _).
  - intros r' E'. destruct (omap_perm (g outs') _ _ HP r' E') as (r & ER & PR). exists r. split; [|exact PR]. rewrite <- G in ER. exact ER.
  - intros a a' HA. apply orel_ok. unfold bare in HB. cbn. repeat (split; [congruence|]). exact HA.
Qed.
Lemma point_rhs_part x x' U : p_type x = p_type x' /\ p_r x = p_r x' /\ p_rd x = p_rd x' /\ p_M x = p_M x' /\ p_V x = p_V x' /\ p_F x = p_F x' /\ p_CdA x = p_CdA x' /\ p_Ca x = p_Ca x' /\ Permutation (p_att x) (p_att x') -> point_rhs x ec U = point_rhs x' ec U /\ point_deriv x ec U = point_deriv x' ec U.
Proof.
  intros (E1 & E2 & E3 & E4 & E5 & E6 & E7 & E8 & HP). assert (G : point_rhs x ec U = point_rhs x' ec U). { unfold point_rhs. rewrite E3, E4, E5, E6, E7, E8. now rewrite (point_lines_perm _ _ HP). } split; [exact G|]. unfold point_deriv. rewrite G, E1, E3. reflexivity.
Qed.
Lemma point_calc_part t outs outs' p p' d : ptrel p p' -> length outs = nl -> found (line_no q) outs outs' ->
  orel (fun r r' => bare (fst r) = bare (fst r') /\ snd r = snd r') (point_calc sea ec t outs p d) (point_calc sea ec t outs' p' d).
Proof.
  intros HP HL HF. pose proof (point_of_part p p' outs outs' HP HL HF) as HO. destruct HP as (HB & _). assert (ET : sp_type p' = sp_type p) by (unfold bare in HB; congruence). assert (ER : sp_r p' = sp_r p) by (unfold bare in HB; congruence).
  unfold point_calc. rewrite ET, ER. destruct (sp_type p).
  - eapply orel_bind; [exact HO|]. cbv beta. intros x x' HX. destruct (point_rhs_part x x' (MNodes.w_u (sea t (sp_r p))) HX) as (-> & _). destruct (point_rhs x' ec _) as [FM| | |]; cbn [obind]; try (intros y Hy; discriminate). apply orel_ok. cbn. split; [|reflexivity]. unfold bare in *. cbn. congruence.
  - eapply orel_bind; [exact HO|]. cbv beta. intros x x' HX. destruct (point_rhs_part x x' (MNodes.w_u (sea t (sp_r p))) HX) as (-> & ->). destruct (point_rhs x' ec _) as [FM| | |]; cbn [obind]; try (intros y Hy; discriminate). destruct (invertible (snd FM)); [|intros y Hy; discriminate]. destruct (point_deriv x' ec _) as [va| | |]; cbn [obind]; try (intros y Hy; discriminate). apply orel_ok. cbn. split; [|reflexivity]. unfold bare in *. cbn. congruence.
  - apply orel_ok. cbn. auto.
Qed.
Lemma point_calc_keeps t outs p d r : point_calc sea ec t outs p d = Ok r -> sp_type (fst r) = sp_type p /\ sp_att (fst r) = sp_att p.
Proof.
  unfold point_calc. destruct (sp_type p) eqn:E; intro H.
  - destruct (point_of p outs) as [x| | |]; cbn in H; try discriminate. destruct (point_rhs x ec _) as [FM| | |]; cbn in H; try discriminate. injection H as <-. cbn. auto.
  - destruct (point_of p outs) as [x| | |]; cbn in H; try discriminate. destruct (point_rhs x ec _) as [FM| | |]; cbn in H; try discriminate. destruct (invertible _); try discriminate. destruct (point_deriv x ec _) as [va| | |]; cbn in H; try discriminate. injection H as <-. cbn. auto.
  - injection H as <-. auto.
Qed.
Lemma points_keep t outs ps : forall ds r, zipw (point_calc sea ec t outs) ps ds = Ok r -> map sp_type (map fst r) = map sp_type ps /\ map sp_att (map fst r) = map sp_att ps.
Proof.
  induction ps as [|p ps IH]; intros [|d ds] r H; cbn [zipw] in H; try discriminate; try (injection H as <-; split; reflexivity). destruct (point_calc sea ec t outs p d) as [c| | |] eqn:E; cbn [obind] in H; try discriminate. destruct (zipw _ ps ds) as [r1| | |] eqn:E1; cbn [obind] in H; try discriminate. injection H as <-. destruct (IH ds r1 E1) as (H1 & H2). destruct (point_calc_keeps _ _ _ _ _ E) as (H3 & H4). cbn [map]. rewrite H1, H2, H3, H4. auto.
Qed.
Notation CAL := (MStep.cal_sys mdst net (cal_net sea depth ec)).
Lemma cal_part e e' d d' : PE e e' -> RD d d' -> orel (fun p p' => PE (fst p) (fst p') /\ RD (snd p) (snd p')) (CAL e d) (CAL e' d').
Proof.
  intros (HE & T1 & T2 & A1 & A2) HD. destruct HE as (B1 & B2 & B3 & B4 & (L1 & L2 & L3) & (U1 & U2) & (P1 & P2) & (C1 & C2) & SP & TT). destruct HD as (D1 & D2 & X1 & X2 & X3 & X4). unfold MStep.cal_sys, cal_net. cbv zeta. rewrite !with_lengths_zip, TT. pose proof (points_rel _ _ P2 SP) as HR.
  intros y E'. destruct (zipw _ (n_lines (MStep.e_rest net e')) (MStep.e_lin net e')) as [ls'| | |] eqn:EL'; cbn [obind] in E'; try discriminate. destruct (zipw_part (fun L u => Ok (line_lengths L (MStep.u_seg u))) (line_no q) (n_lines (MStep.e_rest _ e)) (n_lines (MStep.e_rest _ e')) (MStep.e_lin _ e) (MStep.e_lin _ e') ltac:(congruence) L2 U2 ls' EL') as (ls & EL & F1 & F2). rewrite EL. cbn [obind].
  destruct (omap (line_calc sea depth ec (n_time (MStep.e_rest net e'))) ls') as [lo'| | |] eqn:EO'; cbn [obind] in E'; try discriminate. destruct (omap_part (line_calc sea depth ec (n_time (MStep.e_rest net e'))) (line_no q) ls ls' F1 lo' EO') as (lo & EO & G1 & G2). rewrite EO. cbn [obind].
  destruct (orb _ _) eqn:EB in E'; cbn [obind] in E'; try discriminate. rewrite (proj2 (Nat.eqb_eq (length (d_lines d)) (length lo))) by congruence. rewrite (proj2 (Nat.eqb_eq (length (d_points d)) (length (n_pts (MStep.e_rest _ e))))) by congruence. cbn [negb orb].
  destruct (zipw (point_calc sea ec _ (map snd lo')) _ _) as [pd'| | |] eqn:EZ'; cbn [obind] in E'; try discriminate. injection E' as <-.
  destruct (zipw_partR ptrel eq (fun r r' => bare (fst r) = bare (fst r') /\ snd r = snd r') (point_calc sea ec (n_time (MStep.e_rest _ e')) (map snd lo)) (point_calc sea ec (n_time (MStep.e_rest _ e')) (map snd lo')) (point_no q) (n_pts (MStep.e_rest _ e)) (n_pts (MStep.e_rest _ e')) (d_points d) (d_points d') ltac:(congruence) HR (found_eq _ _ _ X4)) with (y := pd') as (pd & EZ & K1 & K2); [|exact EZ'|].
  { intros a a' b b' HA <-. apply point_calc_part; [exact HA|rewrite map_length; congruence|now apply map_part]. }
  rewrite EZ. cbn [obind fst snd]. eexists. split; [reflexivity|]. cbn [fst snd]. destruct (points_keep _ _ _ _ _ EZ) as (Y1 & Y2). destruct (points_keep _ _ _ _ _ EZ') as (Y1' & Y2').
  split.
  - unfold PE. cbn [MStep.set_rest MStep.e_rest n_pts]. split; [|repeat split; congruence]. unfold part_sys, MStep.set_rest. cbv zeta. cbn [MStep.e_rest MStep.e_bod MStep.e_rod MStep.e_pts MStep.e_lin n_pts n_lines n_time]. rewrite Y1, Y2, Y1', Y2'. repeat (split; [assumption|]). split; [split; [assumption|split; assumption]|]. split; [split; assumption|]. split; [split; [now rewrite map_length; congruence|]|].
    + apply found_R_map. intros k p Hk. rewrite nth_error_map in Hk. destruct (nth_error pd k) as [x|] eqn:Ex; cbn in Hk; [|discriminate]. injection Hk as <-. destruct (K1 k x Ex) as (x' & Hx' & HX & _). exists (fst x'). split; [rewrite nth_error_map, Hx'; reflexivity|exact HX].
    + split; [split; assumption|]. split; [exact SP|reflexivity].
  - unfold part_deriv. cbn [d_rods d_bodies d_lines d_points]. split; [exact D1|]. split; [exact D2|]. split; [rewrite map_length; congruence|]. split; [rewrite map_length; congruence|]. split; [now apply map_part|].
    apply found_R_map. intros k x Hk. destruct (K1 k x Hk) as (x' & Hx' & _ & HX). exists x'. auto.
Qed.
(* ----- time steps ----- *)
Variable conv : mdst -> mdst -> bool.
Notation msk := (fun (e : sys) (_ : R) => Ok (MStep.e_rest _ e)).
Notation MSK := (MStep.msk_sys net msk).
Notation SR := (srel mst mdst sys RS RD PE 1).
Notation STEP := (MStep.ts_step mst mdst net system_ops upd_net (cal_net sea depth ec) lim_net msk conv).
Lemma ts_step_part c s s' dt : one_by_one c -> SR s s' -> orel SR (STEP c s dt) (STEP c s' dt).
Proof.
  intros HU H. unfold MStep.ts_step.
  apply (step_rel mst mdst sys system_ops UPD UPD CAL CAL lim_net lim_net MSK MSK conv RS RS RD PE
    (Padd q nl np) (Psub q nl np) (Pscale q nl np) (Pdadd q nl np) (Pdsub q nl np) (Pdmix q nl np) (Pnm q nl np) (Pwi q nl np) upd_part cal_part c s s' dt HU H).
Qed.
Lemma take_pts_nth cs : forall k ps vs r, MStep.take_pts cs (flat_map MStep.lst3 ps) (flat_map MStep.lst3 vs) (3 * k) = Ok r -> length (fst r) = length cs /\
  forall j c, nth_error cs j = Some c -> exists p v, nth_error ps (k + j) = Some p /\ nth_error vs (k + j) = Some v /\ nth_error (fst r) j = Some (MStep.initiate_p c p v).
Proof.
  induction cs as [|c cs IH]; intros k ps vs r H; cbn [MStep.take_pts] in H.
  - injection H as <-. split; [reflexivity|]. intros [|j]; discriminate.
  - rewrite !rd3_flat in H. destruct (nth_error ps k) as [p|] eqn:EP; cbn [obind] in H; try discriminate. destruct (nth_error vs k) as [v|] eqn:EV; cbn [obind] in H; try discriminate. replace (3 * k + 3)%nat with (3 * S k)%nat in H by lia. destruct (MStep.take_pts cs _ _ (3 * S k)) as [r1| | |] eqn:E1; cbn [obind] in H; try discriminate. injection H as <-. destruct (IH _ _ _ _ E1) as (L & N). cbn. split; [now rewrite L|].
    intros [|j] x Hx; cbn in Hx; [injection Hx as <-; exists p, v; rewrite Nat.add_0_r; auto|]. replace (k + S j)%nat with (S k + j)%nat by lia. exact (N j x Hx).
Qed.
Lemma take_pts_ok cs : forall k ps vs, (forall j, (j < length cs)%nat -> nth_error ps (k + j) <> None /\ nth_error vs (k + j) <> None) -> exists r, MStep.take_pts cs (flat_map MStep.lst3 ps) (flat_map MStep.lst3 vs) (3 * k) = Ok r.
Proof.
  induction cs as [|c cs IH]; intros k ps vs H; cbn [MStep.take_pts]; [eauto|]. rewrite !rd3_flat. destruct (H 0%nat ltac:(cbn; lia)) as (H1 & H2). rewrite Nat.add_0_r in H1, H2. destruct (nth_error ps k); [|congruence]. destruct (nth_error vs k); [|congruence]. cbn [obind]. replace (3 * k + 3)%nat with (3 * S k)%nat by lia.
  destruct (IH (S k) ps vs) as (r & ->); [|cbn; eauto]. intros j Hj. specialize (H (S j) ltac:(cbn; lia)). replace (k + S j)%nat with (S k + j)%nat in H by lia. exact H.
Qed.
Lemma couple_part e e' ps ps' vs vs' dt : PE e e' -> same_coupled q ty ty' ps ps' -> same_coupled q ty ty' vs vs' -> orel PE (MStep.couple net e (flat_map MStep.lst3 ps) (flat_map MStep.lst3 vs) dt) (MStep.couple net e' (flat_map MStep.lst3 ps') (flat_map MStep.lst3 vs') dt).
Proof.
  intros (HE & T1 & T2 & A1 & A2) HP HV. destruct HE as (B1 & B2 & B3 & B4 & HL & HU & HPT & (C1 & C2) & SP & TT). rewrite T1 in C1, C2. rewrite T2 in C2. unfold MStep.couple. cbv zeta. rewrite B1, B2, B3, B4. cbn [MStep.take_objs obind snd fst].
  intros y E'. destruct (MStep.take_pts (MStep.e_pts _ e') _ _ 0) as [r'| | |] eqn:ER'; cbn [obind] in E'; try discriminate. injection E' as <-. destruct (take_pts_nth _ 0 _ _ _ ER') as (L' & N').
  assert (K : forall j c, nth_error (MStep.e_pts _ e) j = Some c -> exists k p v, nth_error ty k = Some PCoupled /\ coupled_no ty k = j /\ nth_error ps j = Some p /\ nth_error vs j = Some v /\ nth_error (fst r') (coupled_no ty' (point_no q k)) = Some (MStep.initiate_p c p v)).
  { intros j c Hc. destruct (rank_onto ty j) as (k & H1 & H2); [rewrite <- C1; eapply some_lt; eassumption|]. specialize (C2 k H1). specialize (HP k H1). specialize (HV k H1). rewrite H2 in C2, HP, HV. rewrite Hc in C2. destruct (N' _ c C2) as (p & v & E1 & E2 & E3). cbn [plus] in E1, E2. exists k, p, v. repeat (split; [congruence|]). exact E3. }
  destruct (take_pts_ok (MStep.e_pts _ e) 0 ps vs) as (r & ER). { intros j Hj. destruct (nth_some _ _ Hj) as (c & Hc). destruct (K j c Hc) as (k & p & v & _ & _ & E1 & E2 & _). cbn [plus]. rewrite E1, E2. split; discriminate. }
  change (3 * 0)%nat with 0%nat in ER. rewrite ER. cbn [obind]. eexists. split; [reflexivity|]. destruct (take_pts_nth _ 0 _ _ _ ER) as (L & N).
  unfold PE. cbn [MStep.e_rest]. split; [|auto]. unfold part_sys. cbv zeta. cbn [MStep.e_rest MStep.e_bod MStep.e_rod MStep.e_pts MStep.e_lin]. repeat (split; [reflexivity|]). split; [exact HL|]. split; [exact HU|]. split; [exact HPT|]. split; [|split; [exact SP|exact TT]]. rewrite T1, T2. split; [congruence|].
  intros k Hk. destruct (nth_some (MStep.e_pts _ e) (coupled_no ty k)) as (c & Hc); [rewrite C1; now apply rank_lt|]. destruct (N _ c Hc) as (p & v & E1 & E2 & E3). specialize (C2 k Hk). rewrite Hc in C2. destruct (N' _ c C2) as (p' & v' & E1' & E2' & E3'). cbn [plus] in *. rewrite E3, E3'. specialize (HP k Hk). specialize (HV k Hk). congruence.
Qed.
Lemma coupled_nth (ps : list spoint) k p : nth_error ps k = Some p -> sp_type p = PCoupled -> nth_error (filter is_coupled ps) (coupled_no (map sp_type ps) k) = Some p.
Proof.
  revert k. induction ps as [|x ps IH]; intros [|k] H E; cbn in H; try discriminate.
  - injection H as ->. cbn. unfold is_coupled. now rewrite E.
  - cbn [map filter]. rewrite rank_S. unfold is_coupled at 1. destruct (sp_type x); cbn [plus nth_error]; now apply IH.
Qed.
Lemma coupled_length (ps : list spoint) : length (filter is_coupled ps) = coupled_count (map sp_type ps).
Proof. induction ps as [|x ps IH]; [reflexivity|]. cbn [map filter]. rewrite count_cons. unfold is_coupled at 1. destruct (sp_type x); cbn; rewrite IH; reflexivity. Qed.
Lemma forces_part e e' : PE e e' -> part_forces q ty ty' (MStep.get_forces net frc_net e) (MStep.get_forces net frc_net e').
Proof.
  intros (HE & T1 & T2 & A1 & A2). destruct HE as (B1 & B2 & B3 & B4 & HL & HU & (P1 & P2) & _). exists (map sp_Fnet (filter is_coupled (n_pts (MStep.e_rest _ e)))), (map sp_Fnet (filter is_coupled (n_pts (MStep.e_rest _ e')))).
  unfold MStep.get_forces. cbn [frc_net]. rewrite B1, B2, B3, B4. unfold MStep.put_objs. cbn [combine flat_map app]. split; [reflexivity|]. split; [reflexivity|]. split; [rewrite map_length, coupled_length, T1; reflexivity|].
  intros k Hk. rewrite <- T1 in Hk |- *. rewrite <- T2. rewrite nth_error_map in Hk. destruct (nth_error (n_pts (MStep.e_rest _ e)) k) as [p|] eqn:EP; cbn in Hk; [|discriminate]. injection Hk as Hk. destruct (found_map_R _ _ _ _ P2 k p EP) as (p' & EP' & HB). rewrite !nth_error_map, (coupled_nth _ _ _ EP Hk), (coupled_nth _ _ _ EP'); unfold bare in HB; [cbn; congruence|congruence].
Qed.
Lemma fail_part i t fs e e' : PE e e' -> orel (fun p p' => fst p' = fst p /\ PE (snd p) (snd p')) (MStep.fail_loop net (fun _ _ => Throw ExNonImplemented) i t fs e) (MStep.fail_loop net (fun _ _ => Throw ExNonImplemented) i t fs e').
Proof.
  intro HE. revert i. induction fs as [|f fs IH]; intro i; cbn [MStep.fail_loop]; [apply orel_ok; split; [reflexivity|exact HE]|]. destruct (orb _ _); [|intros y Hy; discriminate]. eapply orel_bind; [apply IH|]. cbv beta. intros r r' (H1 & H2). apply orel_ok. cbn. split; [now rewrite H1|exact H2].
Qed.
Lemma sub_loop_part {T X X'} (Q : X -> X' -> Prop) lt sub (zero : T) stp stp' : (forall x x' d, Q x x' -> orel Q (stp x d) (stp' x' d)) ->
  forall fuel dtM x x' target, Q x x' -> orel Q (MStep.sub_loop T X lt sub zero stp fuel dtM x target) (MStep.sub_loop T X' lt sub zero stp' fuel dtM x' target).
Proof.
  intro H. induction fuel as [|n IH]; intros dtM x x' target HX; cbn [MStep.sub_loop]; [intros y Hy; discriminate|]. destruct (lt zero target); [|now apply orel_ok]. cbv zeta. eapply orel_bind; [apply H, HX|]. intros. now apply IH.
Qed.
Definition PI (m m' : MStep.md mst mdst net) : Prop := MStep.m_scheme _ _ _ m' = MStep.m_scheme _ _ _ m /\ MStep.m_dtM _ _ _ m' = MStep.m_dtM _ _ _ m /\ MStep.m_dtOut _ _ _ m' = MStep.m_dtOut _ _ _ m /\
  MStep.m_fail _ _ _ m' = MStep.m_fail _ _ _ m /\ MStep.m_rows _ _ _ m' = MStep.m_rows _ _ _ m /\ SR (MStep.m_ts _ _ _ m) (MStep.m_ts _ _ _ m').
Lemma step_part fuel m m' ps ps' vs vs' dt : one_by_one (MStep.m_scheme _ _ _ m) -> PI m m' -> same_coupled q ty ty' ps ps' -> same_coupled q ty ty' vs vs' ->
  orel (fun r r' => PI (fst r) (fst r') /\ MStep.m_scheme _ _ _ (fst r) = MStep.m_scheme _ _ _ m /\ part_forces q ty ty' (snd r) (snd r'))
    (net_step sea depth ec conv fuel m (flat_map MStep.lst3 ps) (flat_map MStep.lst3 vs) dt) (net_step sea depth ec conv fuel m' (flat_map MStep.lst3 ps') (flat_map MStep.lst3 vs') dt).
Proof.
  intros HU HM HP HV. pose proof HM as (A & B & C & D & E & F). unfold net_step, MStep.md_step. destruct (Rle_dec dt 0).
  - apply orel_ok. cbn. split; [exact HM|]. split; [reflexivity|]. apply forces_part. apply F.
  - eapply orel_bind; [apply couple_part; [apply F|exact HP|exact HV]|]. intros e e' He. rewrite A, B, C, D, E. eapply orel_bind.
    + apply (sub_loop_part SR).
      * intros x x' d HX. now apply ts_step_part.
      * unfold MStep.next. destruct F as (F1 & F2 & F3 & F4 & F5 & F6 & F7 & F8 & F9).
        destruct (MStep.m_ts _ _ _ m), (MStep.m_ts _ _ _ m'); cbn in *. unfold srel. cbn. assert (HE' : PE (MStep.Sys net (MStep.e_bod net e) (MStep.e_rod net e) (MStep.e_pts net e) (map (MStep.update_length 0) (MStep.e_lin net e)) (MStep.e_rest net e)) (MStep.Sys net (MStep.e_bod net e') (MStep.e_rod net e') (MStep.e_pts net e') (map (MStep.update_length 0) (MStep.e_lin net e')) (MStep.e_rest net e'))).
        { destruct He as (HE & K). split; [|exact K]. destruct HE as (B1 & B2 & B3 & B4 & HL & (U1 & U2) & K3). unfold part_sys. cbv zeta. cbn [MStep.e_rest MStep.e_bod MStep.e_rod MStep.e_pts MStep.e_lin]. repeat (split; [assumption|]). split; [split; [now rewrite map_length|now apply map_part]|]. exact K3. }
        repeat (split; [assumption || reflexivity|]). exact F9.
    + cbv beta. intros s s' HS. assert (ET : tt _ _ _ s' = tt _ _ _ s) by (symmetry; apply HS). rewrite ET. eapply orel_bind; [apply fail_part; apply HS|]. cbv beta. intros fe fe' (H1 & H2). apply orel_ok. cbn. split; [|split; [reflexivity|now apply forces_part]].
      unfold PI. cbn. rewrite H1. repeat (split; [reflexivity|]). destruct HS as (F1 & F2 & F3 & F4 & F5 & F6 & F7 & F8 & F9). destruct s, s'. cbn in *. unfold srel. cbn in *. repeat (split; [assumption|]). exact F9.
Qed.
Lemma run_part fuel calls calls' : Forall2 (part_call q ty ty') calls calls' -> forall m m', one_by_one (MStep.m_scheme _ _ _ m) -> PI m m' ->
  orel (fun r r' => PI (fst r) (fst r') /\ Forall2 (part_forces q ty ty') (snd r) (snd r')) (net_run sea depth ec conv fuel m (map to_call calls)) (net_run sea depth ec conv fuel m' (map to_call calls')).
Proof.
  induction 1 as [|[[ps vs] dt] [[ps' vs'] dt'] calls calls' (H1 & H2 & H3) HC IH]; intros m m' HU HM; cbn [net_run map]; [apply orel_ok; split; [exact HM|constructor]|]. cbn [fst snd to_call] in *. subst dt'. unfold to_call. cbn [fst snd]. eapply orel_bind; [now apply step_part|]. cbv beta. intros r r' (R1 & R2 & R3).
  eapply orel_bind; [apply IH; [now rewrite R2|exact R1]|]. cbv beta. intros u u' (Q1 & Q2). apply orel_ok. cbn. split; [exact Q1|]. now constructor.
Qed.
End D.
Lemma inst_PI q nl np m m' : part_instance q nl np m m' <-> PI q nl np (point_types m) (point_types m') (map sp_att (n_pts (MStep.e_rest _ (env _ _ _ (MStep.m_ts _ _ _ m))))) (map sp_att (n_pts (MStep.e_rest _ (env _ _ _ (MStep.m_ts _ _ _ m'))))) m m'.
Proof.
  unfold part_instance, PI, srel, PE. cbv zeta. split.
  - intros (A & B & C & D & E & F & G & H & I1 & J & K & L & M & N); repeat (split; [assumption || (symmetry; assumption)|]). split; [split; [exact K|repeat split]|]. split; [exact L|]. split; [exact M|]. intros i Hi. assert (i = 0%nat) by lia. subst i. intros x' E'. apply vget_nth in E'. destruct (nth_some (rr _ _ _ (MStep.m_ts _ _ _ m)) 0) as (x & Ex); [rewrite M; eapply some_lt; eassumption|]. exists x. split; [now apply nth_vget|]. now apply N.
  - intros (A & B & C & D & E & F & G & H & I1 & J & (K & _) & L & M & N); repeat (split; [assumption || (symmetry; assumption)|]). intros x x' Hx Hx'. destruct (N 0%nat ltac:(lia) x' (nth_vget _ _ _ Hx')) as (y & Ey & HY). apply vget_nth in Ey. congruence.
Qed.
Lemma PI_inst q nl np ty ty' a a' m m' : PI q nl np ty ty' a a' m m' -> part_instance q nl np m m' /\ point_types m = ty /\ point_types m' = ty'.
Proof.
  intro H. pose proof H as (_ & _ & _ & _ & _ & _ & _ & _ & _ & _ & (_ & <- & <- & <- & <-) & _). split; [|split; reflexivity]. apply inst_PI. exact H.
Qed.
