(** Two systems in one instance: each is a part of it. *)
From Coq Require Import Reals List Arith ZArith Bool Lra Lia Permutation.
From Verif Require Import MErr MVec MStateOps MMat MInterp MLine MRod MBody MScheme MSys PLine SPart PPart PPartB PPartC PPartD.
From Verif Require MStep MNodes.
Import ListNotations.
Open Scope R_scope.

Lemma found_left {A} (l l' : list A) : found (fun i => i) l (l ++ l').
Proof. intros i x H. rewrite nth_error_app1; [exact H|eapply some_lt; eassumption]. Qed.
Lemma found_right {A} n (l l' : list A) : length l = n -> found (fun i => (n + i)%nat) l' (l ++ l').
Proof. intros <- i x H. rewrite nth_error_app2 by lia. now replace (length l + i - length l)%nat with i by lia. Qed.
Lemma rank_left ty ty' k : (k <= length ty)%nat -> coupled_no (ty ++ ty') k = coupled_no ty k.
Proof. intro H. unfold coupled_no. rewrite firstn_app. replace (k - length ty)%nat with 0%nat by lia. now rewrite firstn_O, app_nil_r. Qed.
Lemma rank_right ty ty' k : coupled_no (ty ++ ty') (length ty + k) = (coupled_count ty + coupled_no ty' k)%nat.
Proof. unfold coupled_count, coupled_no. rewrite firstn_all, firstn_app_2, filter_app, app_length. reflexivity. Qed.
Lemma count_app ty ty' : coupled_count (ty ++ ty') = (coupled_count ty + coupled_count ty')%nat.
Proof. unfold coupled_count at 1. rewrite app_length. apply rank_right. Qed.
Lemma coupled_left {A} ty ty' (l l' : list A) : length l = coupled_count ty -> same_coupled same_numbers ty (ty ++ ty') l (l ++ l').
Proof. intros HL k Hk. cbn [point_no same_numbers]. rewrite rank_left by (pose proof (some_lt _ _ _ Hk); lia). rewrite nth_error_app1; [reflexivity|]. rewrite HL. now apply rank_lt. Qed.
Definition after (nl np : nat) : numbering := Numbering (fun i => (nl + i)%nat) (fun k => (np + k)%nat).
Lemma coupled_right {A} nl np ty ty' (l l' : list A) : length l = coupled_count ty -> length ty = np -> same_coupled (after nl np) ty' (ty ++ ty') l' (l ++ l').
Proof. intros HL <- k Hk. cbn [point_no after]. rewrite rank_right, <- HL, nth_error_app2 by lia. f_equal. lia. Qed.
Lemma same_map (a : list (nat * Z)) : map (fun x => (line_no same_numbers (fst x), snd x)) a = a.
Proof. cbn. rewrite (map_ext _ (fun x => x)); [apply map_id|]. now intros []. Qed.
Lemma sep_left nl np a b n : length a = np -> n = nl -> separated same_numbers nl a a -> separated same_numbers nl a (a ++ map (map (fun x : nat * Z => ((n + fst x)%nat, snd x))) b).
Proof.
  intros HL -> (S1 & S2 & S3 & S4 & S5). split; [exact S1|]. split; [|split; [exact S3|split; [exact S4|]]].
  - intros k x Hk. exists x. cbn [point_no same_numbers]. split; [now apply found_left|]. now rewrite same_map.
  - intros k' a' i ep Hk Hi HI. cbn [line_no point_no same_numbers] in *. exists k'. split; [reflexivity|]. destruct (Nat.lt_ge_cases k' (length a)) as [H|H]; [exact H|]. rewrite nth_error_app2 in Hk by exact H. rewrite nth_error_map in Hk. destruct (nth_error b _) as [y|]; cbn in Hk; [|discriminate]. injection Hk as <-. apply in_map_iff in Hi. destruct Hi as ((j & e) & E & _). cbn in E. injection E as E _. lia.
Qed.
Lemma sep_right nl np nl2 a b n : length a = np -> n = nl -> separated same_numbers nl a a -> separated same_numbers nl2 b b -> separated (after nl np) nl2 b (a ++ map (map (fun x : nat * Z => ((n + fst x)%nat, snd x))) b).
Proof.
  intros HL -> (_ & _ & A3 & _ & _) (S1 & S2 & S3 & S4 & S5). split; [cbn; intros; lia|]. split; [|split; [exact S3|split; [exact S4|]]].
  - intros k x Hk. exists (map (fun x : nat * Z => ((nl + fst x)%nat, snd x)) x). cbn [point_no line_no after]. split; [|apply Permutation_refl]. apply (found_right np a); [exact HL|]. rewrite nth_error_map, Hk. reflexivity.
  - intros k' a' i ep Hk Hi HI. cbn [line_no point_no after] in *. destruct (Nat.lt_ge_cases k' (length a)) as [H|H].
    + rewrite nth_error_app1 in Hk by exact H. destruct (A3 k' a' _ ep Hk Hi). lia.
    + exists (k' - np)%nat. split; [lia|]. rewrite nth_error_app2 in Hk by exact H. apply some_lt in Hk. rewrite map_length in Hk. lia.
Qed.
Lemma map_shift_att n ps : map sp_att (map (shift_point n) ps) = map (map (fun x : nat * Z => ((n + fst x)%nat, snd x))) (map sp_att ps).
Proof. rewrite !map_map. reflexivity. Qed.
Lemma map_shift_bare n ps : map bare (map (shift_point n) ps) = map bare ps. Proof. rewrite map_map. reflexivity. Qed.
Lemma map_shift_type n ps : map sp_type (map (shift_point n) ps) = map sp_type ps. Proof. rewrite map_map. reflexivity. Qed.
Ltac opensys H := destruct H as (?B1 & ?B2 & ?B3 & ?B4 & (?L1 & ?L2 & ?L3) & (?U1 & ?U2) & (?P1 & ?P2) & (?C1 & ?C2) & ?SP & ?TT).
Lemma sys_left nl np nl2 np2 a b : part_sys same_numbers nl np a a -> part_sys same_numbers nl2 np2 b b -> part_sys same_numbers nl np a (beside_sys a b).
Proof.
  intros HA HB. opensys HA. opensys HB. unfold part_sys, beside_sys, beside_net. cbv zeta. cbn [MStep.e_bod MStep.e_rod MStep.e_pts MStep.e_lin MStep.e_rest n_pts n_lines n_time]. rewrite !map_app, map_shift_att, map_shift_bare, map_shift_type. repeat (split; [assumption || reflexivity|]).
  split; [split; [exact L1|split; [apply found_left|exact L3]]|]. split; [split; [exact U1|apply found_left]|]. split; [split; [exact P1|apply found_left]|]. split; [split; [exact C1|now apply coupled_left]|]. split; [|reflexivity]. apply (sep_left nl np); [now rewrite map_length|exact L1|exact SP].
Qed.
Lemma sys_right nl np nl2 np2 a b : part_sys same_numbers nl np a a -> part_sys same_numbers nl2 np2 b b -> n_time (MStep.e_rest _ a) = n_time (MStep.e_rest _ b) -> part_sys (after nl np) nl2 np2 b (beside_sys a b).
Proof.
  intros HA HB HT. opensys HA. opensys HB. unfold part_sys, beside_sys, beside_net. cbv zeta. cbn [MStep.e_bod MStep.e_rod MStep.e_pts MStep.e_lin MStep.e_rest n_pts n_lines n_time]. rewrite !map_app, map_shift_att, map_shift_bare, map_shift_type. repeat (split; [assumption || reflexivity|]).
  split; [split; [exact L0|split; [now apply found_right|exact L5]]|]. split; [split; [exact U0|now apply found_right]|]. split; [split; [exact P0|apply found_right; now rewrite map_length]|]. split; [split; [exact C0|apply coupled_right; [exact C1|now rewrite map_length]]|]. split; [|congruence]. apply (sep_right nl np nl2); [now rewrite map_length|exact L1|exact SP|exact SP0].
Qed.
Lemma sep_both nl np nl2 a b n : length a = np -> n = nl -> separated same_numbers nl a a -> separated same_numbers nl2 b b ->
  let c := a ++ map (map (fun x : nat * Z => ((n + fst x)%nat, snd x))) b in separated same_numbers (nl + nl2) c c.
Proof.
  intros HL -> (A1 & A2 & A3 & A4 & A5) (S1 & S2 & S3 & S4 & S5). cbv zeta. set (sh := fun x : nat * Z => ((nl + fst x)%nat, snd x)).
  assert (K : forall k x, nth_error (a ++ map (map sh) b) k = Some x -> ((k < np)%nat /\ nth_error a k = Some x) \/ ((np <= k)%nat /\ exists y, nth_error b (k - np) = Some y /\ x = map sh y)).
  { intros k x H. destruct (Nat.lt_ge_cases k np) as [HK|HK]; [left; split; [exact HK|]; rewrite nth_error_app1 in H by lia; exact H|right; split; [exact HK|]]. rewrite nth_error_app2, nth_error_map, HL in H by lia. destruct (nth_error b (k - np)) as [y|]; cbn in H; [|discriminate]. exists y. split; [reflexivity|congruence]. }
  split; [cbn; intros; lia|]. split; [|split; [|split]].
  - intros k x Hk. exists x. cbn [point_no same_numbers]. split; [exact Hk|]. now rewrite same_map.
  - intros k x i ep Hk Hi. destruct (K k x Hk) as [(_ & H)|(_ & y & H & ->)]; [destruct (A3 k x i ep H Hi); split; [lia|assumption]|]. apply in_map_iff in Hi. destruct Hi as ((j & e) & E & Hj). unfold sh in E. cbn in E. injection E as <- <-. destruct (S3 _ y j e H Hj). split; [lia|assumption].
  - intros k j x y [i ep] Hk Hj HX HY. destruct (K k x Hk) as [(KL & H)|(KL & x1 & H & ->)], (K j y Hj) as [(JL & H')|(JL & y1 & H' & ->)].
    + exact (A4 k j x y (i, ep) H H' HX HY).
    + apply in_map_iff in HY. destruct HY as ((j1 & e) & E & _). unfold sh in E. cbn in E. injection E as <- <-. destruct (A3 k x _ _ H HX). lia.
    + apply in_map_iff in HX. destruct HX as ((j1 & e) & E & _). unfold sh in E. cbn in E. injection E as <- <-. destruct (A3 j y _ _ H' HY). lia.
    + apply in_map_iff in HX. destruct HX as ((i1 & e1) & E & HX). apply in_map_iff in HY. destruct HY as ((i2 & e2) & E' & HY). unfold sh in E, E'. cbn in E, E'. injection E as E1 E2. injection E' as E3 E4. assert (i1 = i2) by lia. subst i2 e1 e2. assert (k - np = j - np)%nat by exact (S4 _ _ _ _ _ H H' HX HY). lia.
  - intros k' x i ep Hk Hi _. exists k'. split; [reflexivity|]. eapply some_lt; eassumption.
Qed.
Lemma found_self {A} (l : list A) : found (fun i => i) l l. Proof. intros i x H. exact H. Qed.
Lemma sys_both nl np nl2 np2 a b : part_sys same_numbers nl np a a -> part_sys same_numbers nl2 np2 b b -> part_sys same_numbers (nl + nl2) (np + np2) (beside_sys a b) (beside_sys a b).
Proof.
  intros HA HB. opensys HA. opensys HB. unfold part_sys, beside_sys, beside_net. cbv zeta. cbn [MStep.e_bod MStep.e_rod MStep.e_pts MStep.e_lin MStep.e_rest n_pts n_lines n_time]. rewrite !map_app, map_shift_att, map_shift_bare, map_shift_type. repeat (split; [reflexivity|]).
  split; [split; [rewrite app_length; lia|split; [apply found_self|]]|]. { intros L HI. apply in_app_or in HI. destruct HI; auto. }
  split; [split; [rewrite app_length; lia|apply found_self]|]. split; [split; [rewrite app_length, map_length; lia|apply found_self]|]. split; [split; [rewrite app_length, count_app; lia|intros k Hk; reflexivity]|]. split; [|reflexivity]. apply (sep_both nl np nl2); [now rewrite map_length|exact L1|exact SP|exact SP0].
Qed.
Lemma state_left nl np nl2 np2 a b : part_state same_numbers nl np a a -> part_state same_numbers nl2 np2 b b -> part_state same_numbers nl np a (beside_state a b).
Proof. intros (A1 & A2 & A3 & A4 & A5 & A6) (B1 & B2 & B3 & B4 & B5 & B6). unfold part_state, beside_state. cbn [s_lines s_points]. repeat (split; [assumption|]). split; apply found_left. Qed.
Lemma state_right nl np nl2 np2 a b : part_state same_numbers nl np a a -> part_state same_numbers nl2 np2 b b -> part_state (after nl np) nl2 np2 b (beside_state a b).
Proof. intros (A1 & A2 & A3 & A4 & A5 & A6) (B1 & B2 & B3 & B4 & B5 & B6). unfold part_state, beside_state. cbn [s_lines s_points]. repeat (split; [assumption|]). split; now apply found_right. Qed.
Lemma state_both nl np nl2 np2 a b : part_state same_numbers nl np a a -> part_state same_numbers nl2 np2 b b -> part_state same_numbers (nl + nl2) (np + np2) (beside_state a b) (beside_state a b).
Proof. intros (A1 & A2 & A3 & A4 & A5 & A6) (B1 & B2 & B3 & B4 & B5 & B6). unfold part_state, beside_state. cbn [s_lines s_points s_rods s_bodies]. rewrite !app_length. repeat (split; [reflexivity || lia|]). split; apply found_self. Qed.
Lemma deriv_left nl np nl2 np2 a b : part_deriv same_numbers nl np a a -> part_deriv same_numbers nl2 np2 b b -> part_deriv same_numbers nl np a (beside_deriv a b).
Proof. intros (A1 & A2 & A3 & A4 & A5 & A6) (B1 & B2 & B3 & B4 & B5 & B6). unfold part_deriv, beside_deriv. cbn [d_lines d_points]. repeat (split; [assumption|]). split; apply found_left. Qed.
Lemma deriv_right nl np nl2 np2 a b : part_deriv same_numbers nl np a a -> part_deriv same_numbers nl2 np2 b b -> part_deriv (after nl np) nl2 np2 b (beside_deriv a b).
Proof. intros (A1 & A2 & A3 & A4 & A5 & A6) (B1 & B2 & B3 & B4 & B5 & B6). unfold part_deriv, beside_deriv. cbn [d_lines d_points]. repeat (split; [assumption|]). split; now apply found_right. Qed.
Lemma deriv_both nl np nl2 np2 a b : part_deriv same_numbers nl np a a -> part_deriv same_numbers nl2 np2 b b -> part_deriv same_numbers (nl + nl2) (np + np2) (beside_deriv a b) (beside_deriv a b).
Proof. intros (A1 & A2 & A3 & A4 & A5 & A6) (B1 & B2 & B3 & B4 & B5 & B6). unfold part_deriv, beside_deriv. cbn [d_lines d_points d_rods d_bodies]. rewrite !app_length. repeat (split; [reflexivity || lia|]). split; apply found_self. Qed.
Lemma zip_F2 {A} (P P2 : A -> A -> Prop) (Q Q' Q2 : A -> A -> Prop) j l l' : (forall a b, P a a -> P2 b b -> Q a (j a b) /\ Q' b (j a b) /\ Q2 (j a b) (j a b)) -> length l = length l' -> Forall2 P l l -> Forall2 P2 l' l' ->
  let z := map (fun x => j (fst x) (snd x)) (combine l l') in Forall2 Q l z /\ Forall2 Q' l' z /\ Forall2 Q2 z z.
Proof.
  intros H HL HP HP2. revert l' HL HP2. induction l as [|a l IH]; intros [|b l'] HL HP2; cbn in HL |- *; try lia; [repeat split; constructor|]. inversion HP; subst. inversion HP2; subst. destruct (IH ltac:(assumption) l' ltac:(lia) ltac:(assumption)) as (X & Y & Z). destruct (H a b) as (U & V & W); auto.
Qed.
Lemma inst_beside nl np nl2 np2 a b : well_formed nl np a -> well_formed nl2 np2 b -> same_settings a b ->
  part_instance same_numbers nl np a (beside a b) /\ part_instance (after nl np) nl2 np2 b (beside a b) /\ well_formed (nl + nl2) (np + np2) (beside a b).
Proof.
  intros HA HB HS. destruct a as [s c dM dO f r], b as [s' c' dM' dO' f' r']. destruct s as [t l e rs ds n er bo], s' as [t' l' e' rs' ds' n' er' bo']. unfold well_formed, part_instance, same_settings, beside in *. cbn in *.
  destruct HS as (-> & -> & -> & -> & -> & -> & -> & -> & -> & -> & HR & HD & HT). destruct HA as (_ & _ & _ & _ & _ & _ & _ & _ & _ & _ & A1 & A2 & _ & A3). destruct HB as (_ & _ & _ & _ & _ & _ & _ & _ & _ & _ & B1 & B2 & _ & B3).
  destruct (zip_F2 _ _ (part_deriv same_numbers nl np) (part_deriv (after nl np) nl2 np2) (part_deriv same_numbers (nl + nl2) (np + np2)) beside_deriv ds ds' (fun x y HX HY => conj (deriv_left _ _ _ _ _ _ HX HY) (conj (deriv_right _ _ _ _ _ _ HX HY) (deriv_both _ _ _ _ _ _ HX HY))) HD A2 B2) as (D1 & D2 & D3).
  assert (ZL : length (map (fun x => beside_state (fst x) (snd x)) (combine rs rs')) = length rs) by (rewrite map_length, combine_length; lia).
  split; [|split]; repeat (split; [reflexivity|]).
  - split; [exact (sys_left _ _ _ _ _ _ A1 B1)|]. split; [exact D1|]. split; [congruence|]. intros x x' Hx Hx'. destruct rs as [|a rs], rs' as [|b rs']; cbn in *; try discriminate. injection Hx as <-. injection Hx' as <-. exact (state_left _ _ _ _ _ _ (A3 _ _ eq_refl eq_refl) (B3 _ _ eq_refl eq_refl)).
  - split; [exact (sys_right _ _ _ _ _ _ A1 B1 HT)|]. split; [exact D2|]. split; [congruence|]. intros x x' Hx Hx'. destruct rs as [|a rs], rs' as [|b rs']; cbn in *; try discriminate. injection Hx as <-. injection Hx' as <-. exact (state_right _ _ _ _ _ _ (A3 _ _ eq_refl eq_refl) (B3 _ _ eq_refl eq_refl)).
  - split; [exact (sys_both _ _ _ _ _ _ A1 B1)|]. split; [exact D3|]. split; [reflexivity|]. intros x x' Hx Hx'. destruct rs as [|a rs], rs' as [|b rs']; cbn in *; try discriminate. injection Hx as <-. injection Hx' as <-. exact (state_both _ _ _ _ _ _ (A3 _ _ eq_refl eq_refl) (B3 _ _ eq_refl eq_refl)).
Qed.
(* ----- the forces of both ----- *)
Lemma types_beside a b : point_types (beside a b) = point_types a ++ point_types b.
Proof. unfold point_types, beside. cbn. now rewrite map_app, map_shift_type. Qed.
Lemma lst3_inj fs fs' : flat_map MStep.lst3 fs = flat_map MStep.lst3 fs' -> fs = fs'.
Proof. revert fs'. induction fs as [|[x y z] fs IH]; intros [|[x' y' z'] fs'] H; cbn in H; try discriminate; [reflexivity|]. injection H as -> -> -> H. now rewrite (IH fs' H). Qed.
Lemma ext_nth {A} (l l' : list A) : length l = length l' -> (forall i, (i < length l)%nat -> nth_error l i = nth_error l' i) -> l = l'.
Proof.
  revert l'. induction l as [|x l IH]; intros [|x' l'] HL H; cbn in HL; try lia; [reflexivity|]. pose proof (H 0%nat ltac:(cbn; lia)) as H0. cbn in H0. injection H0 as ->. f_equal. apply IH; [lia|]. intros i Hi. exact (H (S i) ltac:(cbn; lia)).
Qed.
Lemma forces_beside nl np ty1 ty2 f1 f2 f : length ty1 = np -> part_forces same_numbers ty1 (ty1 ++ ty2) f1 f -> part_forces (after nl np) ty2 (ty1 ++ ty2) f2 f -> part_forces same_numbers (ty1 ++ ty2) (ty1 ++ ty2) f f -> f = f1 ++ f2.
Proof.
  intros HL (a & c & -> & -> & LA & HA) (b & c1 & -> & EC & LB & HB) (c2 & _ & EC2 & _ & LC & _). apply lst3_inj in EC. apply lst3_inj in EC2. subst c1 c2. rewrite <- flat_map_app. f_equal. rewrite count_app in LC. apply ext_nth; [rewrite app_length; lia|]. intros i Hi. destruct (Nat.lt_ge_cases i (length a)) as [H|H].
  - rewrite nth_error_app1 by exact H. destruct (rank_onto ty1 i) as (k & K1 & K2); [lia|]. specialize (HA k K1). cbn [point_no same_numbers] in HA. rewrite rank_left, K2 in HA; [exact HA|]. pose proof (some_lt _ _ _ K1). lia.
  - rewrite nth_error_app2 by exact H. destruct (rank_onto ty2 (i - length a)) as (k & K1 & K2); [lia|]. specialize (HB k K1). cbn [point_no after] in HB. rewrite <- HL, rank_right, K2 in HB. rewrite <- HB. f_equal. lia.
Qed.
