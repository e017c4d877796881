(** Proofs about lines changed during the simulation. *)
From Coq Require Import Reals List Arith ZArith Bool Lra Lia.
From Verif Require Import MErr MVec MStateOps MMat MLine MCFL MApi MSet SLine SSet PMat PLine.
Import ListNotations.
Open Scope R_scope.

Section Length.
Variables (L : line) (EA w len0 len : R).
Hypothesis NP : (0 < lN L)%nat.
Let P := o_line (setUnstretchedLength (describe L EA w len0) len).
Let D := o_line (describe L EA w len).
Lemma P_ll i : (i < lN L)%nat -> ll P i = ll D i.
Proof. intro H. unfold P, D. cbn -[Nat.ltb]. apply Nat.ltb_lt in H. rewrite H. reflexivity. Qed.
Lemma P_T i : (i < lN L)%nat -> lT P i = lT D i.
Proof. intro H. unfold lT. rewrite (P_ll i H). reflexivity. Qed.
Lemma P_Td i : (i < lN L)%nat -> lTd P i = lTd D i.
Proof. intro H. unfold lTd. rewrite (P_ll i H). reflexivity. Qed.
Lemma P_bend n : bend P n = bend D n.
Proof. induction n as [|n IH]; [reflexivity|]. cbn [bend]. rewrite IH. reflexivity. Qed.
Lemma P_Bs : lBs P = lBs D.
Proof. unfold lBs. change (lisEI P) with (lisEI D). change (lN P) with (lN D). rewrite P_bend. reflexivity. Qed.
Lemma all_some_ext f g n : (forall i, (i < n)%nat -> f i = g i) -> all_some f n = all_some g n.
Proof. induction n as [|n IH]; intro H; [reflexivity|]. cbn [all_some]. rewrite IH by (intros; apply H; lia). rewrite (H n) by lia. reflexivity. Qed.
Lemma at_node_ext (f g : nat -> R) i : (i <= lN L)%nat -> (forall j, (j < lN L)%nat -> f j = g j) -> at_node P f i = at_node D g i.
Proof.
  intros Hi H. unfold at_node. change (lN P) with (lN L). change (lN D) with (lN L). destruct (Nat.eqb_spec i 0); [apply H; lia|]. destruct (Nat.eqb_spec i (lN L)); [apply H; lia|]. rewrite !H by lia. reflexivity.
Qed.
Lemma beside_at (f : nat -> R) i : (i <= lN L)%nat -> at_node D f i = beside (lN L) f i.
Proof.
  intro Hi. unfold at_node, beside. change (lN D) with (lN L). destruct (Nat.eqb_spec i 0) as [->|].
  - apply Nat.ltb_lt in NP. rewrite NP. cbn. ring.
  - destruct (Nat.eqb_spec i (lN L)) as [->|].
    + rewrite Nat.ltb_irrefl. apply Nat.ltb_lt in NP. rewrite NP. ring.
    + assert ((i <? lN L)%nat = true) as -> by (apply Nat.ltb_lt; lia). assert ((0 <? i)%nat = true) as -> by (apply Nat.ltb_lt; lia). reflexivity.
Qed.
Lemma beside_scale c (f g : nat -> R) N i : (forall j, g j = c * f j) -> beside N g i = c * beside N f i.
Proof. intro H. unfold beside. rewrite !H. destruct (i <? N)%nat, (0 <? i)%nat; ring. Qed.
Lemma P_W e k i : (i <= lN L)%nat -> lW P e k i = lW D e k i.
Proof. intro H. unfold lW. erewrite (at_node_ext _ (fun j => ll D j * (lrho D - lF D k j * rho_w e)) i H); [reflexivity|]. intros j Hj. cbv beta. rewrite P_ll by exact Hj. reflexivity. Qed.
Lemma P_drag k i : (i <= lN L)%nat -> at_node P (fun j => lF P k j * ll P j) i = at_node D (fun j => lF D k j * ll D j) i.
Proof. intro H. apply at_node_ext; [exact H|]. intros j Hj. rewrite P_ll by exact Hj. reflexivity. Qed.
Lemma P_Dp e k i : (i <= lN L)%nat -> lDp P e k i = lDp D e k i.
Proof. intro H. unfold lDp. rewrite P_drag by exact H. reflexivity. Qed.
Lemma P_Dq e k i : (i <= lN L)%nat -> lDq P e k i = lDq D e k i.
Proof. intro H. unfold lDq. rewrite P_drag by exact H. reflexivity. Qed.
Lemma P_len i : (i <= lN L)%nat -> at_node P (ll P) i = at_node D (ll D) i.
Proof. intro H. apply at_node_ext; [exact H|]. intros j Hj. apply P_ll. exact Hj. Qed.
Lemma P_B e k i : (i <= lN L)%nat -> lB P e k i = lB D e k i.
Proof. intro H. unfold lB. rewrite P_len by exact H. reflexivity. Qed.
Lemma P_Pb e k i : (i <= lN L)%nat -> lPb P e k i = lPb D e k i.
Proof. intro H. reflexivity. Qed.
Let wet k i := beside (lN L) (lF L k) i.
Lemma P_vol k i : (i <= lN L)%nat -> at_node P (fun j => lF P k j * lV P j) i = len0 / INR (lN L) * (PI / 4 * ldia L * ldia L) * wet k i.
Proof.
  intro H. rewrite (at_node_ext _ (fun j => lF P k j * lV P j) i H) by reflexivity. rewrite beside_at by exact H. apply beside_scale. intro j. unfold P. cbn. change (lF _ k j) with (lF L k j). ring.
Qed.
Lemma D_vol k i : (i <= lN L)%nat -> at_node D (fun j => lF D k j * lV D j) i = len / INR (lN L) * (PI / 4 * ldia L * ldia L) * wet k i.
Proof. intro H. rewrite beside_at by exact H. apply beside_scale. intro j. unfold D. cbn. change (lF _ k j) with (lF L k j). ring. Qed.
Lemma P_total e k : line_forces P e k = None <-> line_forces D e k = None.
Proof.
  unfold line_forces. change (lN P) with (lN L). change (lN D) with (lN L). rewrite (all_some_ext _ _ _ P_T), (all_some_ext _ _ _ P_Td), P_Bs.
  destruct (andb _ _); [|tauto]. destruct (lBs D); cbn; split; congruence.
Qed.
Lemma P_forces e k F F' i : (i <= lN L)%nat -> line_forces P e k = Some F -> line_forces D e k = Some F' ->
  vsub (F i) (F' i) = inertia_force L e k (displaced L k (len0 - len) i) (lq D i) i.
Proof.
  intros Hi H1 H2. apply forces_some in H1. destruct H1 as (B1 & E1 & -> & _). apply forces_some in H2. destruct H2 as (B2 & E2 & -> & _).
  rewrite P_Bs, E2 in E1. injection E1 as <-.
  assert (FT : forall j, (j < lN L)%nat -> force_or_zero (lT P) j = force_or_zero (lT D) j) by (intros j Hj; unfold force_or_zero; rewrite P_T by exact Hj; reflexivity).
  assert (FD : forall j, (j < lN L)%nat -> force_or_zero (lTd P) j = force_or_zero (lTd D) j) by (intros j Hj; unfold force_or_zero; rewrite P_Td by exact Hj; reflexivity).
  unfold lFnet. rewrite P_W, P_Dp, P_Dq, P_B, P_Pb by exact Hi. change (lN P) with (lN L). change (lN D) with (lN L).
  match goal with |- vsub (vadd ?a _) (vadd ?b _) = _ => assert (E : a = b) end.
  { destruct (Nat.eqb_spec i 0) as [->|]; [rewrite FT, FD by lia; reflexivity|]. destruct (Nat.eqb_spec i (lN L)) as [->|]; [rewrite FT, FD by lia; reflexivity|]. rewrite !FT, !FD by lia. reflexivity. }
  rewrite E. unfold lAp, lAq. rewrite P_vol, D_vol by exact Hi. change (lq P i) with (lq D i). change (lCan P) with (lCan L). change (lCan D) with (lCan L). change (lCat P) with (lCat L). change (lCat D) with (lCat L).
  unfold inertia_force, displaced, across, along, wet.
  match goal with |- vsub (vadd ?x (vadd (vadd (vadd (vadd ?a (vadd (vadd (vadd ?b ?c) _) _)) ?d) ?f) ?g)) _ = _ => generalize x, a, b, c, d, f, g end.
  generalize (lq D i) (wUd k i) (beside (lN L) (lF L k) i). intros. replace 0.5 with (/ 2) by lra. unfold Rdiv. generalize (/ INR (lN L)). intros. apply v3eq; cbn; ring.
Qed.
Lemma P_mass e k i : (i <= lN L)%nat -> lM P e k i = madd (lM D e k i) (water_mass L e (displaced L k (len0 - len) i) (lq D i)).
Proof.
  intro Hi. unfold lM, lmi, lvi. rewrite P_len, P_vol, D_vol by exact Hi. change (lq P i) with (lq D i). change (lCan P) with (lCan L). change (lCan D) with (lCan L). change (lCat P) with (lCat L). change (lCat D) with (lCat L).
  change (ldia P) with (ldia D). change (lrho P) with (lrho D). unfold water_mass, displaced, wet, msub.
  match goal with |- madd (mscale ?a mid) _ = _ => generalize a end. intro a. replace 0.5 with (/ 2) by lra. unfold Rdiv. generalize (/ INR (lN L)) (outer (lq D i)) (beside (lN L) (lF L k) i). intros r [[] [] []] b.
  unfold madd, mscale; cbn. f_equal; apply v3eq; cbn; ring.
Qed.
End Length.

Lemma stiffness_line L EA w len EA' : o_line (setEA (describe L EA w len) EA') = o_line (describe L EA' w len).
Proof. reflexivity. Qed.
(** the limit of the time step of a described line *)
Lemma limit_is L EA w len c : (0 < lN L)%nat -> 0 < EA -> 0 < w -> 0 < len -> cfl2dt c (o_cfl (describe L EA w len)) = c * (2 * PI * (len / INR (lN L)) / sqrt (EA / w)).
Proof.
  intros N1 H1 H2 H3. cbn [describe o_cfl]. unfold line_cfl, cfl2dt, period, frequency. assert (0 < INR (lN L)) by (apply lt_0_INR; exact N1).
  replace (EA * INR (lN L) / len / (w * len / INR (lN L))) with (EA / w * ((INR (lN L) / len) * (INR (lN L) / len))) by (field; lra).
  rewrite sqrt_mult_alt by (apply Rlt_le, Rdiv_lt_0_compat; lra). rewrite sqrt_square by (apply Rlt_le, Rdiv_lt_0_compat; lra).
  assert (0 < sqrt (EA / w)) by (apply sqrt_lt_R0, Rdiv_lt_0_compat; lra). field. lra.
Qed.
Lemma limit_length L EA w len0 len c : (0 < lN L)%nat -> 0 < EA -> 0 < w -> 0 < len0 -> 0 < len ->
  cfl2dt c (o_cfl (setUnstretchedLength (describe L EA w len0) len)) = len0 / len * cfl2dt c (o_cfl (describe L EA w len)).
Proof.
  intros. change (o_cfl (setUnstretchedLength (describe L EA w len0) len)) with (o_cfl (describe L EA w len0)). rewrite !limit_is by assumption.
  assert (0 < INR (lN L)) by (apply lt_0_INR; assumption). assert (0 < sqrt (EA / w)) by (apply sqrt_lt_R0, Rdiv_lt_0_compat; lra). field. lra.
Qed.
Lemma limit_stiffness L EA w len EA' c : (0 < lN L)%nat -> 0 < EA -> 0 < EA' -> 0 < w -> 0 < len ->
  cfl2dt c (o_cfl (setEA (describe L EA w len) EA')) = sqrt (EA' / EA) * cfl2dt c (o_cfl (describe L EA' w len)).
Proof.
  intros. change (o_cfl (setEA (describe L EA w len) EA')) with (o_cfl (describe L EA w len)). rewrite !limit_is by assumption.
  replace (EA' / w) with (EA' / EA * (EA / w)) by (field; lra). rewrite sqrt_mult_alt by (apply Rlt_le, Rdiv_lt_0_compat; lra).
  assert (0 < INR (lN L)) by (apply lt_0_INR; assumption). assert (0 < sqrt (EA / w)) by (apply sqrt_lt_R0, Rdiv_lt_0_compat; lra). assert (0 < sqrt (EA' / EA)) by (apply sqrt_lt_R0, Rdiv_lt_0_compat; lra). field. lra.
Qed.
Lemma read_ok : forall n p, length p = n -> read_array p n = Ok p.
Proof. induction n as [|n IH]; intros [|x p] H; try discriminate; [reflexivity|]. cbn. injection H as H. rewrite IH by exact H. reflexivity. Qed.
Lemma press_ok o p : length (o_pin o) = (lN (o_line o) + 1)%nat -> length p = (lN (o_line o) + 1)%nat ->
  exists o', MoorDyn_SetLinePressInt (Some o) p = Ok (MOORDYN_SUCCESS, Some o') /\ (forall i, lpin (o_line o') i = nth i p 0) /\
    o_len o' = o_len o /\ o_rate o' = o_rate o /\ o_cfl o' = o_cfl o /\ lisPb (o_line o') = lisPb (o_line o) /\ lE (o_line o') = lE (o_line o) /\ ll (o_line o') = ll (o_line o) /\ length (o_pin o') = (lN (o_line o') + 1)%nat.
Proof.
  intros H1 H2. cbn [MoorDyn_SetLinePressInt]. rewrite read_ok by exact H2. cbn [obind]. unfold setPin. rewrite H1, H2, Nat.eqb_refl. cbn [negb obind]. eexists. split; [reflexivity|]. repeat split; try reflexivity. exact H2.
Qed.
(** what is kept by the setters *)
Definition holds (L : line) (o : lobj) (len rate EA : R) (pb : Z) (p : list R) : Prop :=
  lN (o_line o) = lN L /\ larea (o_line o) = PI / 4 * ldia L * ldia L /\ length (o_pin o) = (lN L + 1)%nat /\
  o_len o = len /\ o_rate o = rate /\ lE (o_line o) * larea (o_line o) = EA /\ (if lisPb (o_line o) then 1%Z else 0%Z) = pb /\ (forall i, lpin (o_line o) i = nth i p 0) /\
  (forall i, (i < lN L)%nat -> ll (o_line o) i = len / INR (lN L)).
Lemma area_pos L : 0 < ldia L -> 0 < PI / 4 * ldia L * ldia L.
Proof. intro H. pose proof PI_RGT_0. rewrite Rmult_assoc. apply Rmult_lt_0_compat; [lra|apply Rmult_lt_0_compat; exact H]. Qed.
Lemma settings_run L : 0 < ldia L -> forall cs o len rate EA pb p, Forall (sized L) cs -> holds L o len rate EA pb p ->
  exists o', call_setters o cs = Ok o' /\ holds L o' (latest len_of cs len) (latest rate_of cs rate) (latest EA_of cs EA) (latest bends_of cs pb) (latest press_of cs p).
Proof.
  intro Hd. assert (AP := area_pos L Hd).
  induction cs as [|s cs IH]; intros o len rate EA pb p HF H; [exists o; split; [reflexivity|exact H]|].
  inversion HF as [|? ? Hs HF']; subst. destruct H as (E1 & E2 & E3 & E4 & E5 & E6 & E7 & E8 & E9).
  destruct s as [x|x|x|b|q]; cbn [call_setters call_setter].
  - apply IH; [exact HF'|]. unfold holds. cbn -[Nat.ltb]. repeat split; try assumption. intros i Hi. rewrite E1. apply Nat.ltb_lt in Hi. rewrite Hi. reflexivity.
  - apply IH; [exact HF'|]. unfold holds. cbn. repeat split; assumption.
  - apply IH; [exact HF'|]. unfold holds. cbn. repeat split; try assumption. rewrite E2. unfold Rdiv at 1. rewrite Rmult_assoc, Rinv_l by lra. ring.
  - apply IH; [exact HF'|]. unfold holds. cbn. repeat split; try assumption. destruct (b =? 0)%Z; reflexivity.
  - cbn in Hs. destruct (press_ok o q) as (o' & Q & P1 & P2 & P3 & P4 & P5 & P6 & P7 & P8); [rewrite E1; exact E3|rewrite E1; exact Hs|]. rewrite Q. cbn [obind].
    assert (EN : lN (o_line o') = lN (o_line o) /\ larea (o_line o') = larea (o_line o)).
    { cbn [MoorDyn_SetLinePressInt] in Q. rewrite read_ok in Q by (rewrite E1; exact Hs). cbn [obind] in Q. unfold setPin in Q. rewrite E3, Hs, Nat.eqb_refl in Q. cbn [negb obind] in Q. injection Q as <-. split; reflexivity. }
    destruct EN as [N1 N2]. apply IH; [exact HF'|]. unfold holds. rewrite N1, N2, P2, P3, P5, P6, P7. repeat split; try assumption. rewrite P8, N1, E1. reflexivity.
Qed.
Lemma nth_repeat0 n i : nth i (repeat 0 n) 0 = 0.
Proof. revert i. induction n as [|n IH]; intros [|i]; try reflexivity. cbn. apply IH. Qed.
Lemma described L EA w len : 0 < ldia L -> holds L (describe L EA w len) len 0 EA 0 (repeat 0 (lN L + 1)).
Proof.
  intro Hd. assert (AP := area_pos L Hd).
  unfold holds. cbn -[repeat]. repeat split; try reflexivity; [apply repeat_length|unfold Rdiv at 1; rewrite Rmult_assoc, Rinv_l by lra; ring|intro i; rewrite nth_repeat0; reflexivity].
Qed.
Lemma settings_read L EA w len cs : 0 < ldia L -> Forall (sized L) cs -> exists o, call_setters (describe L EA w len) cs = Ok o /\
  MoorDyn_GetLineUnstretchedLength (Some o) = Reply MOORDYN_SUCCESS (Some (latest len_of cs len)) /\
  MoorDyn_GetLineConstantEA (Some o) = Reply MOORDYN_SUCCESS (Some (latest EA_of cs EA)) /\
  MoorDyn_IsLinePressBend (Some o) = Reply MOORDYN_SUCCESS (Some (latest bends_of cs 0%Z)) /\
  o_rate o = latest rate_of cs 0 /\ (forall i, lpin (o_line o) i = nth i (latest press_of cs (repeat 0 (lN L + 1))) 0) /\
  (forall i, (i < lN L)%nat -> ll (o_line o) i = latest len_of cs len / INR (lN L)).
Proof.
  intros Hd HF. destruct (settings_run L Hd cs _ _ _ _ _ _ HF (described L EA w len Hd)) as (o & E & (E1 & E2 & E3 & E4 & E5 & E6 & E7 & E8 & E9)).
  exists o. split; [exact E|]. unfold MoorDyn_GetLineUnstretchedLength, MoorDyn_GetLineConstantEA, MoorDyn_IsLinePressBend, check. rewrite E4, E6, E7. repeat split; assumption.
Qed.
Lemma deep_F L k i : (forall j, vz (lr L j) < 0) -> (forall j, wzeta k j = 0) -> lF L k i = 1.
Proof.
  intros H Z. unfold lF, calcSubSeg. rewrite !Z. replace (0.5 * (0 + 0)) with 0 by lra. destruct (Rle_dec _ _) as [|n]; [|exfalso; apply n; specialize (H i); lra].
  destruct (Rlt_dec _ _) as [|n]; [reflexivity|exfalso; apply n; specialize (H (S i)); lra].
Qed.
(** a line of one segment, wholly in the water *)
Definition sunk : line :=
  Line 1 2 0 0 0 0 10 1 0 1.2 0.1 [] [] [] [] [] [] false (fun _ => 0) (fun i => V3 (INR i) 0 (-10)) (fun _ => vzero) (fun _ => 0) (fun _ => 0) false false (V3 1 0 0) (V3 1 0 0).
Definition flat_sea : wkin := Wkin (fun _ => 0) (fun _ => vzero) (fun _ => vzero) (fun _ => 0) (fun _ _ => -100).
Lemma sunk_displaced dl : displaced sunk flat_sea dl 0 = PI * dl / 2.
Proof.
  unfold displaced, beside. change (lN sunk) with 1%nat. cbn [Nat.ltb Nat.leb]. rewrite deep_F; [|intro j; cbn; lra|reflexivity]. change (ldia sunk) with 2. change (INR 1) with 1. field.
Qed.
Lemma mass_stale : ~ (forall L EA w len0 len o e k i, (0 < lN L)%nat -> 0 < ldia L -> 0 < EA -> 0 < w -> 0 < len0 -> 0 < len -> (i <= lN L)%nat ->
  MoorDyn_SetLineUnstretchedLength (Some (describe L EA w len0)) len = (MOORDYN_SUCCESS, Some o) -> lM (o_line o) e k i = lM (o_line (describe L EA w len)) e k i).
Proof.
  intro A. set (e := Envc 1025 9.8 0 0 0 0 1). specialize (A sunk 1 1 1 2 _ e flat_sea 0%nat ltac:(cbn; lia) ltac:(cbn; lra) ltac:(lra) ltac:(lra) ltac:(lra) ltac:(lra) ltac:(lia) eq_refl).
  rewrite (P_mass sunk 1 1 1 2 ltac:(cbn; lia) e flat_sea 0 ltac:(lia)) in A.
  assert (Q : vy (mr1 (water_mass sunk e (displaced sunk flat_sea (1 - 2) 0) (lq (o_line (describe sunk 1 1 2)) 0))) = 0).
  { match type of A with madd ?m ?x = _ => assert (Z : vy (mr1 (madd m x)) = vy (mr1 m)) by (rewrite A; reflexivity); unfold madd in Z; cbn [mr1 vadd vy] in Z; lra end. }
  rewrite sunk_displaced in Q.
  assert (QZ : vy (lq (o_line (describe sunk 1 1 2)) 0) = 0).
  { unfold lq. cbn [Nat.eqb]. change (lcantA (o_line (describe sunk 1 1 2))) with false. cbn [negb orb]. unfold unitvector. cbn [fst]. destruct (equalRealNos _ _); cbn; unfold Rdiv; ring. }
  revert Q QZ. clear A. generalize (lq (o_line (describe sunk 1 1 2)) 0). intros q Q QZ. unfold water_mass, madd, mscale, outer in Q. cbn in Q. rewrite QZ in Q. pose proof PI_RGT_0. lra.
Qed.
Lemma step_stale : ~ (forall L EA w len EA' c o, (0 < lN L)%nat -> 0 < ldia L -> 0 < EA -> 0 < EA' -> 0 < w -> 0 < len -> 0 < c ->
  MoorDyn_SetLineConstantEA (Some (describe L EA w len)) EA' = (MOORDYN_SUCCESS, Some o) -> cfl2dt c (o_cfl o) <= cfl2dt c (o_cfl (describe L EA' w len))).
Proof.
  intro A. specialize (A sunk 1 1 1 4 1 _ ltac:(cbn; lia) ltac:(cbn; lra) ltac:(lra) ltac:(lra) ltac:(lra) ltac:(lra) ltac:(lra) eq_refl).
  rewrite limit_stiffness in A by (try lra; cbn; lia). replace (4 / 1) with (2 * 2) in A by lra. rewrite sqrt_square in A by lra.
  rewrite limit_is in A by (try lra; cbn; lia). replace (4 / 1) with (2 * 2) in A by lra. rewrite sqrt_square in A by lra. change (INR (lN sunk)) with 1 in A. pose proof PI_RGT_0. lra.
Qed.
