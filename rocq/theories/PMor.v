(** Proofs about the forces of the water on lines *)
From Coq Require Import Reals List Lra Lia Psatz Arith.
From Verif Require Import MErr MVec MStateOps MMat MInterp MLine MRod MBody SMat SLine SRod SBody SMor PMat PEuler PLine PLineB PRod PRodB PRodC.
Import ListNotations.
Open Scope R_scope.

Lemma unit_of : forall a b s t, dot t t = 1 -> tol < s -> vsub b a = vscale s t -> unitvector a b = (t, s).
Proof.
  intros a b s t T S E. pose proof tol_pos. assert (N : norm (vsub b a) = s).
  { rewrite E, norm_scale by lra. unfold norm. rewrite T, sqrt_1. ring. }
  unfold unitvector. rewrite N, eq0_false by exact S. rewrite E. f_equal.
  destruct t as [x y z]. unfold vscale. cbn [vx vy vz]. apply v3eq; cbn [vx vy vz]; field; lra.
Qed.
Lemma straight_seg : forall L t i, straight L t -> (i < lN L)%nat -> lqs L i = t.
Proof. intros L t i (T & S & _) H. destruct (S i H) as (s & A & B). unfold lqs. rewrite (unit_of _ _ s t T A B). reflexivity. Qed.
Lemma straight_q : forall L t i, straight L t -> (0 < lN L)%nat -> (i <= lN L)%nat -> lq L i = t.
Proof.
  intros L t i HS HN Hi. destruct HS as (T & S & QA & QB). unfold lq. destruct (Nat.eqb_spec i 0) as [E0|E0].
  - destruct (orb _ _) eqn:E.
    + destruct (S 0%nat ltac:(lia)) as (s & A & B). rewrite (unit_of _ _ s t T A B). reflexivity.
    + apply QA. destruct (lcantA L); [reflexivity|discriminate E].
  - destruct (Nat.eqb_spec i (lN L)) as [E1|E1].
    + destruct (orb _ _) eqn:E.
      * destruct (S (lN L - 1)%nat ltac:(lia)) as (s & A & B). unfold seg in B. replace (Datatypes.S (lN L - 1)) with (lN L) in B by lia. rewrite (unit_of _ _ s t T A B). reflexivity.
      * apply QB. destruct (lcantB L); [reflexivity|discriminate E].
    + destruct (S (i - 1)%nat ltac:(lia)) as (s & A & B). destruct (S i ltac:(lia)) as (s' & A' & B'). unfold seg in B, B'. pose proof tol_pos.
      replace (Datatypes.S (i - 1)) with i in B by lia. replace (i + 1)%nat with (Datatypes.S i) by lia.
      rewrite (unit_of _ _ (s + s') t T ltac:(lra)); [reflexivity|].
      replace (vscale (s + s') t) with (vadd (vscale s t) (vscale s' t)) by (generalize t; vring).
      rewrite <- B, <- B'. generalize (lr L (i - 1)) (lr L i) (lr L (Datatypes.S i)). vring.
Qed.
Lemma curv_same : forall l t, dot t t = 1 -> getCurvature l t t = 0.
Proof. intros l t T. unfold getCurvature. rewrite T. assert (0 < eps64) by (unfold eps64; apply Rinv_0_lt_compat, pow_lt; lra). destruct (Rlt_dec _ _); [reflexivity|lra]. Qed.
Lemma straight_curv : forall L t i, straight L t -> (0 < lN L)%nat -> (i <= lN L)%nat -> lKurv L i = 0.
Proof.
  intros L t i HS HN Hi. pose proof (proj1 HS) as T. unfold lKurv. destruct (Nat.eqb_spec i 0) as [E0|E0].
  - destruct (lcantA L); [|reflexivity]. rewrite (straight_q L t 0 HS HN ltac:(lia)), (straight_seg L t 0 HS HN). now apply curv_same.
  - destruct (Nat.eqb_spec i (lN L)) as [E1|E1].
    + destruct (lcantB L); [|reflexivity]. rewrite (straight_q L t i HS HN Hi), (straight_seg L t (i - 1) HS ltac:(lia)). now apply curv_same.
    + rewrite (straight_seg L t (i - 1) HS ltac:(lia)), (straight_seg L t i HS ltac:(lia)). now apply curv_same.
Qed.
Lemma eq00 : equalRealNos 0 0 = true.
Proof. apply eq0_spec; [lra|]. pose proof tol_pos. lra. Qed.
Lemma straight_Pb : forall L e k t i, straight L t -> (0 < lN L)%nat -> (i <= lN L)%nat -> lPb L e k i = vzero.
Proof. intros L e k t i HS HN Hi. unfold lPb. destruct (negb _); [reflexivity|]. rewrite (straight_curv L t i HS HN Hi), eq00. reflexivity. Qed.
Lemma wet_frac : forall L k i, in_water L k -> (i < lN L)%nat -> lF L k i = 1.
Proof.
  intros L k i H Hi. unfold lF. destruct (H i ltac:(lia)) as (A & B & _). destruct (H (S i) ltac:(lia)) as (A' & B' & _). rewrite A, A'.
  apply sub_below; lra.
Qed.
Lemma at_node_ext : forall L f g i, (0 < lN L)%nat -> (i <= lN L)%nat -> (forall j, (j < lN L)%nat -> f j = g j) -> at_node L f i = at_node L g i.
Proof.
  intros L f g i HN Hi H. unfold at_node. destruct (Nat.eqb_spec i 0); [apply H; lia|]. destruct (Nat.eqb_spec i (lN L)); [apply H; lia|]. rewrite !H by lia. reflexivity.
Qed.
Lemma wet_len : forall L k i, in_water L k -> (0 < lN L)%nat -> (i <= lN L)%nat -> at_node L (fun j => lF L k j * ll L j) i = at_node L (ll L) i.
Proof. intros. apply at_node_ext; try assumption. intros j Hj. rewrite wet_frac by assumption. ring. Qed.
Lemma wet_vol : forall L k i, in_water L k -> round L -> (0 < lN L)%nat -> (i <= lN L)%nat -> at_node L (fun j => lF L k j * lV L j) i = larea L * at_node L (ll L) i.
Proof.
  intros L k i H [_ R] HN Hi. rewrite (at_node_ext L _ (fun j => larea L * ll L j)); try assumption.
  - unfold at_node. destruct (Nat.eqb _ _); [reflexivity|]. destruct (Nat.eqb _ _); [reflexivity|]. ring.
  - intros j Hj. rewrite wet_frac, R by assumption. ring.
Qed.
Lemma split_parts : forall t w p q, dot t t = 1 -> splits t w p q -> across t w = p /\ along t w = q.
Proof.
  intros t w p q T (E & P & c & Q). subst w q. assert (al : along t (vadd p (vscale c t)) = vscale c t).
  { unfold along. replace (dot (vadd p (vscale c t)) t) with (dot p t + c * dot t t). { rewrite P, T. f_equal. ring. }
    generalize t p. intros [a b d] [x y z]. unfold dot, vadd, vscale. cbn [vx vy vz]. ring. }
  split; [|exact al]. unfold across. rewrite al. generalize p (vscale c t). vring.
Qed.
Lemma bottom_none : forall L e k i, in_water L k -> (i <= lN L)%nat -> lB L e k i = vzero.
Proof. intros L e k i H Hi. unfold lB. apply bottom_off. apply H, Hi. Qed.
(* the total force on a straight line *)
Lemma morison_line : forall L e k t U V A vp vq ap aq F, (0 < lN L)%nat -> round L -> straight L t -> in_water L k -> uniform k (lN L) U A ->
  (forall i, (i <= lN L)%nat -> lrd L i = V) -> splits t (vsub U V) vp vq -> splits t A ap aq -> line_forces L e k = Some F ->
  vsum (lN L + 1) F = total [wet_weight e (lrho L * line_volume L) (line_volume L);
    drag_law (rho_w e) (lCdn L * (ldia L * line_length L)) vp; drag_law (rho_w e) (lCdt L * (PI * ldia L * line_length L)) vq;
    vscale (rho_w e * line_volume L * (1 + lCan L)) ap; vscale (rho_w e * line_volume L * (1 + lCat L)) aq].
Proof.
  intros L e k t U V A vp vq ap aq F HN HR HS HW HU HV S1 S2 HF. pose proof (proj1 HS) as T.
  destruct (split_parts t _ _ _ T S1) as [P1 Q1]. destruct (split_parts t _ _ _ T S2) as [P2 Q2].
  rewrite (total_force L e k F HN HF).
  rewrite (vsum_ext _ _ (fun i => vadd (lW L e k i) (vscale (at_node L (ll L) i) (total [vscale (0.25 * norm vp * rho_w e * lCdn L * ldia L) vp; vscale (0.25 * norm vq * rho_w e * lCdt L * PI * ldia L) vq;
     vscale (rho_w e * (1 + lCan L) * 0.5 * larea L) ap; vscale (rho_w e * (1 + lCat L) * 0.5 * larea L) aq])))).
  2:{ intros i Hi. assert (Hi' : (i <= lN L)%nat) by lia. unfold external. destruct (HU i Hi') as [U1 U2].
      rewrite (bottom_none L e k i HW Hi'), (straight_Pb L e k t i HS HN Hi'). unfold lDp, lDq, lAp, lAq. cbv zeta.
      rewrite (straight_q L t i HS HN Hi'), U1, U2, (HV i Hi'), P1, Q1, P2, Q2, (wet_len L k i HW HN Hi'), (wet_vol L k i HW HR HN Hi').
      unfold total. cbn [fold_right]. generalize (lW L e k i) vp vq ap aq (norm vp) (norm vq) (at_node L (ll L) i) (rho_w e) PI.
      intros w [a b c] [a' b' c'] [x y z] [x' y' z'] n n' l r pi. unfold vadd, vscale, vzero. cbn [vx vy vz]. apply v3eq; cbn [vx vy vz]; ring. }
  rewrite vsum_add, vsum_const, at_node_sum by exact HN.
  assert (W : vsum (lN L + 1) (lW L e k) = wet_weight e (lrho L * line_volume L) (line_volume L)).
  { assert (G : forall n, vsum n (lW L e k) = V3 0 0 (nsum n (fun i => vz (lW L e k i)))).
    { induction n; cbn [vsum nsum]; [reflexivity|]. rewrite IHn. unfold vadd, lW. cbn [vx vy vz]. apply v3eq; cbn [vx vy vz]; ring. }
    rewrite G, weight_sum by exact HN. rewrite (nsum_ext (lN L) (fun i => lF L k i * ll L i) (ll L)). 2:{ intros i Hi. rewrite wet_frac by assumption. ring. }
    unfold wet_weight, line_volume, line_length. rewrite (proj1 HR). apply v3eq; cbn [vx vy vz]; [reflexivity..|]. field. }
  rewrite W. unfold total. cbn [fold_right]. unfold drag_law, line_volume, line_length. rewrite (proj1 HR). replace 0.25 with (/ 4) by lra. replace 0.5 with (/ 2) by lra.
  generalize (wet_weight e (lrho L * (PI * (ldia L / 2) ^ 2 * nsum (lN L) (ll L))) (PI * (ldia L / 2) ^ 2 * nsum (lN L) (ll L))) (nsum (lN L) (ll L)) vp vq ap aq (norm vp) (norm vq) (rho_w e) PI (ldia L).
  intros [w1 w2 w3] l [a b c] [a' b' c'] [x y z] [x' y' z'] n n' r pi d. unfold vadd, vscale, vzero. cbn [vx vy vz]. apply v3eq; cbn [vx vy vz]; field.
Qed.
Lemma mass_parts : forall m b cn ct q u, mmulv (madd (mscale m mid) (mscale b (madd (mscale cn (msub mid (outer q))) (mscale ct (outer q))))) u =
  vadd (vscale m u) (vadd (vscale (b * cn) (across q u)) (vscale (b * ct) (along q u))).
Proof.
  intros m b cn ct [q1 q2 q3] [x y z]. unfold across, along.
  cbv beta iota zeta delta [mmulv madd mscale mid msub outer dot vscale vadd vsub mr0 mr1 mr2 vx vy vz]. apply v3eq; cbn [vx vy vz]; ring.
Qed.
(* the total mass of a straight line *)
Lemma morison_line_mass : forall L e k t u up uq, (0 < lN L)%nat -> round L -> straight L t -> in_water L k -> splits t u up uq ->
  vsum (lN L + 1) (fun i => mmulv (lM L e k i) u) =
  vadd (vscale (lrho L * line_volume L + rho_w e * line_volume L * lCan L) up) (vscale (lrho L * line_volume L + rho_w e * line_volume L * lCat L) uq).
Proof.
  intros L e k t u up uq HN HR HS HW SP. pose proof (proj1 HS) as T. destruct (split_parts t _ _ _ T SP) as [P Q]. destruct SP as (E & _).
  rewrite (vsum_ext _ _ (fun i => vscale (at_node L (ll L) i) (vadd (vscale (PI / 8 * (ldia L * ldia L * lrho L)) u) (vadd (vscale (rho_w e * 0.5 * larea L * lCan L) up) (vscale (rho_w e * 0.5 * larea L * lCat L) uq))))).
  2:{ intros i Hi. assert (Hi' : (i <= lN L)%nat) by lia. unfold lM. cbv zeta. rewrite mass_parts, (straight_q L t i HS HN Hi'), P, Q. unfold lmi, lvi. rewrite (wet_vol L k i HW HR HN Hi').
      generalize u up uq (at_node L (ll L) i) (rho_w e) PI. intros [a b c] [a' b' c'] [x y z] l r pi. unfold vadd, vscale. cbn [vx vy vz]. apply v3eq; cbn [vx vy vz]; field. }
  rewrite vsum_const, at_node_sum, E by exact HN. unfold line_volume, line_length. rewrite (proj1 HR). replace 0.5 with (/ 2) by lra.
  generalize up uq (nsum (lN L) (ll L)) (rho_w e) PI. intros [a' b' c'] [x y z] l r pi. unfold vadd, vscale. cbn [vx vy vz]. apply v3eq; cbn [vx vy vz]; field.
Qed.
(* a neutral slack line goes with the water *)
Lemma minv_left : forall m f, mdet m <> 0 -> mmulv (minv m) (mmulv m f) = f.
Proof.
  intros m f H. unfold minv. assert (E : mmulv (mscale (/ mdet m) (madj m)) (mmulv m f) = vscale (/ mdet m * mdet m) f).
  { set (k := / mdet m). clearbody k. destruct m as [[a b c] [d e g] [h i j]], f as [x y z].
    cbv beta iota zeta delta [mmulv mscale madj mtr mdet cross dot vscale mr0 mr1 mr2 vx vy vz]. apply v3eq; cbn [vx vy vz]; ring. }
  rewrite E, Rinv_l by exact H. generalize f. vring.
Qed.
Lemma det_pos : forall L e k i, (0 < lN L)%nat -> (i <= lN L)%nat -> sensible L -> 0 <= rho_w e -> mdet (lM L e k i) <> 0.
Proof.
  intros L e k i HN Hi HS Hw. intro E. destruct (mass_posdef L e k i vzero HN Hi HS Hw) as [_ MP].
  pose proof (lvi_nonneg L k i HN Hi HS) as V. destruct HS as [H1 [H2 [H3 [H4 [H5 [H6 [H7 [H8 [H9 H10]]]]]]]]].
  rewrite lM_det in E. cbv zeta in E. pose proof (lq_le1 L i H9 H10) as Q. pose proof (dot_pos (lq L i)) as Q0.
  set (b := rho_w e * lvi L k i) in *. assert (B : 0 <= b) by (apply Rmult_le_pos; assumption). set (q := dot (lq L i) (lq L i)) in *.
  assert (A : 0 < lmi L i + b * lCan L) by (pose proof (Rmult_le_pos _ _ B H4); lra).
  assert (C : 0 < lmi L i + b * lCan L + b * (lCat L - lCan L) * q).
  { replace (lmi L i + b * lCan L + b * (lCat L - lCan L) * q) with (lmi L i + b * (lCan L * (1 - q) + lCat L * q)) by ring.
    assert (0 <= b * (lCan L * (1 - q) + lCat L * q)); [|lra]. apply Rmult_le_pos; [exact B|]. apply Rplus_le_le_0_compat; apply Rmult_le_pos; lra. }
  pose proof (Rmult_lt_0_compat _ _ (Rmult_lt_0_compat _ _ A A) C). lra.
Qed.
Lemma line_drifts : forall L e k F i, (0 < lN L)%nat -> (i <= lN L)%nat -> sensible L -> round L -> in_water L k -> 0 <= rho_w e -> lrho L = rho_w e -> lisPb L = false ->
  lsx L = [] -> ldx L = [] -> lisEI L = false -> (forall j, (j < lN L)%nat -> norm (seg L j) <= ll L j) -> (forall j, (j <= lN L)%nat -> lrd L j = wU k j /\ wU k j = wU k 0) ->
  line_forces L e k = Some F -> mmulv (minv (lM L e k i)) (F i) = wUd k i.
Proof.
  intros L e k F i HN Hi HS HR HW Hw HD HP HX HDX HEI SL HV HF.
  assert (E : F i = mmulv (lM L e k i) (wUd k i)); [|rewrite E; apply minv_left; now apply det_pos].
  unfold line_forces in HF. destruct (andb _ _); [|discriminate HF]. unfold lBs in HF. rewrite HEI in HF. cbn [obnd] in HF. apply (f_equal (fun o => match o with Some f => f i | None => vzero end)) in HF. cbn beta iota in HF. rewrite <- HF. clear HF.
  assert (TZ : forall j, (j < lN L)%nat -> force_or_zero (lT L) j = vzero).
  { intros j Hj. unfold force_or_zero. rewrite (slack_no_tension L j); [reflexivity| |now apply SL]. destruct HS as (_ & _ & _ & _ & _ & _ & _ & H8 & _). apply (H8 j Hj). }
  assert (DZ : forall j, (j < lN L)%nat -> force_or_zero (lTd L) j = vzero).
  { intros j Hj. unfold force_or_zero, lTd. rewrite HDX. cbn [length Nat.eqb negb obnd]. unfold lldstr. destruct (HV j ltac:(lia)) as [A B]. destruct (HV (S j) ltac:(lia)) as [A' B']. rewrite A, A', B, B', vsub_self.
    replace (dot (lqs L j) vzero) with 0 by (generalize (lqs L j); intros [a b c]; unfold dot, vzero; cbn [vx vy vz]; ring). replace (lc L * larea L * 0 / ll L j) with 0 by (unfold Rdiv; ring). generalize (lqs L j). vring. }
  unfold lFnet. match goal with |- vadd ?x _ = _ => assert (IN : x = vzero) end.
  { destruct (Nat.eqb_spec i 0); [rewrite TZ, DZ by lia; vring|]. destruct (Nat.eqb_spec i (lN L)); [rewrite TZ, DZ by lia; vring|]. rewrite !TZ, !DZ by lia. vring. }
  rewrite IN, (bottom_none L e k i HW Hi). unfold lPb. rewrite HP. cbn [negb]. unfold lDp, lDq. cbv zeta. rewrite (proj1 (HV i Hi)), vsub_self.
  assert (AZ : forall q, across q vzero = vzero /\ along q vzero = vzero) by (intros [a b c]; split; unfold across, along, dot, vzero, vsub, vscale; cbn [vx vy vz]; apply v3eq; cbn [vx vy vz]; ring).
  rewrite (proj1 (AZ (lq L i))), (proj2 (AZ (lq L i))). unfold lAp, lAq, lM. cbv zeta. rewrite mass_parts. unfold lmi, lvi, lW. rewrite (wet_vol L k i HW HR HN Hi).
  rewrite (at_node_ext L (fun j => ll L j * (lrho L - lF L k j * rho_w e)) (fun _ => 0) i HN Hi). 2:{ intros j Hj. rewrite wet_frac, HD by assumption. ring. }
  assert (Z : at_node L (fun _ => 0) i = 0) by (unfold at_node; destruct (Nat.eqb _ _); [reflexivity|]; destruct (Nat.eqb _ _); [reflexivity|ring]). rewrite Z.
  assert (SU : wUd k i = vadd (across (lq L i) (wUd k i)) (along (lq L i) (wUd k i))) by (unfold across; generalize (wUd k i) (along (lq L i) (wUd k i)); vring).
  rewrite HD, (proj1 HR). rewrite SU at 3. replace 0.5 with (/ 2) by lra.
  generalize (across (lq L i) (wUd k i)) (along (lq L i) (wUd k i)) (at_node L (ll L) i) (rho_w e) PI (norm vzero). intros [a b c] [x y z] l r pi n. unfold vadd, vscale, vzero. cbn [vx vy vz]. apply v3eq; cbn [vx vy vz]; field.
Qed.
