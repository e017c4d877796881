(** Proofs about line tension, damping, drag, sea bed contact, submergence and queries *)
From Coq Require Import Reals List Lra Lia Psatz Arith.
From Verif Require Import MErr MVec MStateOps MMat MInterp MLine SMat SLine PMat PEuler PLine.
Import ListNotations.
Open Scope R_scope.

(* ----- tension ----- *)
Lemma ratio_le1 : forall a b, 0 < b -> a <= b -> ~ 1 < a / b.
Proof.
  intros a b Hb H C. apply (Rmult_lt_compat_r b) in C; [| lra]. unfold Rdiv in C. rewrite Rmult_assoc, Rinv_l in C; lra.
Qed.
Lemma ratio_gt1 : forall a b, 0 < b -> b < a -> 1 < a / b.
Proof. intros a b Hb H. apply Rmult_lt_reg_r with b; [lra|]. unfold Rdiv. rewrite Rmult_assoc, Rinv_l; lra. Qed.
Lemma norm_sub_sym : forall a b, norm (vsub a b) = norm (vsub b a).
Proof. intros. unfold norm. f_equal. destruct a, b. unfold dot, vsub. cbn. ring. Qed.
Lemma slack_no_tension : forall L i, 0 < ll L i -> norm (seg L i) <= ll L i -> lT L i = Some vzero.
Proof.
  intros L i Hl H. unfold lT.
  change (llstr L i) with (norm (seg L i)).
  destruct (Rlt_dec 1 (norm (seg L i) / ll L i)) as [C|C]; [exfalso; revert C; apply ratio_le1; assumption|].
  destruct (negb _); reflexivity.
Qed.
Lemma taut_tension : forall L i, lsx L = [] -> 0 < ll L i -> 0 <= lE L * larea L -> ll L i < norm (seg L i) -> tol < norm (seg L i) ->
  exists t, lT L i = Some t /\ norm t = lE L * larea L * ((norm (seg L i) - ll L i) / ll L i)
    /\ exists s, 0 <= s /\ t = vscale s (seg L i).
Proof.
  intros L i HX Hl HE H Ht. unfold lT. rewrite HX. cbn [length Nat.eqb negb obnd].
  change (llstr L i) with (norm (seg L i)).
  destruct (Rlt_dec 1 (norm (seg L i) / ll L i)) as [C|C]; [| exfalso; apply C, ratio_gt1; assumption].
  destruct (unit_is_unit _ _ Ht) as [U D]. unfold lqs.
  assert (P : 0 <= (norm (seg L i) - ll L i) / ll L i) by (apply Rlt_le, Rdiv_lt_0_compat; lra).
  assert (P2 : 0 <= lE L * larea L * (norm (seg L i) - ll L i) / ll L i) by (unfold Rdiv in *; rewrite Rmult_assoc; nra).
  eexists. split; [reflexivity|]. split.
  - rewrite norm_scale by exact P2. unfold norm at 2. rewrite U, sqrt_1. unfold Rdiv. ring.
  - destruct (unit_dir (lr L i) (lr L (S i))) as [s [Hs ->]].
    exists (lE L * larea L * (norm (seg L i) - ll L i) / ll L i * s). split; [nra|].
    unfold seg. generalize (lE L * larea L * (norm (vsub (lr L (S i)) (lr L i)) - ll L i) / ll L i) (vsub (lr L (S i)) (lr L i)). vring.
Qed.
Lemma curve_tension : forall L i Y, lsx L <> [] -> 0 < ll L i -> ll L i < norm (seg L i) -> tol < norm (seg L i) ->
  interp (lsx L) (lsy L) ((norm (seg L i) - ll L i) / ll L i) = Ok Y -> 0 <= Y -> 0 <= larea L ->
  exists t, lT L i = Some t /\ norm t = larea L * Y /\ exists s, 0 <= s /\ t = vscale s (seg L i).
Proof.
  intros L i Y HX Hl H Ht HY HY0 HA. unfold lT.
  change (llstr L i) with (norm (seg L i)).
  destruct (lsx L) as [|x xs] eqn:EX; [congruence|]. cbn [length Nat.eqb negb].
  destruct (Rlt_dec 1 (norm (seg L i) / ll L i)) as [C|C]; [| exfalso; apply C, ratio_gt1; assumption].
  unfold getNonlinearE. rewrite EX. cbv zeta.
  replace (norm (seg L i) / ll L i - 1) with ((norm (seg L i) - ll L i) / ll L i) by (field; lra).
  set (X := (norm (seg L i) - ll L i) / ll L i) in *.
  assert (HXp : 0 < X) by (apply Rdiv_lt_0_compat; lra).
  destruct (Rlt_dec X 0); [lra|]. rewrite HY. cbn [oval obnd]. unfold fdiv. destruct (Req_EM_T X 0); [lra|]. cbn [obnd].
  destruct (unit_is_unit _ _ Ht) as [U D]. unfold lqs.
  assert (EE : Y / X * larea L * (norm (seg L i) - ll L i) / ll L i = larea L * Y)
    by (unfold X; field; split; apply Rgt_not_eq; lra).
  rewrite EE. eexists. split; [reflexivity|]. split.
  - rewrite norm_scale by nra. unfold norm at 1. rewrite U, sqrt_1. ring.
  - destruct (unit_dir (lr L i) (lr L (S i))) as [s [Hs ->]].
    exists (larea L * Y * s). split; [apply Rmult_le_pos; [apply Rmult_le_pos; assumption | assumption]|]. unfold seg. generalize (larea L * Y) (vsub (lr L (S i)) (lr L i)). vring.
Qed.

(* ----- damping ----- *)
Lemma ldstr_rate : forall L i, tol < norm (seg L i) -> lldstr L i = stretch_rate L i.
Proof.
  intros L i H. unfold lldstr, stretch_rate, lqs, unitvector. cbn [fst]. fold (seg L i). rewrite eq0_false by exact H.
  generalize (vsub (lrd L (S i)) (lrd L i)) (seg L i) (norm (seg L i)). intros [] [] n. unfold dot, vscale, Rdiv. cbn. ring.
Qed.
Lemma vscale0 : forall a, vscale 0 a = vzero. Proof. vring. Qed.
Lemma damp_curve_rest : forall L i, ldx L <> [] -> lldstr L i = 0 -> lTd L i = None.
Proof.
  intros L i H0 Hr. unfold lTd. destruct (ldx L) as [|x xs] eqn:EX; [congruence|]. cbn [length Nat.eqb negb].
  unfold getNonlinearC. rewrite EX, Hr. cbv zeta. replace (0 / ll L i) with 0 by (unfold Rdiv; ring).
  destruct (Rlt_dec x 0).
  - destruct (oval _); [| reflexivity]. cbn [obnd]. unfold fdiv. destruct (Req_EM_T 0 0); [reflexivity | congruence].
  - destruct (Rlt_dec 0 0); [lra|]. destruct (oval _); [| reflexivity]. cbn [obnd]. unfold fdiv. destruct (Req_EM_T 0 0); [reflexivity | congruence].
Qed.
Lemma all_some_false : forall f n i, (i < n)%nat -> f i = None -> all_some f n = false.
Proof.
  induction n; intros i Hi H; [lia|]. cbn. destruct (Nat.eq_dec i n) as [->|].
  - rewrite H. apply Bool.andb_false_r.
  - rewrite (IHn i); [reflexivity | lia | exact H].
Qed.
Lemma damp_curve_nan : forall L e k i, ldx L <> [] -> (i < lN L)%nat -> lrd L i = lrd L (S i) -> line_forces L e k = None.
Proof.
  intros L e k i H0 Hi Hr. unfold line_forces.
  rewrite (all_some_false (lTd L) (lN L) i Hi); [rewrite Bool.andb_false_r; reflexivity|].
  apply damp_curve_rest; [exact H0|]. unfold lldstr. rewrite Hr, vsub_self. unfold dot, vzero. cbn. ring.
Qed.
Lemma damp_two_sided : forall L i x0 xs Y, ldx L = x0 :: xs -> x0 < 0 -> 0 < ll L i -> tol < norm (seg L i) ->
  stretch_rate L i <> 0 -> interp (ldx L) (ldy L) (stretch_rate L i / ll L i) = Ok Y ->
  lTd L i = Some (vscale (larea L * Y / norm (seg L i)) (seg L i)).
Proof.
  intros L i x0 xs Y EX Hx Hl Ht Hr HY. unfold lTd. rewrite EX. cbn [length Nat.eqb negb].
  unfold getNonlinearC. rewrite EX. cbv zeta. rewrite <- EX. rewrite (ldstr_rate L i Ht).
  destruct (Rlt_dec x0 0); [| lra]. rewrite HY. cbn [oval obnd]. unfold fdiv.
  assert (stretch_rate L i / ll L i <> 0).
  { intros C. apply Hr. apply (Rmult_eq_compat_r (ll L i)) in C. unfold Rdiv in C. rewrite Rmult_assoc, Rinv_l in C; lra. }
  destruct (Req_EM_T _ 0); [congruence|]. cbn [obnd]. f_equal.
  unfold lqs, unitvector. cbn [fst]. fold (seg L i). rewrite eq0_false by exact Ht. pose proof tol_pos.
  replace (Y / (stretch_rate L i / ll L i) * larea L * stretch_rate L i / ll L i) with (larea L * Y) by (field; repeat split; lra).
  unfold Rdiv. generalize (seg L i) (/ norm (seg L i)) (larea L * Y). vring.
Qed.
Lemma damp_one_sided : forall L i x0 xs Y, ldx L = x0 :: xs -> 0 <= x0 -> 0 < ll L i -> tol < norm (seg L i) ->
  stretch_rate L i <> 0 -> interp (ldx L) (ldy L) (Rabs (stretch_rate L i / ll L i)) = Ok Y ->
  lTd L i = Some (vscale (larea L * Y / norm (seg L i)) (seg L i)).
Proof.
  intros L i x0 xs Y EX Hx Hl Ht Hr HY. unfold lTd. rewrite EX. cbn [length Nat.eqb negb].
  unfold getNonlinearC. rewrite EX. cbv zeta. rewrite <- EX. rewrite (ldstr_rate L i Ht).
  destruct (Rlt_dec x0 0); [lra|].
  assert (H : stretch_rate L i / ll L i <> 0).
  { intros C. apply Hr. apply (Rmult_eq_compat_r (ll L i)) in C. unfold Rdiv in C. rewrite Rmult_assoc, Rinv_l in C; lra. }
  pose proof tol_pos.
  destruct (Rlt_dec (stretch_rate L i / ll L i) 0) as [C|C].
  - rewrite Rabs_left in HY by exact C. rewrite HY. cbn [oval obnd]. unfold fdiv. destruct (Req_EM_T _ 0); [lra|]. cbn [obnd]. f_equal.
    unfold lqs, unitvector. cbn [fst]. fold (seg L i). rewrite eq0_false by exact Ht.
    replace (Y * -1 / (- (stretch_rate L i / ll L i)) * larea L * stretch_rate L i / ll L i) with (larea L * Y)
      by (field; repeat split; lra).
    unfold Rdiv. generalize (seg L i) (/ norm (seg L i)) (larea L * Y). vring.
  - rewrite Rabs_right in HY by lra. rewrite HY. cbn [oval obnd]. unfold fdiv. destruct (Req_EM_T _ 0); [lra|]. cbn [obnd]. f_equal.
    unfold lqs, unitvector. cbn [fst]. fold (seg L i). rewrite eq0_false by exact Ht.
    replace (Y * 1 / (stretch_rate L i / ll L i) * larea L * stretch_rate L i / ll L i) with (larea L * Y)
      by (field; repeat split; lra).
    unfold Rdiv. generalize (seg L i) (/ norm (seg L i)) (larea L * Y). vring.
Qed.

(* internal damping dissipates *)
Lemma undamped_Td : forall L i, lTd (undamped L) i = Some vzero.
Proof. intros. unfold lTd. cbn. f_equal. replace (0 * larea L * lldstr (undamped L) i / ll L i) with 0 by (unfold Rdiv; ring). apply vscale0. Qed.
Lemma undamped_bend : forall L n, bend (undamped L) n = bend L n.
Proof. induction n; [reflexivity|]. cbn [bend]. rewrite IHn. destruct (bend L n); reflexivity. Qed.
Lemma undamped_Bs : forall L, lBs (undamped L) = lBs L.
Proof. intros. unfold lBs. change (lisEI (undamped L)) with (lisEI L). destruct (lisEI L); [apply undamped_bend | reflexivity]. Qed.
Lemma all_some_ext : forall f g n, (forall i, f i = g i) -> all_some f n = all_some g n.
Proof. induction n; intros H; cbn; [reflexivity|]. rewrite IHn, H; auto. Qed.
Lemma damping_power : forall L e k F, (0 < lN L)%nat -> ldx L = [] -> line_forces L e k = Some F ->
  exists F0, line_forces (undamped L) e k = Some F0 /\
    power L F = power L F0 - nsum (lN L) (fun i => lc L * larea L * (lldstr L i * lldstr L i) / ll L i).
Proof.
  intros L e k F HN HX H. apply forces_some in H. destruct H as [Bs [HB [-> [HT HTd]]]].
  assert (EU : line_forces (undamped L) e k = Some (lFnet L e k (force_or_zero (lT L)) (force_or_zero (lTd (undamped L))) Bs)).
  { unfold line_forces. rewrite undamped_Bs, HB. change (lN (undamped L)) with (lN L).
    rewrite (all_some_ext (lT (undamped L)) (lT L)) by reflexivity.
    assert (A1 : all_some (lT L) (lN L) = true).
    { clear -HT. revert HT. generalize (lN L). induction n; intros HT; cbn; [reflexivity|].
      rewrite IHn by (intros; apply HT; lia). rewrite (HT n) by lia. reflexivity. }
    assert (A2 : all_some (lTd (undamped L)) (lN L) = true).
    { generalize (lN L). induction n; cbn [all_some]; [reflexivity|]. rewrite IHn, undamped_Td. reflexivity. }
    rewrite A1, A2. reflexivity. }
  eexists. split; [exact EU|].
  unfold power.
  set (Td := force_or_zero (lTd L)) in *. set (T := force_or_zero (lT L)) in *.
  set (t := fun i => dot (if Nat.eqb i 0 then Td 0%nat else if Nat.eqb i (lN L) then vscale (-1) (Td (i - 1)%nat) else vsub (Td i) (Td (i - 1)%nat)) (lrd L i)).
  rewrite (nsum_ext _ _ (fun i => dot (lFnet L e k T (force_or_zero (lTd (undamped L))) Bs i) (lrd L i) + t i)).
  2:{ intros i Hi. unfold t, lFnet. cbv zeta.
      assert (Z : forall j, force_or_zero (lTd (undamped L)) j = vzero) by (intros; unfold force_or_zero; rewrite undamped_Td; reflexivity).
      rewrite !Z.
      generalize (lrd L i) (lW L e k i) (lDp L e k i) (lDq L e k i) (lAp L e k i) (lAq L e k i) (lB L e k i) (lPb L e k i) (Bs i).
      destruct (Nat.eqb i 0); [generalize (T 0%nat) (Td 0%nat); vring|].
      destruct (Nat.eqb i (lN L)); [generalize (T (i - 1)%nat) (Td (i - 1)%nat); vring|].
      generalize (T i) (Td i) (T (i - 1)%nat) (Td (i - 1)%nat). vring. }
  rewrite nsum_add. unfold Rminus. f_equal.
  rewrite (abel_r (lN L) (fun i => dot (Td i) (lrd L i)) (fun i => dot (Td i) (lrd L (S i)))).
  - transitivity (nsum (lN L) (fun i => (-1) * (lc L * larea L * (lldstr L i * lldstr L i) / ll L i))).
    2:{ rewrite nsum_scale. ring. }
    apply nsum_ext. intros i Hi. pose proof (HTd i Hi) as E. unfold lTd in E. rewrite HX in E. cbn [length Nat.eqb negb obnd] in E.
    fold Td in E. injection E as E. rewrite <- E.
    unfold Rdiv. unfold lldstr. generalize (lqs L i) (lrd L i) (lrd L (S i)) (/ ll L i). vring.
  - exact HN.
  - unfold t. reflexivity.
  - unfold t. destruct (Nat.eqb_spec (lN L) 0); [lia|]. rewrite Nat.eqb_refl. replace (S (lN L - 1)) with (lN L) by lia.
    generalize (Td (lN L - 1)%nat) (lrd L (lN L)). vring.
  - intros i Hi. unfold t. destruct (Nat.eqb_spec i 0); [lia|]. destruct (Nat.eqb_spec i (lN L)); [lia|].
    replace (S (i - 1)) with i by lia. generalize (Td i) (Td (i - 1)%nat) (lrd L i). vring.
Qed.
Lemma damping_dissipates : forall L e k F, (0 < lN L)%nat -> ldx L = [] -> line_forces L e k = Some F ->
  0 <= lc L * larea L -> (forall i, (i < lN L)%nat -> 0 < ll L i) ->
  exists F0, line_forces (undamped L) e k = Some F0 /\ power L F <= power L F0.
Proof.
  intros L e k F HN HX H Hc Hl. destruct (damping_power L e k F HN HX H) as [F0 [E P]]. exists F0. split; [exact E|].
  rewrite P. assert (0 <= nsum (lN L) (fun i => lc L * larea L * (lldstr L i * lldstr L i) / ll L i)); [| lra].
  apply nsum_nonneg. intros i Hi. apply Rmult_le_pos; [| apply Rlt_le, Rinv_0_lt_compat, Hl, Hi].
  apply Rmult_le_pos; [exact Hc | apply Rle_0_sqr].
Qed.

(* ----- submergence ----- *)
Lemma vert_nonneg : forall s, 0 <= vz (cross s (cross (V3 0 0 1) s)).
Proof. intros [x y z]. unfold cross. cbn. nra. Qed.
Lemma inv_norm_nonneg : forall a, 0 <= / sqrt a.
Proof.
  intros a. destruct (Req_dec (sqrt a) 0) as [E|E]; [rewrite E, Rinv_0; lra|].
  left. apply Rinv_0_lt_compat. pose proof (sqrt_pos a). lra.
Qed.
Lemma nvec_nonneg : forall d s, 0 <= d -> 0 <= vz (scalevector (vnormalized (cross s (cross (V3 0 0 1) s))) (d / 2)).
Proof.
  intros d s Hd. pose proof (vert_nonneg s) as H. set (n := cross s (cross (V3 0 0 1) s)) in *.
  assert (H1 : 0 <= vz (vnormalized n)).
  { unfold vnormalized. destruct (Rlt_dec 0 (dot n n)); [| exact H]. cbn [vscale vz]. apply Rmult_le_pos; [apply inv_norm_nonneg | exact H]. }
  unfold scalevector. destruct (equalRealNos _ _); [exact H1|]. cbn [vscale vz].
  apply Rmult_le_pos; [| exact H1]. unfold Rdiv. apply Rmult_le_pos; [lra | apply inv_norm_nonneg].
Qed.
Lemma frac_range : forall a u, 0 <= u -> 0 <= Rabs a / (Rabs a + u) <= 1.
Proof.
  intros a u Hu. pose proof (Rabs_pos a). destruct (Req_dec (Rabs a + u) 0) as [E|E].
  - rewrite E. unfold Rdiv. rewrite Rinv_0. lra.
  - assert (0 < Rabs a + u) by lra. split.
    + apply Rmult_le_pos; [lra | apply Rlt_le, Rinv_0_lt_compat; lra].
    + apply Rmult_le_reg_r with (Rabs a + u); [lra|]. unfold Rdiv. rewrite Rmult_assoc, Rinv_l; lra.
Qed.
Lemma sub_range : forall d a b h, 0 <= d -> 0 <= calcSubSeg d a b h <= 1.
Proof.
  intros d a b h Hd. unfold calcSubSeg. cbv zeta.
  destruct (Rle_dec _ 0).
  - destruct (Rlt_dec _ 0); [lra|]. destruct (Req_EM_T _ _); [lra|]. apply frac_range.
    match goal with |- 0 <= vz ?u + vz (scalevector ?n ?x) => assert (0 <= vz (scalevector n x)) by (apply nvec_nonneg; exact Hd) end.
    destruct (Rlt_dec (vz a - h) 0); cbn [vz] in *; lra.
  - destruct (Rlt_dec 0 _); [lra|]. destruct (Req_EM_T _ _); [lra|]. apply frac_range.
    match goal with |- 0 <= vz ?u + vz (scalevector ?n ?x) => assert (0 <= vz (scalevector n x)) by (apply nvec_nonneg; exact Hd) end.
    cbn [vz] in *; lra.
Qed.
Lemma sub_below : forall d a b h, vz a < h -> vz b < h -> calcSubSeg d a b h = 1.
Proof. intros. unfold calcSubSeg. cbv zeta. destruct (Rle_dec _ 0); [| lra]. destruct (Rlt_dec _ 0); [reflexivity | lra]. Qed.
Lemma sub_above : forall d a b h, h < vz a -> h < vz b -> calcSubSeg d a b h = 0.
Proof. intros. unfold calcSubSeg. cbv zeta. destruct (Rle_dec _ 0); [lra|]. destruct (Rlt_dec 0 _); [reflexivity | lra]. Qed.
Lemma sub_order : forall d a b h, vz a <> h -> vz b <> h -> calcSubSeg d a b h = calcSubSeg d b a h.
Proof.
  intros d a b h Ha Hb. unfold calcSubSeg. cbv zeta.
  destruct (Rle_dec (vz a - h) 0); destruct (Rle_dec (vz b - h) 0).
  - destruct (Rlt_dec (vz b - h) 0); [| lra]. destruct (Rlt_dec (vz a - h) 0); [| lra]. reflexivity.
  - destruct (Rlt_dec (vz b - h) 0); [lra|]. destruct (Rlt_dec 0 (vz a - h)); [lra|].
    destruct (Req_EM_T (vz a - h) (- (vz b - h))); destruct (Req_EM_T (vz b - h) (- (vz a - h))); try lra.
    destruct (Rlt_dec (vz a - h) 0); [reflexivity | lra].
  - destruct (Rlt_dec (vz a - h) 0); [lra|]. destruct (Rlt_dec 0 (vz b - h)); [lra|].
    destruct (Req_EM_T (vz a - h) (- (vz b - h))); destruct (Req_EM_T (vz b - h) (- (vz a - h))); try lra.
    destruct (Rlt_dec (vz b - h) 0); [reflexivity | lra].
  - destruct (Rlt_dec 0 (vz b - h)); [| lra]. destruct (Rlt_dec 0 (vz a - h)); [| lra]. reflexivity.
Qed.
(* no thickness: the share of the segment below the surface *)
Lemma thin_nvec : forall s, vz (scalevector (vnormalized (cross s (cross (V3 0 0 1) s))) 0) = 0.
Proof.
  intros s. set (n := cross s (cross (V3 0 0 1) s)). unfold scalevector. destruct (equalRealNos _ _) eqn:E.
  - unfold vnormalized in *. destruct (Rlt_dec 0 (dot n n)) as [C|C].
    + exfalso. assert (U : dot (vscale (/ norm n) n) (vscale (/ norm n) n) = 1).
      { replace (dot (vscale (/ norm n) n) (vscale (/ norm n) n)) with (/ norm n * / norm n * dot n n) by (unfold dot, vscale; cbn; ring).
        rewrite <- norm_sq. field. intros Z. pose proof (norm_sq n). nra. }
      rewrite U in E. apply eq0_spec in E; [| lra]. pose proof tol_small. lra.
    + assert (dot n n = 0) by (pose proof (dot_pos n); lra). destruct n as [x y z]. unfold dot in *. cbn in *. nra.
  - cbn [vscale vz]. unfold Rdiv. ring.
Qed.
Lemma sub_thin : forall a b h, vz a < h -> h < vz b -> calcSubSeg 0 a b h = (h - vz a) / (vz b - vz a).
Proof.
  intros a b h Ha Hb. unfold calcSubSeg. cbv zeta. destruct (Rle_dec _ 0); [| lra]. destruct (Rlt_dec _ 0); [lra|].
  destruct (Req_EM_T _ _) as [E|E].
  - replace 0.5 with (/ 2) by lra. assert (vz b - vz a = 2 * (h - vz a)) as -> by lra. field. lra.
  - destruct (Rlt_dec (vz a - h) 0); [| lra]. replace (0 / 2) with 0 by lra. rewrite thin_nvec. cbn [vz].
    rewrite Rabs_left by lra. f_equal; ring.
Qed.

(* any thickness: the share of the diagonal from the lowest to the highest corner *)
Lemma nvec_z : forall d s, vz (scalevector (vnormalized (cross s (cross (V3 0 0 1) s))) d) = d * (sqrt (vx s * vx s + vy s * vy s) / norm s).
Proof.
  intros d s. set (n := cross s (cross (V3 0 0 1) s)). set (H := vx s * vx s + vy s * vy s).
  assert (H0 : 0 <= H) by (unfold H; nra). assert (NZ : vz n = H) by (unfold n, H; destruct s as [x y z]; unfold cross; cbn; ring).
  assert (NN : dot n n = H * dot s s) by (unfold n, H; destruct s as [x y z]; unfold cross, dot; cbn; ring).
  assert (SS : dot s s = H + vz s * vz s) by (unfold H, dot; ring). pose proof (Rle_0_sqr (vz s)) as Z2. unfold Rsqr in Z2.
  destruct (Req_dec H 0) as [E|E].
  - rewrite E, sqrt_0. unfold vnormalized. destruct (Rlt_dec 0 (dot n n)) as [C|C]; [rewrite NN, E in C; lra|].
    assert (D : dot n n = 0) by (rewrite NN, E; ring). unfold scalevector. rewrite D. replace (equalRealNos 0 0) with true by (symmetry; apply eq0_spec; pose proof tol_pos; lra). rewrite NZ, E. unfold Rdiv. ring.
  - assert (HP : 0 < H) by lra. assert (SP : 0 < dot s s) by lra. unfold vnormalized. destruct (Rlt_dec 0 (dot n n)) as [C|C]; [|rewrite NN in C; pose proof (Rmult_lt_0_compat _ _ HP SP); lra].
    assert (NE : norm n = sqrt H * norm s) by (unfold norm; rewrite NN; apply sqrt_mult; lra).
    assert (P1 : 0 < sqrt H) by (apply sqrt_lt_R0; exact HP). assert (P2 : 0 < norm s) by (apply sqrt_lt_R0; exact SP).
    assert (U : dot (vscale (/ norm n) n) (vscale (/ norm n) n) = 1).
    { replace (dot (vscale (/ norm n) n) (vscale (/ norm n) n)) with (/ norm n * / norm n * dot n n) by (unfold dot, vscale; cbn; ring).
      rewrite <- norm_sq. field. rewrite NE. pose proof (Rmult_lt_0_compat _ _ P1 P2). lra. }
    unfold scalevector. rewrite U. replace (equalRealNos 1 0) with false by (symmetry; apply eq0_false; pose proof tol_small; lra).
    rewrite sqrt_1. cbn [vscale vz]. rewrite NZ, NE. replace H with (sqrt H * sqrt H) at 2 by (apply sqrt_sqrt; lra). field. lra.
Qed.
Lemma sub_thick : forall d a b h, 0 <= d -> vz a < h -> h < vz b -> calcSubSeg d a b h = (h - vz a + disc_rise d a b) / (vz b - vz a + 2 * disc_rise d a b).
Proof.
  intros d a b h Hd Ha Hb.
  assert (RP : 0 <= disc_rise d a b). { unfold disc_rise. cbv zeta. apply Rmult_le_pos; [lra|]. unfold Rdiv. apply Rmult_le_pos; [apply sqrt_pos|apply inv_norm_nonneg]. }
  unfold calcSubSeg. cbv zeta. destruct (Rle_dec _ 0); [| lra]. destruct (Rlt_dec _ 0); [lra|].
  destruct (Req_EM_T _ _) as [E|E].
  - replace 0.5 with (/ 2) by lra. assert (vz b - vz a = 2 * (h - vz a)) as -> by lra. field. lra.
  - destruct (Rlt_dec (vz a - h) 0); [| lra]. rewrite nvec_z. cbn [vz].
    assert (SE : vsub (V3 (vx b) (vy b) (vz b - h)) (V3 (vx a) (vy a) (vz a - h)) = vsub b a) by (apply v3eq; cbn; ring). rewrite SE.
    fold (disc_rise d a b). change (d / 2 * (sqrt (vx (vsub b a) * vx (vsub b a) + vy (vsub b a) * vy (vsub b a)) / norm (vsub b a))) with (disc_rise d a b).
    rewrite Rabs_left by lra. f_equal; ring.
Qed.
(* the fraction jumps when an end of a thick line leaves the water *)
Lemma sub_jump : forall d, 0 < d -> (forall z, z < 0 -> calcSubSeg d (V3 0 0 (-1)) (V3 1 0 z) 0 = 1) /\ exists c, c < 1 /\ forall z, 0 < z < 1 -> calcSubSeg d (V3 0 0 (-1)) (V3 1 0 z) 0 <= c.
Proof.
  intros d Hd. split; [intros z Hz; apply sub_below; cbn; lra|].
  set (r := d / 6). exists ((1 + r) / (1 + 2 * r)). assert (R0 : 0 < r) by (unfold r; lra).
  split; [apply Rmult_lt_reg_r with (1 + 2 * r); [lra|]; unfold Rdiv; rewrite Rmult_assoc, Rinv_l by lra; lra|].
  intros z Hz. rewrite sub_thick by (cbn; lra). cbn [vz]. set (q := disc_rise d (V3 0 0 (-1)) (V3 1 0 z)).
  assert (Q : r <= q).
  { unfold q, disc_rise, r. cbv zeta. cbn [vsub vx vy vz]. replace ((1 - 0) * (1 - 0) + (0 - 0) * (0 - 0)) with 1 by ring. rewrite sqrt_1.
    set (n := norm _). assert (N : 0 < n <= 3).
    { unfold n, norm, dot, vsub. cbn [vx vy vz]. split; [apply sqrt_lt_R0; nra|]. replace 3 with (sqrt (3 * 3)) by (apply sqrt_square; lra). apply sqrt_le_1_alt. nra. }
    assert (/ 3 <= 1 / n). { unfold Rdiv. rewrite Rmult_1_l. apply Rinv_le_contravar; lra. } nra. }
  apply Rmult_le_reg_r with (1 + 2 * r); [lra|]. unfold Rdiv at 2. rewrite Rmult_assoc, Rinv_l, Rmult_1_r by lra.
  apply Rmult_le_reg_r with (z - -1 + 2 * q); [lra|]. unfold Rdiv. replace ((0 - -1 + q) * / (z - -1 + 2 * q) * (1 + 2 * r) * (z - -1 + 2 * q)) with ((0 - -1 + q) * (1 + 2 * r)) by (field; lra). nra.
Qed.

(* ----- drag ----- *)
Lemma cauchy : forall a b, dot a b * dot a b <= dot a a * dot b b.
Proof.
  intros [a1 a2 a3] [b1 b2 b3]. unfold dot. cbn.
  pose proof (Rle_0_sqr (a1 * b2 - a2 * b1)). pose proof (Rle_0_sqr (a1 * b3 - a3 * b1)). pose proof (Rle_0_sqr (a2 * b3 - a3 * b2)).
  unfold Rsqr in *. nra.
Qed.
Lemma across_pow : forall q v, dot q q <= 1 -> 0 <= dot (across q v) v.
Proof.
  intros q v H. assert (E : dot (across q v) v = dot v v - dot v q * dot v q)
    by (unfold across, along; destruct q as [a b c], v as [x y z]; unfold dot, vsub, vscale; cbn [vx vy vz]; ring).
  rewrite E. pose proof (cauchy v q). pose proof (dot_pos v). pose proof (dot_pos q). nra.
Qed.
Lemma along_pow : forall q v, 0 <= dot (along q v) v.
Proof.
  intros q v. assert (E : dot (along q v) v = dot v q * dot v q)
    by (unfold along; destruct q as [a b c], v as [x y z]; unfold dot, vscale; cbn [vx vy vz]; ring).
  rewrite E. apply Rle_0_sqr.
Qed.
Lemma lq_le1 : forall L i, dot (lqA L) (lqA L) <= 1 -> dot (lqB L) (lqB L) <= 1 -> dot (lq L i) (lq L i) <= 1.
Proof.
  intros L i HA HB. unfold lq. cbv zeta.
  destruct (Nat.eqb i 0); [destruct (orb _ _); [apply unit_le1 | exact HA]|].
  destruct (Nat.eqb i (lN L)); [destruct (orb _ _); [apply unit_le1 | exact HB] | apply unit_le1].
Qed.
Lemma lF_nonneg : forall L k i, 0 <= ldia L -> 0 <= lF L k i <= 1.
Proof. intros. apply sub_range. assumption. Qed.
Lemma drag_dissipates : forall L e k i, (0 < lN L)%nat -> (i <= lN L)%nat -> sensible L -> 0 <= rho_w e ->
  dot (vadd (lDp L e k i) (lDq L e k i)) (vsub (lrd L i) (wU k i)) <= 0.
Proof.
  intros L e k i HN Hi [H1 [H2 [H3 [H4 [H5 [H6 [H7 [H8 [H9 H10]]]]]]]]] Hw.
  unfold lDp, lDq. cbv zeta.
  set (v := vsub (wU k i) (lrd L i)). replace (vsub (lrd L i) (wU k i)) with (vscale (-1) v) by (unfold v; generalize (wU k i) (lrd L i); vring).
  assert (A : 0 <= at_node L (fun j => lF L k j * ll L j) i).
  { apply at_node_nonneg; try assumption. intros j Hj. pose proof (lF_nonneg L k j ltac:(lra)). pose proof (H8 j Hj). nra. }
  set (a := at_node L (fun j => lF L k j * ll L j) i) in *.
  pose proof (across_pow (lq L i) v (lq_le1 L i H9 H10)) as P1. pose proof (along_pow (lq L i) v) as P2.
  set (vp := across (lq L i) v) in *. set (vq := along (lq L i) v) in *.
  pose proof (norm_pos vp). pose proof (norm_pos vq). pose proof PI_RGT_0.
  set (c1 := 0.25 * norm vp * rho_w e * lCdn L * ldia L * a). set (c2 := 0.25 * norm vq * rho_w e * lCdt L * PI * ldia L * a).
  assert (C1 : 0 <= c1) by (unfold c1; do 5 (apply Rmult_le_pos; [| lra]); lra).
  assert (C2 : 0 <= c2) by (unfold c2; do 6 (apply Rmult_le_pos; [| lra]); lra).
  assert (dot (vadd (vscale c1 vp) (vscale c2 vq)) (vscale (-1) v) = - (c1 * dot vp v + c2 * dot vq v)) as ->
    by (generalize vp vq v c1 c2; vring).
  pose proof (Rmult_le_pos _ _ C1 P1). pose proof (Rmult_le_pos _ _ C2 P2). lra.
Qed.

(* ----- sea bed ----- *)
Lemma bottom_off : forall e A wd r rd, wd <= vz r -> bottom e A wd r rd = vzero.
Proof. intros. unfold bottom. destruct (Rlt_dec _ _); [lra | reflexivity]. Qed.
Lemma bottom_shape : forall e A wd r rd, env_ok e -> 0 <= A ->
  exists s, 0 <= s /\ vx (bottom e A wd r rd) = - s * vx rd /\ vy (bottom e A wd r rd) = - s * vy rd
    /\ s * sqrt (vx rd * vx rd + vy rd * vy rd) <= Rmax 1 (statDyn e) * (fric e * Rabs (vz (bottom e A wd r rd))).
Proof.
  intros e A wd r rd [H1 [H2 [H3 [H4 H5]]]] HA. unfold bottom. destruct (Rlt_dec _ _).
  2:{ exists 0. cbn. rewrite Rabs_R0. repeat split; lra. }
  cbv zeta. set (Bz := ((wd - vz r) * kb e - vz rd * cb e) * 0.5 * A). set (bv := sqrt (vx rd * vx rd + vy rd * vy rd)).
  assert (Hb : 0 <= bv) by apply sqrt_pos. pose proof (Rabs_pos Bz).
  pose proof (Rmax_l 1 (statDyn e)). pose proof (Rmax_r 1 (statDyn e)).
  assert (HP : 0 <= fric e * Rabs Bz) by nra.
  destruct (Req_EM_T bv 0) as [E|E].
  - exists 0. cbn [vx vy vz]. assert (Z : vx rd * vx rd + vy rd * vy rd = 0).
    { unfold bv in E. apply sqrt_eq_0 in E; nra. }
    repeat split; try nra.
  - set (ff := if Rlt_dec (statDyn e * (Rabs Bz * fric e)) (bv * fric e * fricDamp e) then Rabs Bz * fric e else bv * fric e * fricDamp e).
    assert (F0 : 0 <= ff).
    { unfold ff. destruct (Rlt_dec _ _); [nra|]. apply Rmult_le_pos; [nra | lra]. }
    exists (ff / bv). cbn [vx vy vz]. fold bv. split; [apply Rmult_le_pos; [exact F0 | apply Rlt_le, Rinv_0_lt_compat; lra]|].
    split; [unfold Rdiv; ring|]. split; [unfold Rdiv; ring|].
    replace (ff / bv * bv) with ff by (field; lra).
    unfold ff. destruct (Rlt_dec _ _); [nra|]. assert (bv * fric e * fricDamp e <= statDyn e * (Rabs Bz * fric e)) by lra. nra.
Qed.
Lemma friction_bound : forall e A wd r rd, env_ok e -> 0 <= A ->
  let B := bottom e A wd r rd in
  sqrt (vx B * vx B + vy B * vy B) <= Rmax 1 (statDyn e) * (fric e * Rabs (vz B)) /\ vx B * vx rd + vy B * vy rd <= 0.
Proof.
  intros e A wd r rd HE HA B. destruct (bottom_shape e A wd r rd HE HA) as [s [Hs [HX [HY HB]]]]. fold B in HX, HY, HB.
  rewrite HX, HY. split.
  - replace (- s * vx rd * (- s * vx rd) + - s * vy rd * (- s * vy rd)) with ((s * s) * (vx rd * vx rd + vy rd * vy rd)) by ring.
    rewrite sqrt_mult_alt by nra. rewrite sqrt_square by exact Hs. exact HB.
  - nra.
Qed.
Lemma bottom_up : forall e A wd r rd, env_ok e -> 0 <= A -> vz rd <= 0 -> 0 <= vz (bottom e A wd r rd).
Proof.
  intros e A wd r rd [H1 [H2 _]] HA Hv. unfold bottom. destruct (Rlt_dec _ _); [| cbn; lra]. cbv zeta.
  assert (0 <= ((wd - vz r) * kb e - vz rd * cb e) * 0.5 * A).
  { apply Rmult_le_pos; [| exact HA]. apply Rmult_le_pos; [nra | lra]. }
  destruct (Req_EM_T _ 0); cbn [vz]; assumption.
Qed.

(* ----- mass matrix ----- *)
Lemma minv_right : forall m f, mdet m <> 0 -> mmulv m (mmulv (minv m) f) = f.
Proof.
  intros m f H. unfold minv. assert (E : mmulv m (mmulv (mscale (/ mdet m) (madj m)) f) = vscale (/ mdet m * mdet m) f).
  { set (k := / mdet m). clearbody k. destruct m as [[a b c] [d e g] [h i j]], f as [x y z].
    cbv beta iota zeta delta [mmulv mscale madj mtr mdet cross dot vscale mr0 mr1 mr2 vx vy vz]. apply v3eq; cbn [vx vy vz]; ring. }
  rewrite E, Rinv_l by exact H. vring.
Qed.
Lemma lM_form : forall L e k i v, dot v (mmulv (lM L e k i) v)
  = lmi L i * dot v v + rho_w e * lvi L k i * (lCan L * (dot v v - dot v (lq L i) * dot v (lq L i)) + lCat L * (dot v (lq L i) * dot v (lq L i))).
Proof.
  intros. unfold lM. generalize (lmi L i) (rho_w e * lvi L k i) (lq L i). intros a b q. destruct q as [q1 q2 q3], v as [v1 v2 v3].
  cbv beta iota zeta delta [mmulv madd mscale mid msub outer dot vscale vadd mr0 mr1 mr2 vx vy vz]. ring.
Qed.
Lemma lM_det : forall L e k i,
  let a := lmi L i + rho_w e * lvi L k i * lCan L in
  mdet (lM L e k i) = a * a * (a + rho_w e * lvi L k i * (lCat L - lCan L) * dot (lq L i) (lq L i)).
Proof.
  intros. unfold a, lM. generalize (lmi L i) (rho_w e * lvi L k i) (lq L i). intros m b q. destruct q as [q1 q2 q3].
  cbv beta iota zeta delta [mdet cross madd mscale mid msub outer dot vscale vadd mr0 mr1 mr2 vx vy vz]. ring.
Qed.
Lemma mass_symmetric : forall L e k i, symmetric3 (lM L e k i).
Proof.
  intros. unfold symmetric3, lM. generalize (lmi L i) (rho_w e * lvi L k i) (lq L i). intros m b q. destruct q as [q1 q2 q3].
  cbv beta iota zeta delta [mtr madd mscale mid msub outer vscale vadd mr0 mr1 mr2 vx vy vz]. apply m3eq; cbn [mr0 mr1 mr2]; apply v3eq; cbn [vx vy vz]; ring.
Qed.
Lemma lmi_pos : forall L i, (0 < lN L)%nat -> (i <= lN L)%nat -> sensible L -> 0 < lmi L i.
Proof.
  intros L i HN Hi [H1 [H2 [H3 [H4 [H5 [H6 [H7 [H8 _]]]]]]]]. unfold lmi. pose proof PI_RGT_0.
  assert (0 < at_node L (ll L) i).
  { unfold at_node. destruct (Nat.eqb_spec i 0); [apply H8; lia|]. destruct (Nat.eqb_spec i (lN L)); [apply H8; lia|].
    pose proof (H8 i ltac:(lia)). pose proof (H8 (i - 1)%nat ltac:(lia)). lra. }
  assert (0 < ldia L * ldia L * lrho L) by (apply Rmult_lt_0_compat; nra). apply Rmult_lt_0_compat; [lra | apply Rmult_lt_0_compat; assumption].
Qed.
Lemma lvi_nonneg : forall L k i, (0 < lN L)%nat -> (i <= lN L)%nat -> sensible L -> 0 <= lvi L k i.
Proof.
  intros L k i HN Hi [H1 [H2 [H3 [H4 [H5 [H6 [H7 [H8 _]]]]]]]]. unfold lvi.
  assert (0 <= at_node L (fun j => lF L k j * lV L j) i); [| lra].
  apply at_node_nonneg; try assumption. intros j Hj. pose proof (lF_nonneg L k j ltac:(lra)). pose proof (H8 j Hj). nra.
Qed.
Lemma mass_posdef : forall L e k i v, (0 < lN L)%nat -> (i <= lN L)%nat -> sensible L -> 0 <= rho_w e ->
  lmi L i * dot v v <= dot v (mmulv (lM L e k i) v) /\ 0 < lmi L i.
Proof.
  intros L e k i v HN Hi HS Hw. rewrite lM_form. pose proof (lmi_pos L i HN Hi HS) as P. pose proof (lvi_nonneg L k i HN Hi HS) as V.
  split; [| exact P]. destruct HS as [H1 [H2 [H3 [H4 [H5 [H6 [H7 [H8 [H9 H10]]]]]]]]].
  pose proof (cauchy v (lq L i)). pose proof (lq_le1 L i H9 H10). pose proof (dot_pos v). pose proof (dot_pos (lq L i)).
  assert (Q : dot v (lq L i) * dot v (lq L i) <= dot v v) by nra. pose proof (Rle_0_sqr (dot v (lq L i))). unfold Rsqr in *.
  assert (0 <= rho_w e * lvi L k i * (lCan L * (dot v v - dot v (lq L i) * dot v (lq L i)) + lCat L * (dot v (lq L i) * dot v (lq L i)))); [| lra].
  apply Rmult_le_pos; [nra|]. apply Rplus_le_le_0_compat; apply Rmult_le_pos; lra.
Qed.
Lemma newton : forall L e k T Td Bs i, (0 < lN L)%nat -> (i <= lN L)%nat -> sensible L -> 0 <= rho_w e ->
  mmulv (lM L e k i) (lacc L e k T Td Bs i) = lFnet L e k T Td Bs i.
Proof.
  intros L e k T Td Bs i HN Hi HS Hw. unfold lacc. apply minv_right. rewrite lM_det.
  pose proof (lmi_pos L i HN Hi HS) as P. pose proof (lvi_nonneg L k i HN Hi HS) as V.
  destruct HS as [H1 [H2 [H3 [H4 [H5 [H6 [H7 [H8 [H9 H10]]]]]]]]]. pose proof (lq_le1 L i H9 H10). pose proof (dot_pos (lq L i)).
  assert (W : 0 <= rho_w e * lvi L k i) by nra.
  set (w := rho_w e * lvi L k i) in *. set (d := dot (lq L i) (lq L i)) in *.
  assert (X1 : 0 < lmi L i + w * lCan L) by nra.
  assert (X2 : 0 < lmi L i + w * lCan L + w * (lCat L - lCan L) * d).
  { assert (0 <= w * (lCan L * (1 - d) + lCat L * d)) by (apply Rmult_le_pos; [exact W | nra]). nra. }
  apply Rgt_not_eq. apply Rmult_lt_0_compat; [nra | exact X2].
Qed.

(* ----- queries ----- *)
Lemma max_loop_spec : forall L T Td n, (n <= lN L)%nat -> exists m, max_loop L T Td n = Ok m /\ 0 <= m /\
  (forall i, (i < n)%nat -> exists t, getNodeTen L T Td i = Ok t /\ norm t <= m) /\
  (m = 0 \/ exists i t, (i < n)%nat /\ getNodeTen L T Td i = Ok t /\ m = norm t).
Proof.
  induction n as [|n IH]; intros Hn.
  - exists 0. cbn. repeat split; [lra | intros; lia | auto].
  - destruct (IH ltac:(lia)) as [m [E [H0 [H1 H2]]]]. cbn [max_loop]. rewrite E. cbn [obind].
    assert (G : exists t, getNodeTen L T Td n = Ok t).
    { unfold getNodeTen. destruct (Nat.ltb_spec (lN L) n); [lia|]. eauto. }
    destruct G as [t G]. rewrite G. cbn [obind].
    exists (if Rlt_dec m (norm t) then norm t else m). split; [reflexivity|].
    destruct (Rlt_dec m (norm t)).
    + split; [lra|]. split.
      * intros i Hi. destruct (Nat.eq_dec i n) as [->|]; [exists t; split; [exact G | lra]|].
        destruct (H1 i ltac:(lia)) as [t' [Et Ht]]. exists t'. split; [exact Et | lra].
      * right. exists n, t. repeat split; auto.
    + split; [lra|]. split.
      * intros i Hi. destruct (Nat.eq_dec i n) as [->|]; [exists t; split; [exact G | lra]|].
        destruct (H1 i ltac:(lia)) as [t' [Et Ht]]. exists t'. split; [exact Et | lra].
      * destruct H2 as [->|[i [t' [Hi [Et Em]]]]]; [left; reflexivity|]. right. exists i, t'. repeat split; auto.
Qed.
Lemma fairten : forall L T Td, (0 < lN L)%nat -> getFairTen L T Td = Ok (norm (vadd (T (lN L - 1)%nat) (Td (lN L - 1)%nat))).
Proof.
  intros L T Td HN. unfold getFairTen, getNodeTen. rewrite Nat.ltb_irrefl.
  destruct (Nat.eqb_spec (lN L) 0); [lia|]. rewrite Nat.eqb_refl. reflexivity.
Qed.
Lemma set_get_EA : forall L EA, larea L <> 0 -> getConstantEA (setConstantEA L EA) = EA.
Proof. intros. unfold getConstantEA, setConstantEA. cbn. field. assumption. Qed.

(* ----- a linear line always has forces ----- *)
Lemma all_some_true : forall f n, (forall i, (i < n)%nat -> f i <> None) -> all_some f n = true.
Proof.
  induction n; intros H; cbn; [reflexivity|]. rewrite IHn by (intros; apply H; lia).
  pose proof (H n ltac:(lia)). destruct (f n); [reflexivity | congruence].
Qed.
Lemma linear_bend1 : forall L i Bs, lbx L = [] -> bend1 L i Bs <> None.
Proof.
  intros L i Bs H. unfold bend1, lEIat. rewrite H. cbn [length Nat.eqb negb obnd]. cbv zeta.
  destruct (equalRealNos _ _); [discriminate|]. destruct (Nat.eqb i 0); [destruct (lcantA L); discriminate|].
  destruct (Nat.eqb i (lN L)); [destruct (lcantB L); discriminate | discriminate].
Qed.
Lemma linear_bend : forall L n, lbx L = [] -> bend L n <> None.
Proof.
  induction n; intros H; cbn [bend]; [discriminate|]. specialize (IHn H). destruct (bend L n); [| congruence]. cbn [obnd].
  apply linear_bend1. exact H.
Qed.
Lemma linear_total : forall L e k, lsx L = [] -> ldx L = [] -> lbx L = [] -> exists F, line_forces L e k = Some F.
Proof.
  intros L e k H1 H2 H3. unfold line_forces.
  rewrite (all_some_true (lT L)) by (intros i _; unfold lT; rewrite H1; cbn; discriminate).
  rewrite (all_some_true (lTd L)) by (intros i _; unfold lTd; rewrite H2; cbn; discriminate).
  cbn [andb]. assert (H : lBs L <> None).
  { unfold lBs. destruct (lisEI L); [apply linear_bend; exact H3 | discriminate]. }
  destruct (lBs L); [| congruence]. eexists. reflexivity.
Qed.
(* a sea bed that pulls *)
Lemma bed_pulls : exists e A wd r rd, env_ok e /\ 0 < A /\ vz (bottom e A wd r rd) < 0.
Proof.
  exists (Envc 1025 9.8 100 100 0 0 1), 1, 0, (V3 0 0 (-1)), (V3 0 0 2).
  split; [unfold env_ok; cbn; lra|]. split; [lra|]. unfold bottom. cbn [vz vx vy kb cb fric fricDamp statDyn].
  destruct (Rlt_dec (-1) 0); [| lra]. cbv zeta. destruct (Req_EM_T _ 0); cbn [vz]; lra.
Qed.
(* a vertical segment standing on the surface *)
Lemma nvec_vertical : forall z x, vz (scalevector (vnormalized (cross (V3 0 0 z) (cross (V3 0 0 1) (V3 0 0 z)))) x) = 0.
Proof.
  intros z x. assert (E : cross (V3 0 0 z) (cross (V3 0 0 1) (V3 0 0 z)) = vzero) by (unfold cross, vzero; cbn [vx vy vz]; apply v3eq; cbn [vx vy vz]; ring).
  rewrite E. unfold vnormalized. assert (Z : dot vzero vzero = 0) by (unfold dot, vzero; cbn [vx vy vz]; ring). rewrite Z.
  destruct (Rlt_dec 0 0); [lra|]. unfold scalevector. rewrite Z. destruct (equalRealNos 0 0); cbn [vscale vz vzero]; ring.
Qed.
Lemma surface_standing : forall d z h, 0 < z -> calcSubSeg d (V3 0 0 h) (V3 0 0 (h + z)) h = 1 /\ calcSubSeg d (V3 0 0 (h + z)) (V3 0 0 h) h = 0.
Proof.
  intros d z h Hz. unfold calcSubSeg. cbv zeta. cbn [vz vx vy]. split.
  - destruct (Rle_dec (h - h) 0); [| lra]. destruct (Rlt_dec (h + z - h) 0); [lra|]. destruct (Req_EM_T _ _); [lra|].
    destruct (Rlt_dec (h - h) 0); [lra|]. cbn [vz vx vy].
    replace (vsub (V3 0 0 (h - h)) (V3 0 0 (h + z - h))) with (V3 0 0 (- z)) by (apply v3eq; cbn; ring).
    rewrite nvec_vertical. replace (h + z - h - 0) with z by ring. replace (h - h + 0) with 0 by ring.
    rewrite Rabs_right by lra. field. lra.
  - destruct (Rle_dec (h + z - h) 0); [lra|]. destruct (Rlt_dec 0 (h - h)); [lra|]. destruct (Req_EM_T _ _); [lra|].
    replace (vsub (V3 0 0 (h + z - h)) (V3 0 0 (h - h))) with (V3 0 0 z) by (apply v3eq; cbn; ring).
    rewrite nvec_vertical. replace (h - h - 0) with 0 by ring. rewrite Rabs_R0. unfold Rdiv. ring.
Qed.

(* ----- a demonstration line: two segments of length 1, stretched to 2 and 1 ----- *)
Definition demo : line :=
  Line 2 0.1 (PI / 4 * 0.1 * 0.1) 1000 1000 0 10 1 0 1.2 0.1 [] [] [] [] [] [] false (fun _ => 0)
    (fun i => match i with O => V3 0 0 (-10) | S O => V3 2 0 (-10) | _ => V3 2 1 (-10) end)
    (fun i => V3 (INR i) 0 0) (fun _ => 1) (fun _ => PI / 4 * 0.1 * 0.1) false false (V3 1 0 0) (V3 1 0 0).
Definition demo_env : envc := Envc 1025 9.8 100 10 0.5 200 1.
Definition still : wkin := Wkin (fun _ => 0) (fun _ => vzero) (fun _ => vzero) (fun _ => 0) (fun _ _ => -20).
Lemma demo_forces : exists F, line_forces demo demo_env still = Some F.
Proof. apply linear_total; reflexivity. Qed.
Lemma demo_sensible : sensible demo.
Proof. pose proof PI_RGT_0. unfold sensible, demo, dot. cbn. repeat split; intros; try lra; try nra. Qed.
Lemma norm_x : forall x, 0 <= x -> norm (V3 x 0 0) = x.
Proof. intros x H. unfold norm, dot. cbn [vx vy vz]. replace (x * x + 0 * 0 + 0 * 0) with (x * x) by ring. apply sqrt_square. exact H. Qed.
Lemma demo_seg0 : norm (seg demo 0) = 2.
Proof. unfold seg. cbn. replace (vsub _ _) with (V3 2 0 0) by (apply v3eq; cbn; ring). apply norm_x. lra. Qed.
Lemma demo_seg1 : norm (seg demo 1) = 1.
Proof. unfold seg. cbn. unfold norm, dot, vsub. cbn [vx vy vz]. replace (_ + _) with 1 by ring. apply sqrt_1. Qed.
Lemma demo_long : forall i, (i < lN demo)%nat -> tol < ll demo i /\ tol < norm (seg demo i).
Proof.
  intros i Hi. pose proof tol_small. cbn in Hi. destruct i as [|[|i]]; [rewrite demo_seg0 | rewrite demo_seg1 | lia]; cbn; lra.
Qed.
