(** Proofs about atan2, Euler angles and quaternions (MMat.v) *)
From Coq Require Import Reals List Lra Lia Psatz.
From Verif Require Import MErr MVec MStateOps MMat SMat PMat.
Import ListNotations.
Open Scope R_scope.

Lemma hypot_nonneg : forall x y, 0 <= hypot x y.
Proof. intros. apply sqrt_pos. Qed.
Lemma hypot_sq : forall x y, hypot x y * hypot x y = x * x + y * y.
Proof. intros. unfold hypot. apply sqrt_sqrt. nra. Qed.
Lemma hypot_factor : forall x y, x <> 0 -> hypot x y = Rabs x * sqrt (1 + Rsqr (y / x)).
Proof.
  intros x y H. unfold hypot.
  replace (x * x + y * y) with (Rsqr x * (1 + Rsqr (y / x))) by (unfold Rsqr; field; exact H).
  rewrite sqrt_mult_alt by apply Rle_0_sqr. rewrite sqrt_Rsqr_abs. reflexivity.
Qed.
Lemma sq1_pos : forall t, 0 < sqrt (1 + Rsqr t).
Proof. intros. apply sqrt_lt_R0. pose proof (Rle_0_sqr t). lra. Qed.

Lemma atan2_cos : forall y x, hypot x y * cos (atan2 y x) = x.
Proof.
  intros. unfold atan2. destruct (Rlt_dec 0 x) as [H|H].
  - rewrite hypot_factor, cos_atan, Rabs_right by lra. pose proof (sq1_pos (y / x)). unfold Rdiv in *. field. lra.
  - destruct (Rlt_dec x 0) as [H'|H'].
    + assert (E : hypot x y * - cos (atan (y / x)) = x).
      { rewrite hypot_factor, cos_atan, Rabs_left by lra. pose proof (sq1_pos (y / x)). unfold Rdiv in *. field. lra. }
      destruct (Rle_dec 0 y).
      * rewrite neg_cos. exact E.
      * replace (cos (atan (y / x) - PI)) with (- cos (atan (y / x))); [exact E|].
        unfold Rminus. rewrite cos_plus, cos_neg, sin_neg, cos_PI, sin_PI. ring.
    + assert (x = 0) by lra. subst x. destruct (Rlt_dec 0 y).
      * rewrite cos_PI2. ring.
      * destruct (Rlt_dec y 0).
        -- rewrite cos_neg, cos_PI2. ring.
        -- assert (y = 0) by lra. subst. rewrite cos_0. unfold hypot.
           replace (0 * 0 + 0 * 0) with 0 by ring. rewrite sqrt_0. ring.
Qed.
Lemma hypot_0 : forall y, hypot 0 y = Rabs y.
Proof. intros. unfold hypot. replace (0 * 0 + y * y) with (Rsqr y) by (unfold Rsqr; ring). apply sqrt_Rsqr_abs. Qed.
Lemma atan2_sin : forall y x, hypot x y * sin (atan2 y x) = y.
Proof.
  intros. unfold atan2. destruct (Rlt_dec 0 x) as [H|H].
  - rewrite hypot_factor, sin_atan, Rabs_right by lra. pose proof (sq1_pos (y / x)).
    replace (x * sqrt (1 + (y / x)²) * (y / x / sqrt (1 + (y / x)²))) with (x * (y / x)) by (field; split; lra).
    field; lra.
  - destruct (Rlt_dec x 0) as [H'|H'].
    + assert (E : hypot x y * - sin (atan (y / x)) = y).
      { rewrite hypot_factor, sin_atan, Rabs_left by lra. pose proof (sq1_pos (y / x)).
        replace (- x * sqrt (1 + (y / x)²) * - (y / x / sqrt (1 + (y / x)²))) with (x * (y / x)) by (field; split; lra).
        field; lra. }
      destruct (Rle_dec 0 y).
      * rewrite neg_sin. exact E.
      * replace (sin (atan (y / x) - PI)) with (- sin (atan (y / x))); [exact E|].
        unfold Rminus. rewrite sin_plus, cos_neg, sin_neg, cos_PI, sin_PI. ring.
    + assert (x = 0) by lra. subst x. rewrite hypot_0. destruct (Rlt_dec 0 y).
      * rewrite sin_PI2, Rabs_right by lra. ring.
      * destruct (Rlt_dec y 0).
        -- rewrite sin_neg, sin_PI2, Rabs_left by lra. ring.
        -- assert (y = 0) by lra. subst. rewrite Rabs_R0. ring.
Qed.
Lemma atan2_range : forall y x, - PI < atan2 y x <= PI.
Proof.
  intros. pose proof PI_RGT_0. unfold atan2. pose proof (atan_bound (y / x)).
  destruct (Rlt_dec 0 x) as [H1|H1]; [lra|].
  destruct (Rlt_dec x 0) as [H2|H2].
  - destruct (Rle_dec 0 y) as [H3|H3].
    + assert (y / x <= 0). { unfold Rdiv. pose proof (Rinv_lt_0_compat x H2). nra. }
      assert (atan (y / x) <= 0). { destruct H4 as [H4|H4]. apply atan_increasing in H4. rewrite atan_0 in H4. lra. rewrite H4, atan_0. lra. }
      lra.
    + assert (0 < y / x). { unfold Rdiv. pose proof (Rinv_lt_0_compat x H2). nra. }
      apply atan_increasing in H4. rewrite atan_0 in H4. lra.
  - destruct (Rlt_dec 0 y); [lra|]. destruct (Rlt_dec y 0); lra.
Qed.
Lemma atan2_half : forall y x, 0 <= x -> - (PI / 2) <= atan2 y x <= PI / 2.
Proof.
  intros. pose proof PI_RGT_0. unfold atan2. pose proof (atan_bound (y / x)).
  destruct (Rlt_dec 0 x); [lra|]. destruct (Rlt_dec x 0); [lra|].
  destruct (Rlt_dec 0 y); [lra|]. destruct (Rlt_dec y 0); lra.
Qed.
Lemma atan2_nonneg : forall y x, 0 <= y -> 0 <= atan2 y x <= PI.
Proof.
  intros y x Hy. split; [| apply atan2_range].
  destruct (Rle_dec 0 (atan2 y x)) as [H|H]; [exact H|]. exfalso.
  assert (Hr := atan2_range y x). assert (Hs := atan2_sin y x).
  assert (sin (atan2 y x) < 0). { apply sin_lt_0_var; lra. }
  assert (Hh := hypot_nonneg x y). destruct Hh as [Hh|Hh].
  - nra.
  - assert (x * x + y * y = 0) by (rewrite <- hypot_sq, <- Hh; ring).
    assert (x = 0) by nra. assert (y = 0) by nra. subst.
    unfold atan2 in H. destruct (Rlt_dec 0 0); [lra|]. destruct (Rlt_dec 0 0); lra.
Qed.

(* angles are determined by their sine and cosine *)
Lemma angle_unique : forall a b, sin a = sin b -> cos a = cos b -> - PI < a - b < PI -> a = b.
Proof.
  intros a b Hs Hc Hr.
  assert (Hcos : cos (a - b) = 1).
  { rewrite cos_minus. rewrite Hs, Hc. pose proof (sin2_cos2 b). unfold Rsqr in *. lra. }
  assert (sin (a - b) = 0).
  { rewrite sin_minus. rewrite Hs, Hc. ring. }
  destruct (Req_dec (a - b) 0) as [E|E]; [lra|]. exfalso.
  destruct (Rlt_dec 0 (a - b)).
  - pose proof (sin_gt_0 (a - b)). lra.
  - pose proof (sin_lt_0_var (a - b)). lra.
Qed.
Lemma angle_unique_wide : forall a b, sin a = sin b -> cos a = cos b -> - (2 * PI) < a - b < 2 * PI -> a = b.
Proof.
  intros a b Hs Hc Hr. pose proof PI_RGT_0 as HPI.
  assert (Hcos : cos (a - b) = 1).
  { rewrite cos_minus. rewrite Hs, Hc. pose proof (sin2_cos2 b). unfold Rsqr in *. lra. }
  assert (Hsin : sin ((a - b) / 2) = 0).
  { pose proof (cos_2a_sin ((a - b) / 2)) as H. replace (2 * ((a - b) / 2)) with (a - b) in H by field.
    rewrite Hcos in H. nra. }
  destruct (Req_dec (a - b) 0) as [E|E]; [lra|]. exfalso.
  destruct (Rlt_dec 0 (a - b)).
  - pose proof (sin_gt_0 ((a - b) / 2)). lra.
  - pose proof (sin_lt_0_var ((a - b) / 2)). lra.
Qed.

(* ----- rotation matrices ----- *)
Lemma sc1 : forall a, sin a * sin a + cos a * cos a = 1.
Proof. intros. pose proof (sin2_cos2 a). unfold Rsqr in *. lra. Qed.
Ltac exr := cbv beta iota zeta delta [RotX RotY RotZ RotXYZ mmul mmulv mtr dot mid vx vy vz mr0 mr1 mr2] in *.
Ltac mat9 := split_mat; cbn [vx vy vz mr0 mr1 mr2].
Lemma RotX_orth : forall a, orthogonal (RotX a).
Proof. intros. pose proof (sc1 a). split; exr; mat9; nra. Qed.
Lemma RotY_orth : forall a, orthogonal (RotY a).
Proof. intros. pose proof (sc1 a). split; exr; mat9; nra. Qed.
Lemma RotZ_orth : forall a, orthogonal (RotZ a).
Proof. intros. pose proof (sc1 a). split; exr; mat9; nra. Qed.
Lemma orth_mul : forall P Q, orthogonal P -> orthogonal Q -> orthogonal (mmul P Q).
Proof.
  intros P Q [A B] [C D]. split; rewrite mtr_mmul.
  - rewrite mmul_assoc, <- (mmul_assoc (mtr P)), A, mmul_id_l. exact C.
  - rewrite mmul_assoc, <- (mmul_assoc Q), D, mmul_id_l. exact B.
Qed.
Lemma RotXYZ_orth : forall a, orthogonal (RotXYZ a).
Proof. intros. unfold RotXYZ. auto using orth_mul, RotX_orth, RotY_orth, RotZ_orth. Qed.

(* ----- quaternions ----- *)
Lemma qrot_alt : forall q, qnorm2 q = 1 ->
  qrot q = M3 (V3 (qw q * qw q + qx q * qx q - qy q * qy q - qz q * qz q) (2 * (qx q * qy q - qw q * qz q)) (2 * (qx q * qz q + qw q * qy q)))
              (V3 (2 * (qx q * qy q + qw q * qz q)) (qw q * qw q - qx q * qx q + qy q * qy q - qz q * qz q) (2 * (qy q * qz q - qw q * qx q)))
              (V3 (2 * (qx q * qz q - qw q * qy q)) (2 * (qy q * qz q + qw q * qx q)) (qw q * qw q - qx q * qx q - qy q * qy q + qz q * qz q)).
Proof.
  intros [w x y z] H. unfold qnorm2, qrot in *. cbn in *. split_mat; cbn; nra.
Qed.
Lemma qnorm2_mul : forall a b, qnorm2 (qmul a b) = qnorm2 a * qnorm2 b.
Proof. intros [] []. unfold qnorm2, qmul. cbn. ring. Qed.
Lemma qrot_mul : forall a b, qnorm2 a = 1 -> qnorm2 b = 1 -> qrot (qmul a b) = mmul (qrot a) (qrot b).
Proof.
  intros a b Ha Hb. rewrite !qrot_alt; try assumption; [| rewrite qnorm2_mul, Ha, Hb; ring].
  destruct a as [aw ax ay az], b as [bw bx by_ bz]. unfold qmul. cbn [qw qx qy qz]. exr. split_mat; cbn [vx vy vz mr0 mr1 mr2]; ring.
Qed.
Lemma qrot_X : forall a, qrot (Q4 (cos (a / 2)) (sin (a / 2)) 0 0) = RotX a.
Proof.
  intros. set (h := a / 2). replace a with (2 * h) by (unfold h; field).
  unfold RotX. rewrite sin_2a. pose proof (cos_2a_sin h). pose proof (cos_2a_cos h). pose proof (sc1 h).
  unfold qrot. cbn [qw qx qy qz]. mat9; lra.
Qed.
Lemma qrot_Y : forall a, qrot (Q4 (cos (a / 2)) 0 (sin (a / 2)) 0) = RotY a.
Proof.
  intros. set (h := a / 2). replace a with (2 * h) by (unfold h; field).
  unfold RotY. rewrite sin_2a. pose proof (cos_2a_sin h). pose proof (cos_2a_cos h). pose proof (sc1 h).
  unfold qrot. cbn [qw qx qy qz]. mat9; lra.
Qed.
Lemma qrot_Z : forall a, qrot (Q4 (cos (a / 2)) 0 0 (sin (a / 2))) = RotZ a.
Proof.
  intros. set (h := a / 2). replace a with (2 * h) by (unfold h; field).
  unfold RotZ. rewrite sin_2a. pose proof (cos_2a_sin h). pose proof (cos_2a_cos h). pose proof (sc1 h).
  unfold qrot. cbn [qw qx qy qz]. mat9; lra.
Qed.
Lemma half_unit : forall h, qnorm2 (Q4 (cos h) (sin h) 0 0) = 1 /\ qnorm2 (Q4 (cos h) 0 (sin h) 0) = 1
  /\ qnorm2 (Q4 (cos h) 0 0 (sin h)) = 1.
Proof. intros. pose proof (sc1 h). unfold qnorm2. cbn. repeat split; lra. Qed.
Lemma euler2quat_unit : forall a, qnorm2 (euler2quat a) = 1.
Proof.
  intros. unfold euler2quat. rewrite !qnorm2_mul.
  rewrite (proj1 (half_unit _)), (proj1 (proj2 (half_unit _))), (proj2 (proj2 (half_unit _))). ring.
Qed.
Lemma euler2quat_rot : forall a, qrot (euler2quat a) = RotXYZ a.
Proof.
  intros. unfold euler2quat, RotXYZ. rewrite qrot_mul.
  - rewrite qrot_mul; [| apply half_unit | apply half_unit]. rewrite qrot_X, qrot_Y, qrot_Z. reflexivity.
  - rewrite qnorm2_mul, (proj1 (half_unit _)), (proj1 (proj2 (half_unit _))). ring.
  - apply half_unit.
Qed.
Lemma qnormalized_unit : forall q, qnorm2 q <> 0 -> qnorm2 (qnormalized q) = 1.
Proof.
  intros [w x y z] H. unfold qnormalized, qnorm2 in *. cbn [qw qx qy qz] in *.
  set (n := w * w + x * x + y * y + z * z) in *.
  assert (0 <= n) by (unfold n; nra).
  destruct (Rlt_dec 0 n); [| lra]. unfold qscale. cbn [qw qx qy qz].
  assert (S := sqrt_sqrt n ltac:(lra)). assert (0 < sqrt n) by (apply sqrt_lt_R0; lra).
  replace (/ sqrt n * w * (/ sqrt n * w) + / sqrt n * x * (/ sqrt n * x) + / sqrt n * y * (/ sqrt n * y) + / sqrt n * z * (/ sqrt n * z))
    with (n * / (sqrt n * sqrt n)).
  - rewrite S. field. lra.
  - unfold n at 1. field. lra.
Qed.
Lemma qnormalized_id : forall q, qnorm2 q = 1 -> qnormalized q = q.
Proof.
  intros [w x y z] H. unfold qnormalized, qnorm2 in *. cbn [qw qx qy qz] in *. rewrite H, sqrt_1.
  destruct (Rlt_dec 0 1); [| lra]. unfold qscale. cbn. f_equal; field.
Qed.

(* a proper rotation: rows are an orthonormal right handed frame *)
Record proper (m : m3) : Prop := Proper {
  p00 : dot (mr0 m) (mr0 m) = 1; p11 : dot (mr1 m) (mr1 m) = 1; p22 : dot (mr2 m) (mr2 m) = 1;
  p01 : dot (mr0 m) (mr1 m) = 0; p02 : dot (mr0 m) (mr2 m) = 0; p12 : dot (mr1 m) (mr2 m) = 0;
  pc : cross (mr0 m) (mr1 m) = mr2 m; pz : vz (mr0 m) * vz (mr0 m) + vz (mr1 m) * vz (mr1 m) + vz (mr2 m) * vz (mr2 m) = 1 }.
Lemma qrot_proper : forall q, qnorm2 q = 1 -> proper (qrot q).
Proof.
  intros q H. rewrite qrot_alt by assumption. destruct q as [w x y z]. cbn [qw qx qy qz].
  unfold qnorm2 in H. cbn in H.
  assert (H2 : (w * w + x * x + y * y + z * z) * (w * w + x * x + y * y + z * z) = 1) by (rewrite H; ring).
  assert (K : forall t, t = t * (w * w + x * x + y * y + z * z)) by (intros; rewrite H; ring).
  constructor; cbv beta iota zeta delta [dot cross vx vy vz mr0 mr1 mr2].
  1, 2, 3, 8: rewrite <- H2; ring.
  1, 2, 3: ring.
  apply v3eq; cbv beta iota zeta delta [vx vy vz]; match goal with |- _ = ?r => rewrite (K r) end; ring.
Qed.
Lemma qrot_orth : forall q, qnorm2 q = 1 -> orthogonal (qrot q).
Proof.
  intros q H. rewrite qrot_alt by assumption. destruct q as [w x y z]. cbn [qw qx qy qz].
  unfold qnorm2 in H. cbn in H.
  assert (H2 : (w * w + x * x + y * y + z * z) * (w * w + x * x + y * y + z * z) = 1) by (rewrite H; ring).
  split; cbv beta iota zeta delta [mmul mmulv mtr dot mid vx vy vz mr0 mr1 mr2]; split_mat; cbn [vx vy vz mr0 mr1 mr2];
    first [ring | rewrite <- H2; ring].
Qed.

(* Quat2Euler gives angles of the same rotation *)
Lemma euler_of_proper : forall m a b c c2, proper m -> 0 <= c2 ->
  c2 * c2 = mget m 0 0 * mget m 0 0 + mget m 0 1 * mget m 0 1 ->
  c2 * sin a = - mget m 1 2 -> c2 * cos a = mget m 2 2 ->
  sin b = mget m 0 2 -> cos b = c2 ->
  sin c = cos a * mget m 1 0 + sin a * mget m 2 0 ->
  cos c = cos a * mget m 1 1 + sin a * mget m 2 1 ->
  RotXYZ (V3 a b c) = m.
Proof.
  intros [[a00 a01 a02] [a10 a11 a12] [a20 a21 a22]] a b c c2 [H00 H11 H22 H01 H02 H12 Hc Hz].
  cbv beta iota zeta delta [mget v3get dot cross vx vy vz mr0 mr1 mr2] in *.
  injection Hc; intros E2 E1 E0. clear Hc.
  intros Hp Hc2 Hsa Hca Hsb Hcb Hsc Hcc.
  pose proof (sc1 a) as Sa. pose proof (sc1 c) as Sc.
  exr.
  generalize dependent (sin a). intros sa. generalize dependent (cos a). intros ca.
  generalize dependent (sin b). intros sb. generalize dependent (cos b). intros cb.
  generalize dependent (sin c). intros sc. generalize dependent (cos c). intros cc.
  intros. subst c2.
  assert (Z1 : ca * a12 + sa * a22 = 0).
  { replace a12 with (- (cb * sa)) by lra. rewrite <- Hca. ring. }
  assert (Z2 : - sa * a12 + ca * a22 = cb).
  { replace a12 with (- (cb * sa)) by lra. rewrite <- Hca. replace (- sa * - (cb * sa) + ca * (cb * ca)) with (cb * (sa * sa + ca * ca)) by ring. rewrite Sa. ring. }
  assert (P1 : a00 * sc + a01 * cc = 0).
  { rewrite Hsc, Hcc. replace (a00 * (ca * a10 + sa * a20) + a01 * (ca * a11 + sa * a21))
      with (ca * (a00 * a10 + a01 * a11) + sa * (a00 * a20 + a01 * a21)) by ring.
    replace (a00 * a10 + a01 * a11) with (- (a02 * a12)) by lra.
    replace (a00 * a20 + a01 * a21) with (- (a02 * a22)) by lra.
    replace (ca * - (a02 * a12) + sa * - (a02 * a22)) with (- a02 * (ca * a12 + sa * a22)) by ring. rewrite Z1. ring. }
  (* rows of RotX(-a) m *)
  set (u0 := - sa * a10 + ca * a20). set (u1 := - sa * a11 + ca * a21).
  assert (D : a00 * a11 - a01 * a10 = a22) by lra.
  (* row0 = row1 x row2 *)
  assert (F2 : a10 * a21 - a11 * a20 = a02).
  { replace a21 with (a02 * a10 - a00 * a12) by lra. replace a20 with (a01 * a12 - a02 * a11) by lra.
    replace (a10 * (a02 * a10 - a00 * a12) - a11 * (a01 * a12 - a02 * a11))
      with (a02 * (a10 * a10 + a11 * a11 + a12 * a12) - a12 * (a00 * a10 + a01 * a11 + a02 * a12)) by ring.
    rewrite H11, H01. ring. }
  assert (F1 : a12 * a20 - a10 * a22 = a01).
  { replace a20 with (a01 * a12 - a02 * a11) by lra. replace a22 with (a00 * a11 - a01 * a10) by lra.
    replace (a12 * (a01 * a12 - a02 * a11) - a10 * (a00 * a11 - a01 * a10))
      with (a01 * (a10 * a10 + a11 * a11 + a12 * a12) - a11 * (a00 * a10 + a01 * a11 + a02 * a12)) by ring.
    rewrite H11, H01. ring. }
  assert (F0 : a11 * a22 - a12 * a21 = a00).
  { replace a21 with (a02 * a10 - a00 * a12) by lra. replace a22 with (a00 * a11 - a01 * a10) by lra.
    replace (a11 * (a00 * a11 - a01 * a10) - a12 * (a02 * a10 - a00 * a12))
      with (a00 * (a10 * a10 + a11 * a11 + a12 * a12) - a10 * (a00 * a10 + a01 * a11 + a02 * a12)) by ring.
    rewrite H11, H01. ring. }
  assert (A12 : a12 = - (cb * sa)) by lra. assert (A22 : a22 = cb * ca) by lra.
  assert (G0 : a00 = cb * cc).
  { rewrite <- F0, Hcc, A12, A22. ring. }
  assert (G1 : a01 = - (cb * sc)).
  { rewrite <- F1, Hsc, A12, A22. ring. }
  assert (A10 : a10 = a21 * a02 - a22 * a01).
  { rewrite <- E1, <- E2.
    replace ((a02 * a10 - a00 * a12) * a02 - (a00 * a11 - a01 * a10) * a01)
      with (a10 * (a00 * a00 + a01 * a01 + a02 * a02) - a00 * (a00 * a10 + a01 * a11 + a02 * a12)) by ring.
    rewrite H00, H01. ring. }
  assert (A11 : a11 = a22 * a00 - a20 * a02).
  { replace a20 with (a01 * a12 - a02 * a11) by lra. rewrite <- E2.
    replace ((a00 * a11 - a01 * a10) * a00 - (a01 * a12 - a02 * a11) * a02)
      with (a11 * (a00 * a00 + a01 * a01 + a02 * a02) - a01 * (a00 * a10 + a01 * a11 + a02 * a12)) by ring.
    rewrite H00, H01. ring. }
  assert (U0 : - sb * cc = u0).
  { unfold u0. rewrite Hsb, Hcc.
    transitivity (a01 * (ca * a12 + sa * a22) - a02 * (ca * a11 + sa * a21)); [rewrite Z1; ring|].
    transitivity (- sa * (a21 * a02 - a22 * a01) + ca * (a01 * a12 - a02 * a11)); [ring|].
    rewrite <- A10. rewrite <- E0. ring. }
  assert (U1 : sb * sc = u1).
  { unfold u1. rewrite Hsb, Hsc.
    transitivity (a02 * (ca * a10 + sa * a20) - a00 * (ca * a12 + sa * a22)); [rewrite Z1; ring|].
    transitivity (- sa * (a22 * a00 - a20 * a02) + ca * (a02 * a10 - a00 * a12)); [ring|].
    rewrite <- A11. rewrite <- E1. ring. }
  mat9.
  - rewrite G0. ring.
  - rewrite G1. ring.
  - rewrite <- Hsb. ring.
  - transitivity (ca * sc - sa * (- sb * cc)); [ring|]. rewrite U0. unfold u0. rewrite Hsc.
    transitivity (a10 * (sa * sa + ca * ca)); [ring|]. rewrite Sa. ring.
  - transitivity (ca * cc - sa * (sb * sc)); [ring|]. rewrite U1. unfold u1. rewrite Hcc.
    transitivity (a11 * (sa * sa + ca * ca)); [ring|]. rewrite Sa. ring.
  - rewrite A12. ring.
  - transitivity (sa * sc + ca * (- sb * cc)); [ring|]. rewrite U0. unfold u0. rewrite Hsc.
    transitivity (a20 * (sa * sa + ca * ca)); [ring|]. rewrite Sa. ring.
  - transitivity (sa * cc + ca * (sb * sc)); [ring|]. rewrite U1. unfold u1. rewrite Hcc.
    transitivity (a21 * (sa * sa + ca * ca)); [ring|]. rewrite Sa. ring.
  - rewrite A22. ring.
Qed.
Lemma hypot_unique : forall x y h, 0 <= h -> h * h = x * x + y * y -> hypot x y = h.
Proof.
  intros x y h H E. unfold hypot. rewrite <- E. apply sqrt_square. exact H.
Qed.
Lemma quat2euler_rot : forall q, qnorm2 q <> 0 -> RotXYZ (quat2euler q) = qrot (qnormalized q).
Proof.
  intros q Hq. unfold quat2euler, canonicalEulerAngles. cbn [Nat.eqb Nat.modulo Nat.divmod Nat.add Nat.sub fst snd negb].
  assert (P := qrot_proper _ (qnormalized_unit q Hq)).
  set (m := qrot (qnormalized q)) in *.
  set (r0 := atan2 (mget m 1 2) (mget m 2 2)).
  set (c2 := hypot (mget m 0 0) (mget m 0 1)).
  set (r1 := atan2 (- mget m 0 2) c2).
  set (y2 := sin r0 * mget m 2 0 - cos r0 * mget m 1 0). set (x2 := cos r0 * mget m 1 1 - sin r0 * mget m 2 1).
  set (r2 := atan2 y2 x2).
  assert (Hc2 : 0 <= c2) by apply hypot_nonneg.
  assert (Sq : c2 * c2 = mget m 0 0 * mget m 0 0 + mget m 0 1 * mget m 0 1) by apply hypot_sq.
  assert (Hh : hypot (mget m 2 2) (mget m 1 2) = c2).
  { apply hypot_unique; [exact Hc2|]. rewrite Sq. destruct P as [H00 _ _ _ _ _ _ Hz].
    destruct m as [[a00 a01 a02] [a10 a11 a12] [a20 a21 a22]]. cbn in *. unfold dot in *. cbn in *. lra. }
  assert (C0 : c2 * cos r0 = mget m 2 2) by (rewrite <- Hh; apply atan2_cos).
  assert (S0 : c2 * sin r0 = mget m 1 2) by (rewrite <- Hh; apply atan2_sin).
  assert (H1 : hypot c2 (- mget m 0 2) = 1).
  { apply hypot_unique; [lra|]. rewrite Sq. destruct P as [H00 _ _ _ _ _ _ _].
    destruct m as [[a00 a01 a02] [a10 a11 a12] [a20 a21 a22]]. cbn in *. unfold dot in *. cbn in *. lra. }
  assert (C1 : cos r1 = c2). { rewrite <- (Rmult_1_l (cos r1)), <- H1. apply atan2_cos. }
  assert (S1 : sin r1 = - mget m 0 2). { rewrite <- (Rmult_1_l (sin r1)), <- H1. apply atan2_sin. }
  assert (H2 : hypot x2 y2 = 1).
  { apply hypot_unique; [lra|]. unfold x2, y2. clear r1 r2 H1 C1 S1 x2 y2.
    destruct P as [H00 H11 H22 H01 H02 H12 _ _].
    destruct m as [[a00 a01 a02] [a10 a11 a12] [a20 a21 a22]]. cbn in *. unfold dot in *. cbn in *.
    pose proof (sc1 r0) as Sc. generalize dependent (sin r0). intros s. generalize dependent (cos r0). intros c. intros.
    assert (Z : c * a12 - s * a22 = 0) by (rewrite <- C0, <- S0; ring).
    replace ((c * a11 - s * a21) * (c * a11 - s * a21) + (s * a20 - c * a10) * (s * a20 - c * a10))
      with (c * c * (a10 * a10 + a11 * a11 + a12 * a12) + s * s * (a20 * a20 + a21 * a21 + a22 * a22)
            - 2 * (c * s) * (a10 * a20 + a11 * a21 + a12 * a22) - (c * a12 - s * a22) * (c * a12 - s * a22)) by ring.
    rewrite H11, H22, H12, Z. lra. }
  assert (C2 : cos r2 = x2). { rewrite <- (Rmult_1_l (cos r2)), <- H2. apply atan2_cos. }
  assert (S2 : sin r2 = y2). { rewrite <- (Rmult_1_l (sin r2)), <- H2. apply atan2_sin. }
  unfold vscale. cbn [vx vy vz].
  replace (-1 * r0) with (- r0) by ring. replace (-1 * r1) with (- r1) by ring. replace (-1 * r2) with (- r2) by ring.
  apply (euler_of_proper m _ _ _ c2); rewrite ?cos_neg, ?sin_neg; auto; try lra.
  - rewrite S2. unfold y2. ring.
  - rewrite C2. unfold x2. ring.
Qed.
Lemma quat2euler_range : forall q,
  - PI <= vx (quat2euler q) < PI /\ - (PI / 2) <= vy (quat2euler q) <= PI / 2 /\ - PI <= vz (quat2euler q) < PI.
Proof.
  intros q. unfold quat2euler, canonicalEulerAngles. cbn [Nat.eqb Nat.modulo Nat.divmod Nat.add Nat.sub fst snd negb].
  set (m := qrot (qnormalized q)). cbn [vscale vx vy vz].
  repeat match goal with |- context [atan2 ?y ?x] =>
    lazymatch goal with H : _ < atan2 y x <= _ |- _ => fail | _ => pose proof (atan2_range y x) end end.
  pose proof (atan2_half (- mget m 0 2) (hypot (mget m 0 0) (mget m 0 1)) (hypot_nonneg _ _)).
  cbv [vscale vx vy vz]. lra.
Qed.
Lemma RotXYZ_inj : forall a b, RotXYZ a = RotXYZ b ->
  - (PI / 2) < vy a < PI / 2 -> - (PI / 2) < vy b < PI / 2 ->
  - PI <= vx a < PI -> - PI <= vx b < PI -> - PI <= vz a < PI -> - PI <= vz b < PI -> a = b.
Proof.
  intros [a1 a2 a3] [b1 b2 b3] H. cbn [vx vy vz]. intros. pose proof PI_RGT_0.
  exr. injection H; intros. clear H.
  assert (Ea : sin a2 = sin b2) by nra.
  assert (A2 : a2 = b2).
  { assert (Ca : 0 < cos a2) by (apply cos_gt_0; lra). assert (Cb : 0 < cos b2) by (apply cos_gt_0; lra).
    apply angle_unique; [exact Ea | | lra].
    pose proof (sc1 a2). pose proof (sc1 b2). rewrite Ea in H. nra. }
  subst b2. assert (Ca : 0 < cos a2) by (apply cos_gt_0; lra).
  f_equal; apply angle_unique_wide; try lra; apply (Rmult_eq_reg_l (cos a2)); lra.
Qed.
Lemma euler_roundtrip : forall a,
  - PI <= vx a < PI -> - (PI / 2) < vy a < PI / 2 -> - PI <= vz a < PI -> quat2euler (euler2quat a) = a.
Proof.
  intros a Hx Hy Hz. pose proof (quat2euler_range (euler2quat a)) as [Rx [Ry Rz]].
  assert (E := quat2euler_rot (euler2quat a)). rewrite euler2quat_unit in E. specialize (E R1_neq_R0).
  rewrite qnormalized_id in E by apply euler2quat_unit. rewrite euler2quat_rot in E.
  apply RotXYZ_inj; try assumption.
  assert (Es : sin (vy (quat2euler (euler2quat a))) = sin (vy a)).
  { generalize dependent (quat2euler (euler2quat a)). intros [b1 b2 b3] ? ? ? E. destruct a as [a1 a2 a3].
    cbn [vx vy vz]. exr. injection E; intros. nra. }
  assert (sin (vy a) < 1). { rewrite <- sin_PI2. apply sin_increasing_1; lra. }
  assert (-1 < sin (vy a)). { replace (-1) with (sin (- (PI / 2))) by (rewrite sin_neg, sin_PI2; ring). apply sin_increasing_1; lra. }
  assert (sin (- (PI / 2)) = -1) by (rewrite sin_neg, sin_PI2; ring).
  pose proof sin_PI2.
  destruct Ry as [[L|L] [U|U]]; [lra | | |].
  - rewrite U in Es. lra.
  - rewrite <- L in Es. lra.
  - rewrite <- L in Es. lra.
Qed.
(* any position and orientation survives the two conversions *)
Lemma vec6_roundtrip : forall v, - PI <= vx (v6tl v) < PI -> - (PI / 2) < vy (v6tl v) < PI / 2 -> - PI <= vz (v6tl v) < PI ->
  toVec6 (fromVec6 v) = v.
Proof. intros [p a] ? ? ?. unfold toVec6, fromVec6. cbn [xq_pos xq_quat v6hd v6tl] in *. rewrite euler_roundtrip by assumption. reflexivity. Qed.

(* ----- orientation angles ----- *)
Lemma orientation_ok : forall v phi beta, orientationAngles v = Ok (phi, beta) ->
  1e-6 <= hypot (vx v) (vy v) ->
  v = V3 (norm v * sin phi * cos beta) (norm v * sin phi * sin beta) (norm v * cos phi).
Proof.
  intros [x y z] phi beta H Hl. unfold orientationAngles in H. cbn [vx vy vz] in *.
  destruct (Rlt_dec _ 1e-12); [discriminate|].
  assert (Hn := hypot_nonneg x y). rewrite Rabs_right in H by lra.
  destruct (Rlt_dec (hypot x y) 1e-6); [lra|]. injection H; intros; subst beta phi. clear H.
  assert (N : norm (V3 x y z) = hypot z (hypot x y)).
  { unfold norm, dot. cbn [vx vy vz]. unfold hypot at 1. rewrite hypot_sq. f_equal. ring. }
  apply v3eq; cbn [vx vy vz]; rewrite N; rewrite ?atan2_sin, ?atan2_cos; reflexivity.
Qed.
Lemma orientation_range : forall v phi beta, orientationAngles v = Ok (phi, beta) ->
  0 <= phi <= PI /\ - PI < beta <= PI /\ norm v * cos phi = vz v /\ norm v * sin phi = hypot (vx v) (vy v).
Proof.
  intros [x y z] phi beta H. unfold orientationAngles in H. cbn [vx vy vz] in *.
  destruct (Rlt_dec _ 1e-12); [discriminate|]. injection H; intros; subst phi. clear H.
  pose proof PI_RGT_0. pose proof (atan2_nonneg (hypot x y) z (hypot_nonneg _ _)). split; [assumption|].
  assert (N : norm (V3 x y z) = hypot z (hypot x y)).
  { unfold norm, dot. cbn [vx vy vz]. unfold hypot at 1. rewrite hypot_sq. f_equal. ring. }
  split. { subst beta. destruct (Rlt_dec _ _); [lra | apply atan2_range]. }
  rewrite N. split; [apply atan2_cos | apply atan2_sin].
Qed.
Lemma orientation_throws : forall v, dot v v < 1e-12 -> orientationAngles v = Throw ExNan.
Proof. intros. unfold orientationAngles. destruct (Rlt_dec _ _); [reflexivity | contradiction]. Qed.

(* ----- curvature ----- *)
Lemma unit_dot_le : forall a b, dot a a = 1 -> dot b b = 1 -> dot a b <= 1.
Proof.
  intros [a b c] [x y z] Ha Hb. unfold dot in *. cbn in *.
  pose proof (Rle_0_sqr (a - x)). pose proof (Rle_0_sqr (b - y)). pose proof (Rle_0_sqr (c - z)). unfold Rsqr in *. lra.
Qed.
(* chord of the two unit directions *)
Lemma curvature_value : forall l a b, 0 < l -> dot a a = 1 -> dot b b = 1 -> dot a b + eps64 <= 1 ->
  getCurvature l a b * l / 2 = norm (vsub a b).
Proof.
  intros l a b Hl Ha Hb He. unfold getCurvature. destruct (Rlt_dec _ _); [lra|].
  assert (E : dot (vsub a b) (vsub a b) = 4 * (0.5 * (1 - dot a b))).
  { destruct a, b. unfold dot, vsub in *. cbn in *. lra. }
  unfold norm. rewrite E. rewrite (sqrt_mult_alt 4) by lra.
  assert (S4 : sqrt 4 = 2) by (replace 4 with (2 * 2) by ring; apply sqrt_square; lra).
  rewrite S4. field. lra.
Qed.

(* ----- orientation rate ----- *)
Lemma rate_norm : forall w q e, qnorm2 (qadd q (qscale e (quatRate w q))) = qnorm2 q * (1 + e * e * dot w w / 4).
Proof.
  intros [a b c] [p x y z] e. unfold quatRate; replace 0.5 with (/ 2) by lra; cbv beta iota zeta delta [qnorm2 qadd qscale qmul dot qw qx qy qz vx vy vz]. field.
Qed.
Lemma rate_rot : forall w q v, qnorm2 q = 1 -> exists E, forall e,
  mmulv (qrot (qadd q (qscale e (quatRate w q)))) v
  = vadd (mmulv (qrot q) v) (vadd (vscale e (cross w (mmulv (qrot q) v))) (vscale (e * e) E)).
Proof.
  intros [a b c] [p x y z] [v1 v2 v3_] H.
  assert (Hr : quatRate (V3 a b c) (Q4 p x y z) = qmul (Q4 0 (a / 2) (b / 2) (c / 2)) (Q4 p x y z)).
  { unfold quatRate. replace 0.5 with (/ 2) by lra. unfold qmul, qscale. cbn [qw qx qy qz vx vy vz]. f_equal; field. }
  rewrite Hr. clear Hr.
  replace (V3 a b c) with (V3 (2 * (a / 2)) (2 * (b / 2)) (2 * (c / 2))) by (apply v3eq; cbn; field).
  generalize (a / 2) (b / 2) (c / 2). clear a b c. intros a b c.
  set (d := qmul (Q4 0 a b c) (Q4 p x y z)).
  exists (vsub (mmulv (qrot d) (V3 v1 v2 v3_)) (V3 v1 v2 v3_)). intros e.
  unfold d, qnorm2 in *. cbn [qw qx qy qz] in H.
  assert (Hp : p * p = 1 - x * x - y * y - z * z) by lra.
  cbv beta iota zeta delta [qrot qadd qscale qmul dot mmulv cross vadd vsub vscale qw qx qy qz vx vy vz mr0 mr1 mr2].
  apply v3eq; cbn [vx vy vz]; ring [Hp].
Qed.
Lemma rod_rate_pos : forall n w q, n <> 0%nat -> freeRodRate n w q = quatRate w q.
Proof. intros. unfold freeRodRate. destruct (Nat.eqb_spec n 0); [contradiction | reflexivity]. Qed.
Lemma rod0_turns : forall w e, 0 < e ->
  mget (qrot (qnormalized (qadd (Q4 0 1 0 0) (qscale e (freeRodRate 0 w (Q4 0 1 0 0)))))) 1 2 <> mget (qrot (Q4 0 1 0 0)) 1 2.
Proof.
  intros w e H. unfold freeRodRate, qident, qadd, qscale, qnormalized. cbn [Nat.eqb qw qx qy qz].
  set (n := _ + _ + _ + _). assert (0 < n) by (unfold n; nra).
  destruct (Rlt_dec 0 n); [| contradiction].
  assert (0 < / sqrt n) by (apply Rinv_0_lt_compat, sqrt_lt_R0; assumption).
  cbv beta iota zeta delta [qrot mget v3get qscale qw qx qy qz vx vy vz mr0 mr1 mr2].
  assert (0 < / sqrt n * (/ sqrt n * e)) by (repeat apply Rmult_lt_0_compat; lra). lra.
Qed.
