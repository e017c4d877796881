(** Proofs about rods with their kinematic state (MRodS) *)
From Coq Require Import Reals List Lra Lia Arith ZArith.
From Verif Require Import MErr MVec MStateOps MMat MInterp MLine MRod MBody MEnd MRodS SMat SLine SRod SRodS PMat PEuler PLine PRod PRodB PRodC PEnd PEndB SEnd.
Import ListNotations.
Open Scope R_scope.

(* ----- rotation between two vectors ----- *)
Lemma unit_normalized : forall a, dot a a = 1 -> MBody.vnormalized a = a.
Proof. intros a H. unfold MBody.vnormalized, norm. rewrite H. destruct (Rlt_dec 0 1); [|lra]. rewrite sqrt_1, Rinv_1. destruct a as [x y z]. unfold vscale. cbn [vx vy vz]. apply v3eq; cbn [vx vy vz]; ring. Qed.
Lemma scaled_normalized : forall a b k, 0 < k -> dot a a = 1 -> b = vscale k a -> MBody.vnormalized b = a.
Proof.
  intros a b k Hk H ->. unfold MBody.vnormalized, norm. assert (E : dot (vscale k a) (vscale k a) = k * k).
  { replace (dot (vscale k a) (vscale k a)) with (k * k * dot a a) by (destruct a as [x y z]; unfold dot, vscale; cbn [vx vy vz]; ring). rewrite H. ring. }
  rewrite E. destruct (Rlt_dec 0 (k * k)); [|nra]. rewrite sqrt_square by lra. destruct a as [x y z]. unfold vscale. cbn [vx vy vz]. apply v3eq; cbn [vx vy vz]; field; lra.
Qed.
Lemma qrot_formula : forall w u a, mmulv (qrot (Q4 w (vx u) (vy u) (vz u))) a = vadd a (vadd (vscale (2 * w) (cross u a)) (vscale 2 (cross u (cross u a)))).
Proof. intros w [x y z] [a b c]. unfold mmulv, qrot, vadd, vscale, cross, dot. cbn [qw qx qy qz mr0 mr1 mr2 vx vy vz]. apply v3eq; cbn [vx vy vz]; ring. Qed.
Lemma twoVectors : forall op a b, dot a a = 1 -> dot b b = 1 -> -1 + 1e-12 <= dot b a ->
  qnorm2 (fromTwoVectors op a b) = 1 /\ mmulv (qrot (fromTwoVectors op a b)) a = b.
Proof.
  intros op a b Ha Hb Hc. unfold fromTwoVectors. rewrite !unit_normalized by assumption. cbv zeta. destruct (Rlt_dec _ _); [lra|].
  set (c := dot b a) in *. set (s := sqrt ((1 + c) * 2)).
  assert (S2 : s * s = (1 + c) * 2) by (apply sqrt_sqrt; lra).
  assert (Sp : 0 < s) by (apply sqrt_lt_R0; lra).
  assert (I2 : 2 * (/ s * / s) * (1 + c) = 1). { replace (2 * (/ s * / s) * (1 + c)) with (((1 + c) * 2) * (/ s * / s)) by ring. rewrite <- S2. field. lra. }
  replace (s * 0.5) with (s / 2) by lra.
  set (ax := cross a b).
  assert (AX : dot ax ax = 1 - c * c).
  { unfold ax, c. replace (dot (cross a b) (cross a b)) with (dot a a * dot b b - dot b a * dot b a) by (destruct a as [a1 a2 a3], b as [b1 b2 b3]; unfold dot, cross; cbn [vx vy vz]; ring). rewrite Ha, Hb. ring. }
  split.
  - unfold qnorm2. cbn [qw qx qy qz].
    replace (s / 2 * (s / 2) + / s * vx ax * (/ s * vx ax) + / s * vy ax * (/ s * vy ax) + / s * vz ax * (/ s * vz ax)) with (s * s / 4 + / s * / s * dot ax ax) by (unfold dot; field; lra).
    rewrite AX, S2. replace (/ s * / s * (1 - c * c)) with (2 * (/ s * / s) * (1 + c) * ((1 - c) / 2)) by (field; lra). rewrite I2. lra.
  - pose proof (qrot_formula (s / 2) (vscale (/ s) ax) a) as Q. unfold vscale at 1 2 3 in Q. cbn [vx vy vz] in Q. rewrite Q. clear Q.
    assert (E1 : vscale (2 * (s / 2)) (cross (vscale (/ s) ax) a) = vsub b (vscale c a)).
    { replace (vscale (2 * (s / 2)) (cross (vscale (/ s) ax) a)) with (cross ax a).
      - transitivity (vsub (vscale (dot a a) b) (vscale (dot b a) a)). { unfold ax. destruct a as [a1 a2 a3], b as [b1 b2 b3]. unfold dot, cross, vsub, vscale. cbn [vx vy vz]. apply v3eq; cbn [vx vy vz]; ring. }
        rewrite Ha. unfold c. generalize (dot b a). intros d. destruct a as [a1 a2 a3], b as [b1 b2 b3]. unfold vsub, vscale. cbn [vx vy vz]. apply v3eq; cbn [vx vy vz]; ring.
      - generalize ax. intros [x y z]. destruct a as [a1 a2 a3]. unfold cross, vscale. cbn [vx vy vz]. apply v3eq; cbn [vx vy vz]; field; lra. }
    assert (E2 : vscale 2 (cross (vscale (/ s) ax) (cross (vscale (/ s) ax) a)) = vscale (c - 1) a).
    { replace (vscale 2 (cross (vscale (/ s) ax) (cross (vscale (/ s) ax) a))) with (vscale (2 * (/ s * / s)) (cross ax (cross ax a))).
      2:{ generalize ax, (/ s). intros [x y z] i. destruct a as [a1 a2 a3]. unfold cross, vscale. cbn [vx vy vz]. apply v3eq; cbn [vx vy vz]; ring. }
      replace (cross ax (cross ax a)) with (vscale (- ((1 - c) * (1 + c))) a).
      - replace (vscale (2 * (/ s * / s)) (vscale (- ((1 - c) * (1 + c))) a)) with (vscale (2 * (/ s * / s) * (1 + c) * (c - 1)) a) by (destruct a as [a1 a2 a3]; unfold vscale; cbn [vx vy vz]; apply v3eq; cbn [vx vy vz]; ring).
        rewrite I2. f_equal. ring.
      - transitivity (vsub (vscale (dot ax a) ax) (vscale (dot ax ax) a)).
        + rewrite AX. assert (Z : dot ax a = 0) by (unfold ax; destruct a as [a1 a2 a3], b as [b1 b2 b3]; unfold dot, cross; cbn [vx vy vz]; ring). rewrite Z. destruct ax as [x y z], a as [a1 a2 a3]. unfold vsub, vscale. cbn [vx vy vz]. apply v3eq; cbn [vx vy vz]; ring.
        + destruct ax as [x y z], a as [a1 a2 a3]. unfold dot, cross, vsub, vscale. cbn [vx vy vz]. apply v3eq; cbn [vx vy vz]; ring. }
    rewrite E1, E2. generalize c. intros d. destruct a as [a1 a2 a3], b as [b1 b2 b3]. unfold vadd, vsub, vscale. cbn [vx vy vz]. apply v3eq; cbn [vx vy vz]; ring.
Qed.

(* ----- what setDependentStates leaves in the rod ----- *)
Lemma dependent_ok : forall K k ls k' ls', rod_dependent K k ls = Ok (k', ls') -> (0 < k_n k)%nat ->
  k' = with_ends k (rod_dir k) (xq_pos (k_r7 k)) (v6hd (k_v6 k)) (vadd (xq_pos (k_r7 k)) (vscale (k_len k) (rod_dir k)))
         (vadd (v6hd (k_v6 k)) (cross (v6tl (k_v6 k)) (vscale (k_len k) (rod_dir k)))).
Proof.
  intros K k ls k' ls' H HN. unfold rod_dependent in H. cbv zeta in H. destruct (Nat.eqb_spec (k_n k) 0) as [E|E]; [lia|].
  unfold setDependentStates in H. cbn [re_N re_posA re_velA re_posB re_velB re_q re_A re_B] in H. cbv zeta in H.
  destruct (Nat.eqb_spec (k_n k) 0) as [E'|_]; [lia|]. cbn [fst snd] in H.
  destruct (pass_kinematics (k_attA k) _ _ ls) as [l1| | |]; cbn [obind] in H; try discriminate.
  destruct (pass_kinematics (k_attB k) _ _ l1) as [l2| | |]; cbn [obind] in H; try discriminate.
  destruct (pass_orientation (k_attA k) _ _ l2) as [l3| | |]; cbn [obind] in H; try discriminate.
  destruct (pass_orientation (k_attB k) _ _ l3) as [l4| | |]; cbn [obind fst snd] in H; try discriminate.
  injection H as <- _. reflexivity.
Qed.

Lemma dep_total : forall K k ls, proper (k_attA k) (k_attB k) ls -> (0 < k_n k)%nat -> exists k' ls',
  rod_dependent K k ls = Ok (k', ls') /\
  k' = with_ends k (rod_dir k) (xq_pos (k_r7 k)) (v6hd (k_v6 k)) (vadd (xq_pos (k_r7 k)) (vscale (k_len k) (rod_dir k)))
         (vadd (v6hd (k_v6 k)) (cross (v6tl (k_v6 k)) (vscale (k_len k) (rod_dir k)))) /\
  rod_lies k' ls' (xq_pos (k_r7 k)) (v6hd (k_v6 k)) (vadd (xq_pos (k_r7 k)) (vscale (k_len k) (rod_dir k)))
         (vadd (v6hd (k_v6 k)) (cross (v6tl (k_v6 k)) (vscale (k_len k) (rod_dir k)))) (rod_dir k) /\
  (forall i, lN (ls' i) = lN (ls i)).
Proof.
  intros K k ls HP HN.
  set (rB := vadd (xq_pos (k_r7 k)) (vscale (k_len k) (rod_dir k))).
  set (vB := vadd (v6hd (k_v6 k)) (cross (v6tl (k_v6 k)) (vscale (k_len k) (rod_dir k)))).
  set (d := Rodend (k_n k) (xq_pos (k_r7 k)) (v6hd (k_v6 k)) rB vB (rod_dir k) (k_attA k) (k_attB k)).
  destruct (long_rod K d ls HP HN) as (ls' & E).
  assert (ER : rod_dependent K k ls = Ok (with_ends k (rod_dir k) (xq_pos (k_r7 k)) (v6hd (k_v6 k)) rB vB, ls')).
  { unfold rod_dependent. cbv zeta. destruct (Nat.eqb_spec (k_n k) 0) as [Z|_]; [lia|]. fold rB vB d. rewrite E. reflexivity. }
  exists (with_ends k (rod_dir k) (xq_pos (k_r7 k)) (v6hd (k_v6 k)) rB vB), ls'. split; [exact ER|]. split; [reflexivity|].
  destruct (attached K d ls _ ls' HP E) as (A & B & _ & I & _). split; [|intro i; exact (proj1 (I i))].
  unfold rod_lies. cbn [with_ends k_rA k_rdA k_rB k_rdB k_q k_attA k_attB].
  split; [reflexivity|]. split; [reflexivity|]. split; [reflexivity|]. split; [reflexivity|]. split; [reflexivity|]. split.
  - intros i ep Hi. destruct (A i ep Hi) as (A1 & A2 & _ & A4). now split.
  - intros i ep Hi. destruct (B i ep Hi) as (B1 & B2 & _ & B4). unfold at_B in B1, B2. cbn [re_N re_posB re_velB d] in B1, B2.
    destruct (Nat.eqb_spec (k_n k) 0) as [Z|_]; [lia|]. now split.
Qed.
Lemma proper_same : forall A B ls ls', proper A B ls -> (forall i, lN (ls' i) = lN (ls i)) -> proper A B ls'.
Proof. intros A B ls ls' [H1 H2] E. split; [|exact H2]. intros i ep Hi. rewrite E. now apply H1. Qed.

(* ----- where rods start ----- *)
Lemma heading_unit : forall A B, tol < dist3 B A -> fst (unitvector A B) = heading A B /\ dot (heading A B) (heading A B) = 1 /\ vsub B A = vscale (dist3 B A) (heading A B) /\ snd (unitvector A B) = dist3 B A.
Proof.
  intros A B H. unfold dist3 in H. destruct (unit_is_unit A B H) as [U1 U2].
  assert (E : fst (unitvector A B) = heading A B). { unfold unitvector, heading, dist3. cbn [fst]. rewrite eq0_false by exact H. reflexivity. }
  rewrite <- E. repeat split; assumption.
Qed.
Lemma qident_dir : forall v, mmulv (qrot (qnormalized qident)) v = v.
Proof. intros [x y z]. rewrite qnormalized_id by (unfold qnorm2, qident; cbn [qw qx qy qz]; ring). unfold qrot, qident, mmulv, dot. cbn [qw qx qy qz mr0 mr1 mr2 vx vy vz]. apply v3eq; cbn [vx vy vz]; ring. Qed.
Lemma twoV_dir : forall op a b u, dot a a = 1 -> dot u u = 1 -> (exists k, 0 < k /\ b = vscale k u) -> -1 + 1e-12 <= dot u a ->
  mmulv (qrot (qnormalized (fromTwoVectors op a b))) a = u.
Proof.
  intros op a b u Ha Hu (k & Hk & Eb) Hc. assert (E : fromTwoVectors op a b = fromTwoVectors op a u).
  { unfold fromTwoVectors. rewrite (scaled_normalized u b k Hk Hu Eb), (unit_normalized u Hu). reflexivity. }
  rewrite E. destruct (twoVectors op a u Ha Hu Hc) as [N R]. rewrite qnormalized_id by exact N. exact R.
Qed.
Lemma scaled_back : forall k v, k <> 0 -> v = vscale k (vscale (/ k) v).
Proof. intros k [x y z] H. unfold vscale. cbn [vx vy vz]. apply v3eq; cbn [vx vy vz]; field; exact H. Qed.
Lemma to_point : forall B, 0 < norm B -> dot (vscale (/ norm B) B) (vscale (/ norm B) B) = 1 /\ exists k, 0 < k /\ B = vscale k (vscale (/ norm B) B).
Proof.
  intros B H. pose proof (norm_sq B) as N. split; [|exists (norm B); split; [exact H|apply scaled_back; lra]].
  replace (dot (vscale (/ norm B) B) (vscale (/ norm B) B)) with (/ norm B * / norm B * dot B B) by (unfold dot, vscale; cbn; ring). rewrite <- N. field. lra.
Qed.
Lemma fwd : forall A B, vadd A (vsub B A) = B. Proof. intros [a b c] [x y z]. unfold vadd, vsub. cbn [vx vy vz]. apply v3eq; cbn [vx vy vz]; ring. Qed.

(* a free rod: Init, then the first update *)
Lemma free_start : forall op K n A B aA aB j7 j6 ls, (0 < n)%nat -> tol < dist3 B A -> 0 < norm B -> -1 + 1e-12 <= dot (vscale (/ norm B) B) (heading A B) ->
  proper aA aB ls ->
  exists k' ls', rod_initialize K (rod_setup op RodFree n A B aA aB j7 j6) ls = Ok (XQ A qident, v6zero, k', ls') /\
    rod_lies k' ls' A vzero (vadd A (vscale (dist3 B A / norm B) B)) vzero (vscale (/ norm B) B) /\
  exists k2 ls2, rod_setState K k' (XQ A qident) v6zero ls' = Ok (k2, ls2) /\ rod_lies k2 ls2 A vzero B vzero (heading A B).
Proof.
  intros op K n A B aA aB j7 j6 ls HN HT HB HC HP.
  destruct (heading_unit A B HT) as (U1 & U2 & U3 & U4). destruct (to_point B HB) as (B1 & B2).
  set (k0 := rod_setup op RodFree n A B aA aB j7 j6).
  assert (N0 : k_n k0 = n) by reflexivity. assert (L0 : k_len k0 = dist3 B A) by (unfold k0, rod_setup; cbn; destruct (Nat.eqb_spec n 0); [lia|exact U4]).
  assert (Q0 : k_q0 k0 = heading A B) by (unfold k0, rod_setup; cbn; destruct (Nat.eqb_spec n 0); [lia|exact U1]).
  assert (R0 : k_r7 k0 = XQ A (fromTwoVectors op (heading A B) B)) by (unfold k0, rod_setup; cbn; destruct (Nat.eqb_spec n 0); [lia|]; cbn [fst snd]; rewrite U1; reflexivity).
  assert (D0 : rod_dir k0 = vscale (/ norm B) B). { unfold rod_dir. rewrite R0, Q0. cbn [xq_quat]. exact (twoV_dir op _ B _ U2 B1 B2 HC). }
  assert (V0 : k_v6 k0 = v6zero) by reflexivity.
  destruct (dep_total K k0 ls HP ltac:(rewrite N0; exact HN)) as (k' & ls' & E & Ek & LI & LN).
  rewrite D0, L0, R0, V0 in LI. cbn [xq_pos v6zero v6hd v6tl] in LI.
  exists k', ls'. split.
  { unfold rod_initialize. change (k_type k0) with RodFree. cbn iota. rewrite E. cbn [obind fst snd]. rewrite (proj1 LI). reflexivity. }
  assert (S1 : vadd vzero (cross vzero (vscale (dist3 B A) (vscale (/ norm B) B))) = vzero) by (generalize (vscale (dist3 B A) (vscale (/ norm B) B)); vring).
  assert (S2 : vscale (dist3 B A) (vscale (/ norm B) B) = vscale (dist3 B A / norm B) B) by (unfold Rdiv; generalize (dist3 B A) (/ norm B); vring).
  rewrite S1, S2 in LI. split; [exact LI|].
  assert (K' : k_type k' = RodFree /\ k_n k' = n /\ k_len k' = dist3 B A /\ k_q0 k' = heading A B /\ k_attA k' = aA /\ k_attB k' = aB /\ k_acc k' = v6zero) by (rewrite Ek; cbn; rewrite ?Q0, ?L0, ?N0; repeat split; assumption || reflexivity).
  destruct K' as (T' & N' & L' & Q' & A' & B' & C').
  set (k1 := with_motion k' (XQ A qident) v6zero (k_acc k')).
  assert (D1 : rod_dir k1 = heading A B). { unfold rod_dir. cbn [k1 with_motion k_r7 k_q0 xq_quat]. rewrite Q'. apply qident_dir. }
  destruct (dep_total K k1 ls') as (k2 & ls2 & E2 & Ek2 & LI2 & _).
  { cbn. rewrite A', B'. exact (proper_same _ _ _ _ HP LN). } { cbn. rewrite N'. exact HN. }
  rewrite D1 in LI2. cbn [k1 with_motion k_r7 k_len k_v6 xq_pos v6hd v6tl v6zero] in LI2. rewrite L' in LI2.
  assert (F1 : vadd A (vscale (dist3 B A) (heading A B)) = B) by (rewrite <- U3; apply fwd).
  assert (F2 : vadd vzero (cross vzero (vscale (dist3 B A) (heading A B))) = vzero) by (generalize (vscale (dist3 B A) (heading A B)); vring).
  rewrite F1, F2 in LI2.
  assert (N2 : k_n k2 = n) by (rewrite Ek2; exact N').
  assert (D2 : rod_dir k2 = heading A B) by (rewrite Ek2; exact D1).
  exists (with_q k2 (heading A B)), ls2. split.
  { unfold rod_setState. rewrite T'. cbn [obind]. fold k1. rewrite E2. cbn [obind fst snd]. rewrite N2. destruct (Nat.eqb_spec n 0); [lia|]. rewrite D2. reflexivity. }
  destruct LI2 as (X1 & X2 & X3 & X4 & X5 & X6 & X7). unfold rod_lies. cbn [with_q k_rA k_rdA k_rB k_rdB k_q k_attA k_attB].
  split; [exact X1|]. split; [exact X2|]. split; [exact X3|]. split; [exact X4|]. split; [reflexivity|]. split; [exact X6|exact X7].
Qed.

(* rods held by bodies *)
Lemma m_sub : forall M a b, mmulv M (vsub a b) = vsub (mmulv M a) (mmulv M b).
Proof. intros [[a b c] [d e f] [g h i]] [x y z] [x' y' z']. unfold mmulv, vsub, dot. cbn [mr0 mr1 mr2 vx vy vz]. apply v3eq; cbn [vx vy vz]; ring. Qed.
Lemma m_scale : forall M k a, mmulv M (vscale k a) = vscale k (mmulv M a).
Proof. intros [[a b c] [d e f] [g h i]] k [x y z]. unfold mmulv, vscale, dot. cbn [mr0 mr1 mr2 vx vy vz]. apply v3eq; cbn [vx vy vz]; ring. Qed.
Lemma m_dot : forall Q a b, orthogonal Q -> dot (mmulv Q a) (mmulv Q b) = dot a b.
Proof.
  intros Q a b [H _]. transitivity (dot a (mmulv (mmul (mtr Q) Q) b)).
  - destruct Q as [[q0 q1 q2] [q3 q4 q5] [q6 q7 q8]], a as [a1 a2 a3], b as [b1 b2 b3]. unfold mmul, mtr, mmulv, dot. cbn [mr0 mr1 mr2 vx vy vz]. ring.
  - rewrite H. destruct a as [a1 a2 a3], b as [b1 b2 b3]. unfold mid, mmulv, dot. cbn [mr0 mr1 mr2 vx vy vz]. ring.
Qed.
Lemma setup_facts : forall op t n A B aA aB j7 j6, (0 < n)%nat -> tol < dist3 B A ->
  let k := rod_setup op t n A B aA aB j7 j6 in
  k_type k = t /\ k_n k = n /\ k_len k = dist3 B A /\ k_q0 k = heading A B /\ k_attA k = aA /\ k_attB k = aB /\ k_acc k = v6zero.
Proof.
  intros op t n A B aA aB j7 j6 HN HT. destruct (heading_unit A B HT) as (U1 & _ & _ & U4). cbv zeta. unfold rod_setup. cbn [k_type k_n k_len k_q0 k_attA k_attB k_acc].
  destruct (Nat.eqb_spec n 0); [lia|]. cbn [fst snd]. rewrite U1, U4. repeat split.
Qed.
Lemma fixed_place : forall op K n A B aA aB k ls Q pos v, (0 < n)%nat -> tol < dist3 B A ->
  k_type k = RodFixed -> k_n k = n -> k_len k = dist3 B A -> k_q0 k = heading A B -> k_attA k = aA -> k_attB k = aB ->
  proper aA aB ls -> orthogonal Q -> -1 + 1e-12 <= dot (mmulv Q (heading A B)) (heading A B) ->
  exists k' ls', rod_setKinematics op K k (fst (body_rod Q pos v (body_addRod A B))) (snd (body_rod Q pos v (body_addRod A B))) ls = Ok (k', ls') /\
    rod_lies k' ls' (placed pos Q A) (velocity_at (mmulv Q A) v) (placed pos Q B) (velocity_at (mmulv Q B) v) (mmulv Q (heading A B)) /\
    k_type k' = RodFixed /\ k_n k' = n /\ k_len k' = dist3 B A /\ k_q0 k' = heading A B /\ k_attA k' = aA /\ k_attB k' = aB /\ (forall i, lN (ls' i) = lN (ls i)).
Proof.
  intros op K n A B aA aB k ls Q pos v HN HT T N0 L0 Q0 HA HB HP HQ HC.
  destruct (heading_unit A B HT) as (U1 & U2 & U3 & U4).
  unfold body_rod, body_addRod, transformKinematics. cbn [v6hd v6tl fst snd]. rewrite U1.
  set (k1 := with_motion k (XQ (vadd (mmulv Q A) pos) (fromTwoVectors op (k_q0 k) (mmulv Q (heading A B)))) (V6 (vadd (v6hd v) (cross (v6tl v) (mmulv Q A))) (v6tl v)) (k_acc k)).
  assert (U2' : dot (mmulv Q (heading A B)) (mmulv Q (heading A B)) = 1) by (rewrite m_dot by exact HQ; exact U2).
  assert (D1 : rod_dir k1 = mmulv Q (heading A B)).
  { unfold rod_dir. cbn [k1 with_motion k_r7 k_q0 xq_quat]. rewrite Q0. apply twoV_dir; try assumption. exists 1. split; [lra|]. generalize (mmulv Q (heading A B)). vring. }
  destruct (dep_total K k1 ls) as (k2 & ls2 & E2 & Ek & LI & LN). { cbn. rewrite HA, HB. exact HP. } { cbn. rewrite N0. exact HN. }
  rewrite D1 in LI. cbn [k1 with_motion k_r7 k_len k_v6 xq_pos v6hd v6tl] in LI. rewrite L0 in LI.
  assert (D2 : rod_dir k2 = mmulv Q (heading A B)) by (rewrite Ek; exact D1).
  exists (with_q k2 (mmulv Q (heading A B))), ls2. split.
  { unfold rod_setKinematics. rewrite T. cbn [v6hd v6tl]. fold k1. rewrite E2. cbn [obind fst snd]. rewrite D2. reflexivity. }
  assert (G : vscale (dist3 B A) (mmulv Q (heading A B)) = vsub (mmulv Q B) (mmulv Q A)) by (rewrite <- m_scale, <- U3; apply m_sub).
  rewrite G in LI.
  replace (vadd (vadd (mmulv Q A) pos) (vsub (mmulv Q B) (mmulv Q A))) with (placed pos Q B) in LI by (unfold placed; generalize (mmulv Q A) (mmulv Q B) pos; vring).
  replace (vadd (mmulv Q A) pos) with (placed pos Q A) in LI by (unfold placed; generalize (mmulv Q A) pos; vring).
  replace (vadd (vadd (v6hd v) (cross (v6tl v) (mmulv Q A))) (cross (v6tl v) (vsub (mmulv Q B) (mmulv Q A)))) with (velocity_at (mmulv Q B) v) in LI by (unfold velocity_at; generalize (v6hd v) (v6tl v) (mmulv Q A) (mmulv Q B); vring).
  split; [|rewrite Ek; cbn; repeat split; assumption].
  destruct LI as (X1 & X2 & X3 & X4 & X5 & X6 & X7). unfold rod_lies. cbn [with_q k_rA k_rdA k_rB k_rdB k_q k_attA k_attB].
  split; [exact X1|]. split; [exact X2|]. split; [exact X3|]. split; [exact X4|]. split; [reflexivity|]. split; [exact X6|exact X7].
Qed.
Lemma pinned_start : forall op K n A B aA aB j7 j6 ls Q pos v, (0 < n)%nat -> tol < dist3 B A -> proper aA aB ls ->
  let k := rod_setup op RodPinned n A B aA aB j7 j6 in
  exists k', rod_setKinematics op K k (fst (body_rod Q pos v (body_addRod A B))) (snd (body_rod Q pos v (body_addRod A B))) ls = Ok (k', ls) /\
  exists k2 ls2, rod_setState K k' (XQ vzero qident) v6zero ls = Ok (k2, ls2) /\
    rod_lies k2 ls2 (placed pos Q A) (velocity_at (mmulv Q A) v) (vadd (placed pos Q A) (vsub B A)) (velocity_at (mmulv Q A) v) (heading A B).
Proof.
  intros op K n A B aA aB j7 j6 ls Q pos v HN HT HP k. destruct (heading_unit A B HT) as (U1 & U2 & U3 & U4).
  destruct (setup_facts op RodPinned n A B aA aB j7 j6 HN HT) as (T & N0 & L0 & Q0 & A0 & B0 & C0). fold k in T, N0, L0, Q0, A0, B0, C0.
  unfold body_rod, body_addRod, transformKinematics. cbn [v6hd v6tl fst snd]. unfold rod_setKinematics. rewrite T. cbn [obind fst snd v6hd v6tl].
  match goal with |- exists k', Ok (?x, ls) = _ /\ _ => set (k1 := x) end. exists k1. split; [reflexivity|].
  assert (F1 : k_type k1 = RodPinned /\ k_n k1 = n /\ k_len k1 = dist3 B A /\ k_q0 k1 = heading A B /\ k_attA k1 = aA /\ k_attB k1 = aB) by (unfold k1; cbn [with_q with_motion k_type k_n k_len k_q0 k_attA k_attB]; repeat split; assumption).
  destruct F1 as (T1 & N1 & L1 & Q1 & A1 & B1).
  set (k3 := with_motion k1 (XQ (xq_pos (k_r7 k1)) qident) (V6 (v6hd (k_v6 k1)) vzero) (k_acc k1)).
  assert (D1 : rod_dir k3 = heading A B). { unfold rod_dir. cbn [k3 with_motion k_r7 k_q0 xq_quat]. rewrite Q1. apply qident_dir. }
  destruct (dep_total K k3 ls) as (k4 & ls4 & E4 & Ek & LI & _). { change (proper (k_attA k1) (k_attB k1) ls). rewrite A1, B1. exact HP. } { change (0 < k_n k1)%nat. rewrite N1. exact HN. }
  rewrite D1 in LI. unfold k3, k1 in LI. cbn [with_motion with_q k_r7 k_len k_v6 xq_pos v6hd v6tl] in LI. rewrite L0 in LI.
  assert (N4 : k_n k4 = n) by (rewrite Ek; exact N1). assert (D4 : rod_dir k4 = heading A B) by (rewrite Ek; exact D1).
  exists (with_q k4 (heading A B)), ls4. split.
  { unfold rod_setState. rewrite T1. cbn [obind xq_quat v6tl v6zero]. fold k3. rewrite E4. cbn [obind fst snd]. rewrite N4. destruct (Nat.eqb_spec n 0); [lia|]. rewrite D4. reflexivity. }
  rewrite <- U3 in LI.
  replace (vadd (mmulv Q A) pos) with (placed pos Q A) in LI by (unfold placed; generalize (mmulv Q A) pos; vring).
  replace (vadd (vadd (v6hd v) (cross (v6tl v) (mmulv Q A))) (cross vzero (vsub B A))) with (velocity_at (mmulv Q A) v) in LI by (unfold velocity_at; generalize (v6hd v) (v6tl v) (mmulv Q A) (vsub B A); vring).
  destruct LI as (X1 & X2 & X3 & X4 & X5 & X6 & X7). unfold rod_lies. cbn [with_q k_rA k_rdA k_rB k_rdB k_q k_attA k_attB].
  split; [exact X1|]. split; [exact X2|]. split; [exact X3|]. split; [exact X4|]. split; [reflexivity|]. split; [exact X6|exact X7].
Qed.
(* a rod pinned to the vessel: Init, then the first update *)
Lemma cpin_start : forall op K n A B aA aB j7 j6 ls r rd, (0 < n)%nat -> tol < dist3 B A -> 0 < norm B -> -1 + 1e-12 <= dot (vscale (/ norm B) B) (heading A B) ->
  proper aA aB ls -> let k := rod_setup op RodCpldPin n A B aA aB j7 j6 in
  exists k1, rod_initiateStep K k r rd v6zero ls = Ok (k1, ls) /\
  exists k2, rod_updateFairlead K k1 0 ls = Ok (k2, ls) /\
  exists k3 ls3, rod_initialize K k2 ls = Ok (XQ vzero qident, v6zero, k3, ls3) /\
    rod_lies k3 ls3 (v6hd r) (v6hd rd) (vadd (v6hd r) (vscale (dist3 B A / norm B) B)) (v6hd rd) (vscale (/ norm B) B) /\
  exists k4, rod_updateFairlead K k3 0 ls3 = Ok (k4, ls3) /\
  exists k5 ls5, rod_setState K k4 (XQ vzero qident) v6zero ls3 = Ok (k5, ls5) /\
    rod_lies k5 ls5 (v6hd r) (v6hd rd) (vadd (v6hd r) (vsub B A)) (v6hd rd) (heading A B).
Proof.
  intros op K n A B aA aB j7 j6 ls r rd HN HT HB HC HP k.
  destruct (heading_unit A B HT) as (U1 & U2 & U3 & U4). destruct (to_point B HB) as (B1 & B2).
  destruct (setup_facts op RodCpldPin n A B aA aB j7 j6 HN HT) as (T & N0 & L0 & Q0 & A0 & B0 & C0). fold k in T, N0, L0, Q0, A0, B0, C0.
  assert (R0 : k_r7 k = XQ vzero (fromTwoVectors op (heading A B) B)) by (unfold k, rod_setup; cbn [k_r7]; destruct (Nat.eqb_spec n 0); [lia|]; cbn [fst snd]; rewrite U1; reflexivity).
  assert (V0 : v6tl (k_v6 k) = vzero) by reflexivity.
  assert (S0 : k_ves k = (j6, j6, j6)) by reflexivity. clearbody k.
  unfold rod_initiateStep. rewrite T, S0.
  match goal with |- exists k1, Ok (?x, ls) = _ /\ _ => set (k1 := x) end. exists k1. split; [reflexivity|].
  assert (T1 : k_type k1 = RodCpldPin) by exact T.
  unfold rod_updateFairlead at 1. rewrite T1. cbn [k1 with_ves k_ves v6hd v6tl].
  match goal with |- exists k2, Ok (?x, ls) = _ /\ _ => set (k2 := x) end. exists k2. split; [reflexivity|].
  assert (F2 : k_type k2 = RodCpldPin /\ k_n k2 = n /\ k_len k2 = dist3 B A /\ k_q0 k2 = heading A B /\ k_attA k2 = aA /\ k_attB k2 = aB /\ k_ves k2 = k_ves k1) by (unfold k2, k1; cbn [with_ves with_motion k_type k_n k_len k_q0 k_attA k_attB k_ves]; repeat split; assumption).
  destruct F2 as (T2 & N2 & L2 & Q2 & A2 & BB2 & S2).
  assert (P2 : xq_pos (k_r7 k2) = v6hd r) by (unfold k2; cbn [with_motion k_r7 xq_pos]; generalize (v6hd r) (v6hd rd); vring).
  assert (W2 : k_v6 k2 = V6 (v6hd rd) vzero) by (unfold k2, k1; cbn [with_motion with_ves k_v6]; rewrite V0; reflexivity).
  assert (D2 : rod_dir k2 = vscale (/ norm B) B). { unfold rod_dir. rewrite Q2. unfold k2, k1. cbn [with_ves with_motion k_r7 xq_quat]. rewrite R0. cbn [xq_quat]. exact (twoV_dir op _ B _ U2 B1 B2 HC). }
  destruct (dep_total K k2 ls) as (k3 & ls3 & E3 & Ek3 & LI & LN). { rewrite A2, BB2. exact HP. } { rewrite N2. exact HN. }
  rewrite D2, L2, P2, W2 in LI. cbn [v6hd v6tl] in LI.
  exists k3, ls3. split. { unfold rod_initialize. rewrite T2, E3. cbn [obind fst snd]. reflexivity. }
  assert (C1 : forall x, vadd (v6hd rd) (cross vzero x) = v6hd rd) by (intro x; generalize (v6hd rd) x; vring).
  assert (C2 : vscale (dist3 B A) (vscale (/ norm B) B) = vscale (dist3 B A / norm B) B) by (unfold Rdiv; generalize (dist3 B A) (/ norm B); vring).
  rewrite C1, C2 in LI. split; [exact LI|].
  assert (F3 : k_type k3 = RodCpldPin /\ k_n k3 = n /\ k_len k3 = dist3 B A /\ k_q0 k3 = heading A B /\ k_attA k3 = aA /\ k_attB k3 = aB /\ k_ves k3 = k_ves k1) by (rewrite Ek3; cbn [with_ends k_type k_n k_len k_q0 k_attA k_attB k_ves]; repeat split; assumption).
  destruct F3 as (T3 & N3 & L3 & Q3 & A3 & B3 & S3).
  unfold rod_updateFairlead. rewrite T3, S3. cbn [k1 with_ves k_ves v6hd v6tl].
  match goal with |- exists k4, Ok (?x, ls3) = _ /\ _ => set (k4 := x) end. exists k4. split; [reflexivity|].
  assert (F4 : k_type k4 = RodCpldPin /\ k_n k4 = n /\ k_len k4 = dist3 B A /\ k_q0 k4 = heading A B /\ k_attA k4 = aA /\ k_attB k4 = aB) by (unfold k4; cbn [with_motion k_type k_n k_len k_q0 k_attA k_attB]; repeat split; assumption).
  destruct F4 as (T4 & N4 & L4 & Q4' & A4 & B4).
  set (k6 := with_motion k4 (XQ (xq_pos (k_r7 k4)) qident) (V6 (v6hd (k_v6 k4)) vzero) (k_acc k4)).
  assert (D6 : rod_dir k6 = heading A B). { unfold rod_dir. cbn [k6 with_motion k_r7 k_q0 xq_quat]. rewrite Q4'. apply qident_dir. }
  destruct (dep_total K k6 ls3) as (k5 & ls5 & E5 & Ek5 & LI5 & _). { change (proper (k_attA k4) (k_attB k4) ls3). rewrite A4, B4. exact (proper_same _ _ _ _ HP LN). } { change (0 < k_n k4)%nat. rewrite N4. exact HN. }
  rewrite D6 in LI5. unfold k6, k4 in LI5. cbn [with_motion k_r7 k_len k_v6 xq_pos v6hd v6tl] in LI5. rewrite L3, <- U3, C1 in LI5.
  replace (vadd (v6hd r) (vscale 0 (v6hd rd))) with (v6hd r) in LI5 by (generalize (v6hd r) (v6hd rd); vring).
  assert (N5 : k_n k5 = n) by (rewrite Ek5; exact N4). assert (D5 : rod_dir k5 = heading A B) by (rewrite Ek5; exact D6).
  exists (with_q k5 (heading A B)), ls5. split.
  { unfold rod_setState. rewrite T4. cbn [obind xq_quat v6tl v6zero]. fold k6. rewrite E5. cbn [obind fst snd]. rewrite N5. destruct (Nat.eqb_spec n 0); [lia|]. rewrite D5. reflexivity. }
  destruct LI5 as (X1 & X2 & X3 & X4 & X5 & X6 & X7). unfold rod_lies. cbn [with_q k_rA k_rdA k_rB k_rdB k_q k_attA k_attB].
  split; [exact X1|]. split; [exact X2|]. split; [exact X3|]. split; [exact X4|]. split; [reflexivity|]. split; [exact X6|exact X7].
Qed.
Lemma stretch : forall d n B, vscale (d / n) B = vscale d (vscale (/ n) B).
Proof. intros d n [x y z]. unfold vscale, Rdiv. cbn [vx vy vz]. apply v3eq; cbn [vx vy vz]; ring. Qed.
Lemma end_iff : forall d A B u, 0 < d -> (vadd A (vscale d u) = B <-> vscale (/ d) (vsub B A) = u).
Proof.
  intros d [x y z] [x1 y1 z1] [a b c] Hd. split; intro H.
  - rewrite <- H. unfold vadd, vscale, vsub. cbn [vx vy vz]. apply v3eq; cbn [vx vy vz]; field; lra.
  - rewrite <- H. unfold vadd, vscale, vsub. cbn [vx vy vz]. apply v3eq; cbn [vx vy vz]; field; lra.
Qed.
Lemma tol_small : tol < 0.1. Proof. unfold tol. lra. Qed.
