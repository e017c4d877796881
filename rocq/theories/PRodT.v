(** Proofs about rods on pins (MRodS) *)
From Coq Require Import Reals List Lra Lia Arith ZArith.
From Verif Require Import MErr MVec MStateOps MMat MInterp MLine MRod MBody MEnd MRodS SMat SLine SRod SRodS PMat PLine PRod PRodB PRodC.
Import ListNotations.
Open Scope R_scope.

(* ----- the mass matrix of the cylinder from its energy ----- *)
Lemma sym_dot : forall M s t, symmetric6 M -> v6dot s (m6mulv M t) = v6dot t (m6mulv M s).
Proof.
  intros [[[a1 a2 a3] [a4 a5 a6] [a7 a8 a9]] [[b1 b2 b3] [b4 b5 b6] [b7 b8 b9]] [[c1 c2 c3] [c4 c5 c6] [c7 c8 c9]] [[d1 d2 d3] [d4 d5 d6] [d7 d8 d9]]] [[s1 s2 s3] [s4 s5 s6]] [[t1 t2 t3] [t4 t5 t6]] H.
  unfold symmetric6, m6tran, mtr in H. cbn [m6tl m6tr m6bl m6br mr0 mr1 mr2 vx vy vz] in H. injection H as; subst.
  unfold v6dot, m6mulv, mmulv, dot, vadd. cbn [v6hd v6tl m6tl m6tr m6bl m6br mr0 mr1 mr2 vx vy vz]. ring.
Qed.
Lemma polar : forall M s t, symmetric6 M -> v6dot s (m6mulv M t) = energy6 M (v6add s t) - energy6 M s - energy6 M t.
Proof.
  intros M s t H. pose proof (sym_dot M s t H) as E. unfold energy6.
  assert (L : v6dot (v6add s t) (m6mulv M (v6add s t)) = v6dot s (m6mulv M s) + v6dot s (m6mulv M t) + v6dot t (m6mulv M s) + v6dot t (m6mulv M t)).
  { clear. destruct M as [[[a1 a2 a3] [a4 a5 a6] [a7 a8 a9]] [[b1 b2 b3] [b4 b5 b6] [b7 b8 b9]] [[c1 c2 c3] [c4 c5 c6] [c7 c8 c9]] [[d1 d2 d3] [d4 d5 d6] [d7 d8 d9]]], s as [[s1 s2 s3] [s4 s5 s6]], t as [[t1 t2 t3] [t4 t5 t6]].
    unfold v6dot, v6add, m6mulv, mmulv, dot, vadd. cbn [v6hd v6tl m6tl m6tr m6bl m6br mr0 mr1 mr2 vx vy vz]. ring. }
  rewrite L. lra.
Qed.
(* the force and the moment that accelerate the cylinder from rest *)
Definition cyl6 (m L r : R) (q : v3) (t : v6) : v6 :=
  V6 (vscale m (velocity_at (centre L q) t)) (vadd (cross (centre L q) (vscale m (velocity_at (centre L q) t))) (cyl_inertia m L r q (v6tl t))).
Lemma cyl_polar : forall m L r q s t,
  cylinder_energy m L r q (v6add s t) - cylinder_energy m L r q s - cylinder_energy m L r q t = v6dot s (cyl6 m L r q t).
Proof.
  intros m L r [q1 q2 q3] [[s1 s2 s3] [s4 s5 s6]] [[t1 t2 t3] [t4 t5 t6]].
  unfold cylinder_energy, cyl6, cyl_inertia, centre, velocity_at, v6dot, v6add, dot, vadd, vsub, vscale, cross. cbn [v6hd v6tl vx vy vz]. field.
Qed.
Lemma v6_ext : forall a b, (forall s, v6dot s a = v6dot s b) -> a = b.
Proof.
  intros [[a1 a2 a3] [a4 a5 a6]] [[b1 b2 b3] [b4 b5 b6]] H.
  pose proof (H (V6 (V3 1 0 0) vzero)) as H1. pose proof (H (V6 (V3 0 1 0) vzero)) as H2. pose proof (H (V6 (V3 0 0 1) vzero)) as H3.
  pose proof (H (V6 vzero (V3 1 0 0))) as H4. pose proof (H (V6 vzero (V3 0 1 0))) as H5. pose proof (H (V6 vzero (V3 0 0 1))) as H6.
  unfold v6dot, dot, vzero in *. cbn [v6hd v6tl vx vy vz] in *. f_equal; apply v3eq; cbn [vx vy vz]; lra.
Qed.
Lemma cyl_matrix : forall m L r q M, symmetric6 M -> (forall t, energy6 M t = cylinder_energy m L r q t) -> forall t, m6mulv M t = cyl6 m L r q t.
Proof. intros m L r q M HS HE t. apply v6_ext. intro s. rewrite polar by exact HS. rewrite !HE. apply cyl_polar. Qed.
(* the force and moment of the weight in vacuum *)
Lemma vac_force : forall D e k ph be zeta, sensible_rod D -> rho_w e = 0 -> calm k zeta -> off_bottom D k ->
  rF6net D e k ph be [] [] = V6 (weight (rmass D) (gr e)) (cross (centre (rlen D) (rq D)) (weight (rmass D) (gr e))).
Proof.
  intros D e k ph be zeta HS E0 HK OB. pose proof HS as (HN & Hd & Hr & HL & _). pose proof (N_pos D HN) as HNp.
  unfold rF6net. rewrite rF6_sums by lia. cbn [v6hd v6tl].
  assert (FE : forall i, (i < rn D + 1)%nat -> rFnet D e k ph be [] [] i = vscale (rmi D i) (V3 0 0 (- gr e))).
  { intros i Hi. unfold rFnet, es_force. cbn [fold_left].
    replace (if Nat.eqb i 0 then vzero else vzero) with vzero by (destruct (Nat.eqb _ _); reflexivity).
    replace (if Nat.eqb i (rn D) then vzero else vzero) with vzero by (destruct (Nat.eqb _ _); reflexivity). rewrite !vadd_0_r.
    rewrite (vacuum_forces D e k ph be zeta i HN ltac:(lia) HK OB E0). unfold rW. destruct (Nat.eqb_spec (rn D) 0); [lia|].
    unfold vscale. cbn [vx vy vz]. apply v3eq; cbn [vx vy vz]; ring. }
  assert (ME : rMext D e k ph be [] [] = vzero).
  { unfold rMext, es_moment. cbn [fold_left]. cbv zeta. rewrite !vadd_0_r.
    assert (Z : forall s i, rMEnd D e (wzeta k (rn D)) ph be s i = vzero).
    { intros s i. unfold rMEnd. rewrite E0. destruct (rwetEnd _ _ _ _); [|reflexivity]. unfold vzero. apply v3eq; cbn [vx vy vz]; ring. }
    rewrite !Z, E0, vadd_0_r.
    assert (Y : forall x, vscale (1 / 16 * PI * rdia D * rdia D * rdia D * rdia D * 0 * gr e * sin ph * cos ph) x = vzero).
    { intro x. replace (1 / 16 * PI * rdia D * rdia D * rdia D * rdia D * 0 * gr e * sin ph * cos ph) with 0 by ring. generalize x. vring. }
    destruct (Rlt_dec _ _); [destruct (Rlt_dec _ _); [rewrite Y|]|]; vring. }
  rewrite ME, vadd_0_r.
  rewrite (vsum_ext _ (rFnet D e k ph be [] []) (fun i => vscale (rmi D i) (V3 0 0 (- gr e)))) by exact FE.
  rewrite vsum_const.
  assert (SM : nsum (rn D + 1) (rmi D) = rmass D).
  { rewrite (nsum_ext _ _ (fun i => rArea D * rrho D * rl D * hw D i)) by (intros; apply rmi_hw). rewrite nsum_scale, w_1 by assumption.
    rewrite rl_pos_n by assumption. unfold rArea, rmass. field. lra. }
  rewrite SM.
  rewrite (vsum_ext _ _ (fun i => vscale (rArea D * rrho D * rl D * rl D * (hw D i * INR i)) (cross (rq D) (V3 0 0 (- gr e))))).
  2: { intros i Hi. rewrite FE by exact Hi. rewrite rmi_hw. generalize (rArea D * rrho D) (rl D) (hw D i) (INR i) (rq D). intros a b c d [x y z]. unfold cross, vscale. cbn [vx vy vz]. apply v3eq; cbn [vx vy vz]; ring. }
  rewrite vsum_const, nsum_scale, w_i by assumption. rewrite rl_pos_n by assumption.
  replace (rArea D * rrho D * (rlen D / INR (rn D)) * (rlen D / INR (rn D)) * (INR (rn D) * INR (rn D) / 2)) with (rmass D * (rlen D / 2)) by (unfold rmass, rArea; field; lra).
  unfold weight, centre. generalize (rmass D) (rlen D / 2) (gr e) (rq D). intros m l g [x y z]. f_equal; unfold cross, vscale; cbn [vx vy vz]; apply v3eq; cbn [vx vy vz]; ring.
Qed.

(* ----- rods on pins ----- *)
Lemma vac_mass : forall D e wk ph be zeta M, in_vacuum D e wk ph be zeta -> rM6net D e wk ph be [] [] = Some M ->
  symmetric6 M /\ forall t, m6mulv M t = cyl6 (rmass D) (rlen D) (rdia D / 2) (rq D) t.
Proof.
  intros D e wk ph be zeta M (HS & HF & HH & HA & E0 & HK & OB) HM.
  destruct (rod_inertia D e wk ph be HS HF HH HA E0) as (M' & E & S & EN). assert (M' = M) by congruence. subst M'.
  split; [exact S|]. exact (cyl_matrix _ _ _ _ M S EN).
Qed.
(* the moment that is missing in the equation of a rod that spins about its axis *)
Lemma gyro : forall m L r q a al w, dot q q = 1 ->
  cyl_moment m L r q a al w = vadd (v6tl (cyl6 m L r q (V6 a al))) (vscale (dot w q * (m * (r * r / 4 - L * L / 3))) (cross w q)).
Proof.
  intros m L r q a al w Hq. unfold cyl_moment, cyl6, cyl_force, acceleration_at, velocity_at. cbn [v6hd v6tl].
  assert (E1 : cross (centre L q) (vscale m (cross w (cross w (centre L q)))) = vscale (- (dot w q * (m * (L * L / 4)))) (cross w q)).
  { unfold centre. destruct q as [x y z], w as [a1 a2 a3]. unfold dot, cross, vscale. cbn [vx vy vz]. apply v3eq; cbn [vx vy vz]; field. }
  assert (E2 : cross w (cyl_inertia m L r q w) = vscale (dot w q * (m * (r * r / 4 - L * L / 12))) (cross w q)).
  { unfold cyl_inertia. destruct q as [x y z], w as [a1 a2 a3]. unfold dot, cross, vadd, vsub, vscale. cbn [vx vy vz]. apply v3eq; cbn [vx vy vz]; field. }
  rewrite E2.
  replace (cross (centre L q) (vscale m (vadd (vadd a (cross al (centre L q))) (cross w (cross w (centre L q)))))) with
    (vadd (cross (centre L q) (vscale m (vadd a (cross al (centre L q))))) (cross (centre L q) (vscale m (cross w (cross w (centre L q)))))) by (generalize (centre L q) (vadd a (cross al (centre L q))) (cross w (cross w (centre L q))); intros [x y z] [x1 y1 z1] [x2 y2 z2]; unfold cross, vadd, vscale; cbn [vx vy vz]; apply v3eq; cbn [vx vy vz]; ring).
  rewrite E1. generalize (cross (centre L q) (vscale m (vadd a (cross al (centre L q))))) (cyl_inertia m L r q al) (cross w q) (dot w q). intros [x y z] [x1 y1 z1] [x2 y2 z2] d.
  unfold vadd, vscale. cbn [vx vy vz]. apply v3eq; cbn [vx vy vz]; field.
Qed.
Lemma m6_tail : forall M a al, v6tl (m6mulv M (V6 a al)) = vadd (mmulv (m6bl M) a) (mmulv (m6br M) al).
Proof. reflexivity. Qed.
Lemma pin_turns : forall p k e wk ph be zeta M a, in_vacuum (rod_now p k) e wk ph be zeta -> k_type k <> RodFree ->
  rM6net (rod_now p k) e wk ph be [] [] = Some M -> rod_solves k (rF6net (rod_now p k) e wk ph be [] []) M a ->
  let m := rmass (rod_now p k) in let L := k_len k in let r := rdia p / 2 in let q := k_q k in let w := v6tl (k_v6 k) in
  cyl_moment m L r q (v6hd (k_acc k)) (v6tl a) w
    = vadd (cross (centre L q) (weight m (gr e))) (vscale (dot w q * (m * (r * r / 4 - L * L / 3))) (cross w q)).
Proof.
  intros p k e wk ph be zeta M a HV HT HM HS m L r q w.
  assert (Hq : dot q q = 1) by (destruct HV as (_ & _ & (Hh & _) & _); exact Hh).
  rewrite (gyro m L r q _ _ w Hq). f_equal.
  destruct (vac_mass _ _ _ _ _ _ _ HV HM) as [_ MM].
  assert (Ev : mmulv (m6br M) (v6tl a) = vsub (v6tl (rF6net (rod_now p k) e wk ph be [] [])) (mmulv (m6bl M) (v6hd (k_acc k)))).
  { unfold rod_solves in HS. destruct (k_type k); try contradiction; exact (proj2 HS). }
  pose proof (f_equal v6tl (MM (V6 (v6hd (k_acc k)) (v6tl a)))) as E. rewrite m6_tail, Ev in E. cbn [rlen rdia rq rod_now] in E. fold m L r q in E.
  rewrite <- E. destruct HV as (W1 & W2 & W3 & W4 & W5 & W6 & W7). rewrite (vac_force _ _ _ _ _ _ W1 W5 W6 W7). cbn [v6tl rlen rq rod_now]. fold m L q.
  generalize (cross (centre L q) (weight m (gr e))) (mmulv (m6bl M) (v6hd (k_acc k))). vring.
Qed.
Lemma pin_force : forall p k e wk ph be zeta M, in_vacuum (rod_now p k) e wk ph be zeta -> k_type k = RodCpldPin ->
  rM6net (rod_now p k) e wk ph be [] [] = Some M ->
  let m := rmass (rod_now p k) in let L := k_len k in let q := k_q k in let w := v6tl (k_v6 k) in
  rod_getFnet k (rF6net (rod_now p k) e wk ph be [] []) M
    = V6 (vadd (vsub (weight m (gr e)) (cyl_force m L q (v6hd (k_acc k)) (v6tl (k_acc k)) w)) (vscale m (cross w (cross w (centre L q))))) vzero.
Proof.
  intros p k e wk ph be zeta M HV HT HM m L q w. unfold rod_getFnet. rewrite HT.
  destruct (vac_mass _ _ _ _ _ _ _ HV HM) as [_ MM].
  pose proof (f_equal v6hd (MM (V6 (v6hd (k_acc k)) (v6tl (k_acc k))))) as E. unfold m6mulv, cyl6, velocity_at in E. cbn [v6hd v6tl rlen rdia rq rod_now] in E. fold m L q in E.
  destruct HV as (W1 & W2 & W3 & W4 & W5 & W6 & W7). rewrite (vac_force _ _ _ _ _ _ W1 W5 W6 W7). cbn [v6hd rlen rq rod_now]. fold m L q. f_equal.
  unfold cyl_force, acceleration_at.
  transitivity (vsub (weight m (gr e)) (vadd (mmulv (m6tl M) (v6hd (k_acc k))) (mmulv (m6tr M) (v6tl (k_acc k))))).
  { generalize (weight m (gr e)) (mmulv (m6tl M) (v6hd (k_acc k))) (mmulv (m6tr M) (v6tl (k_acc k))). vring. }
  rewrite E. generalize (weight m (gr e)) (vadd (v6hd (k_acc k)) (cross (v6tl (k_acc k)) (centre L q))) (cross w (cross w (centre L q))) m. vring.
Qed.
(* what a coupled rod hands to the vessel *)
Lemma clamp_force : forall p k e wk ph be zeta M, in_vacuum (rod_now p k) e wk ph be zeta -> k_type k = RodCoupled ->
  rM6net (rod_now p k) e wk ph be [] [] = Some M ->
  let m := rmass (rod_now p k) in let L := k_len k in let r := rdia p / 2 in let q := k_q k in let w := v6tl (k_v6 k) in
  rod_getFnet k (rF6net (rod_now p k) e wk ph be [] []) M
    = V6 (vadd (vsub (weight m (gr e)) (cyl_force m L q (v6hd (k_acc k)) (v6tl (k_acc k)) w)) (vscale m (cross w (cross w (centre L q)))))
         (vadd (vsub (cross (centre L q) (weight m (gr e))) (cyl_moment m L r q (v6hd (k_acc k)) (v6tl (k_acc k)) w)) (vscale (dot w q * (m * (r * r / 4 - L * L / 3))) (cross w q))).
Proof.
  intros p k e wk ph be zeta M HV HT HM m L r q w. unfold rod_getFnet. rewrite HT.
  assert (Hq : dot q q = 1) by (destruct HV as (_ & _ & (Hh & _) & _); exact Hh).
  destruct (vac_mass _ _ _ _ _ _ _ HV HM) as [_ MM]. rewrite MM. cbn [rlen rdia rq rod_now]. fold m L r q.
  destruct HV as (W1 & W2 & W3 & W4 & W5 & W6 & W7). rewrite (vac_force _ _ _ _ _ _ W1 W5 W6 W7). cbn [rlen rq rod_now]. fold m L q.
  rewrite (gyro m L r q _ _ w Hq). unfold v6sub. cbn [v6hd v6tl]. f_equal.
  - unfold cyl_force, acceleration_at, cyl6, velocity_at. cbn [v6hd v6tl]. generalize (weight m (gr e)) (vadd (v6hd (k_acc k)) (cross (v6tl (k_acc k)) (centre L q))) (cross w (cross w (centre L q))) m. vring.
  - destruct (k_acc k) as [ka kb]. cbn [v6hd v6tl]. generalize (cross (centre L q) (weight m (gr e))) (v6tl (cyl6 m L r q (V6 ka kb))) (vscale (dot w q * (m * (r * r / 4 - L * L / 3))) (cross w q)). vring.
Qed.
(* ----- what a rod hands to its body ----- *)
Lemma cent_sum : forall D M rRef w n, rod_cent D M rRef w n = vscale (-1) (vsum n (fun i => mmulv (M i) (cross w (cross w (vsub (rnode D i) rRef))))).
Proof.
  induction n as [|n IH]; cbn [rod_cent vsum]; [vring|]. rewrite IH. generalize (vsum n (fun i => mmulv (M i) (cross w (cross w (vsub (rnode D i) rRef))))) (mmulv (M n) (cross w (cross w (vsub (rnode D n) rRef)))). vring.
Qed.
Lemma cent_vacuum : forall D e wk ph w, sensible_rod D -> rho_w e = 0 ->
  rod_cent D (rMnet D e wk ph [] []) (rA D) w (rn D + 1) = vscale (- rmass D) (cross w (cross w (centre (rlen D) (rq D)))).
Proof.
  intros D e wk ph w (HN & Hd & Hr & HL & _) E0. pose proof (N_pos D HN) as HNp. rewrite cent_sum.
  rewrite (vsum_ext _ _ (fun i => vscale (rArea D * rrho D * rl D * rl D * (hw D i * INR i)) (cross w (cross w (rq D))))).
  2: { intros i Hi. rewrite rMnet_vacuum by exact E0. rewrite rnode_at by lia. rewrite rmi_hw. generalize (rA D) (rq D) (rl D) (hw D i) (INR i) (rArea D * rrho D). intros [x y z] [x1 y1 z1] a b c d. destruct w as [w1 w2 w3].
       unfold cross, vscale, vsub, vadd. cbn [vx vy vz]. apply v3eq; cbn [vx vy vz]; ring. }
  rewrite vsum_const, nsum_scale, w_i by assumption. rewrite rl_pos_n by assumption.
  replace (rArea D * rrho D * (rlen D / INR (rn D)) * (rlen D / INR (rn D)) * (INR (rn D) * INR (rn D) / 2)) with (rmass D * (rlen D / 2)) by (unfold rmass, rArea; field; lra).
  unfold centre. generalize (rmass D) (rlen D / 2) (rq D). intros m l [x y z]. destruct w as [w1 w2 w3]. unfold cross, vscale. cbn [vx vy vz]. apply v3eq; cbn [vx vy vz]; ring.
Qed.
Lemma mm_0_r : forall A, mmul A mzero = mzero.
Proof. intros [[a b c] [d e f] [g h i]]. unfold mmul, mmulv, mtr, mzero, vzero, dot. cbn [mr0 mr1 mr2 vx vy vz]. f_equal; apply v3eq; cbn [vx vy vz]; ring. Qed.
Lemma mm_0_l : forall A, mmul mzero A = mzero.
Proof. intros [[a b c] [d e f] [g h i]]. unfold mmul, mmulv, mtr, mzero, vzero, dot. cbn [mr0 mr1 mr2 vx vy vz]. f_equal; apply v3eq; cbn [vx vy vz]; ring. Qed.
Lemma ma_0_l : forall A, madd mzero A = A.
Proof. intros [[a b c] [d e f] [g h i]]. unfold madd, vadd, mzero, vzero. cbn [mr0 mr1 mr2 vx vy vz]. f_equal; apply v3eq; cbn [vx vy vz]; ring. Qed.
Lemma translate_none : forall M, symmetric6 M -> translateMass6 vzero M = M.
Proof.
  intros [A B C D] H. unfold symmetric6, m6tran in H. cbn [m6tl m6tr m6bl m6br] in H.
  assert (HB : mtr B = C) by congruence.
  unfold translateMass6. cbn [m6tl m6tr m6bl m6br].
  assert (G : getH vzero = mzero) by (unfold getH, mzero, vzero; cbn [vx vy vz]; f_equal; apply v3eq; cbn [vx vy vz]; ring).
  rewrite G. change (mtr mzero) with mzero. rewrite !mm_0_r, !mm_0_l, !ma_0_l, HB. reflexivity.
Qed.
(* body with its reference point at the pin, acceleration [a], [al], angular velocity [w] *)
Lemma handed : forall p k e wk ph be zeta M a al w, in_vacuum (rod_now p k) e wk ph be zeta ->
  rM6net (rod_now p k) e wk ph be [] [] = Some M ->
  let m := rmass (rod_now p k) in let L := k_len k in let r := rdia p / 2 in let q := k_q k in
  let h := rod_handed p k (rF6net (rod_now p k) e wk ph be [] []) M (rMnet (rod_now p k) e wk ph [] []) (k_rA k) w in
  v6sub (fst h) (m6mulv (snd h) (V6 a al)) =
    V6 (vsub (weight m (gr e)) (cyl_force m L q a al w))
       (vadd (vsub (cross (centre L q) (weight m (gr e))) (cyl_moment m L r q a al w)) (vscale (dot w q * (m * (r * r / 4 - L * L / 3))) (cross w q))).
Proof.
  intros p k e wk ph be zeta M a al w HV HM m L r q h.
  assert (Hq : dot q q = 1) by (destruct HV as (_ & _ & (Hh & _) & _); exact Hh).
  destruct (vac_mass _ _ _ _ _ _ _ HV HM) as [SY MM]. destruct HV as (W1 & W2 & W3 & W4 & W5 & W6 & W7).
  assert (HN : (0 < rn (rod_now p k))%nat) by exact (proj1 W1).
  unfold h, rod_handed, rod_share. destruct (Nat.eqb_spec (rn (rod_now p k)) 0) as [Z|_]; [lia|].
  assert (R0 : vsub (rnode (rod_now p k) 0) (k_rA k) = vzero) by (unfold rnode; cbn [Nat.eqb rA rod_now]; generalize (k_rA k); vring).
  rewrite R0. cbn [fst snd]. rewrite translate_none by exact SY. rewrite MM.
  pose proof (cent_vacuum (rod_now p k) e wk ph w W1 W5) as C. cbn [rA rod_now rlen rq] in C. rewrite C. clear C.
  rewrite (vac_force _ _ _ _ _ _ W1 W5 W6 W7). cbn [v6hd v6tl rlen rdia rq rod_now]. fold m L r q.
  rewrite (gyro m L r q a al w Hq). unfold v6sub. cbn [v6hd v6tl]. f_equal.
  - unfold cyl_force, acceleration_at, cyl6, velocity_at. cbn [v6hd v6tl]. generalize (weight m (gr e)) (vadd a (cross al (centre L q))) (cross w (cross w (centre L q))) m. vring.
  - generalize (cross (centre L q) (weight m (gr e))) (v6tl (cyl6 m L r q (V6 a al))) (weight m (gr e)) (vscale (dot w q * (m * (r * r / 4 - L * L / 3))) (cross w q)). vring.
Qed.
Lemma lever : forall m L g q, m * g <> 0 -> L <> 0 -> (vx q <> 0 \/ vy q <> 0) -> cross (centre L q) (weight m g) <> vzero.
Proof.
  intros m L g [x y z] Hm HL Hq E. unfold cross, centre, weight, vscale, vzero in E. cbn [vx vy vz] in *. injection E as E1 E2.
  assert (Y : L * (m * g) * y = 0) by lra. assert (X : L * (m * g) * x = 0) by lra.
  assert (NZ : L * (m * g) <> 0) by (apply Rmult_integral_contrapositive_currified; assumption).
  destruct Hq as [Hx|Hx]; [apply Rmult_integral in X; tauto|apply Rmult_integral in Y; tauto].
Qed.

(* ----- the acceleration of the pin ----- *)
Lemma dep_keeps : forall K k ls k' ls', rod_dependent K k ls = Ok (k', ls') -> k_type k' = k_type k /\ k_acc k' = k_acc k.
Proof.
  intros K k ls k' ls' H. unfold rod_dependent in H. cbv zeta in H. destruct (setDependentStates _ _ _) as [x| | |]; cbn [obind] in H; try discriminate. injection H as <- _. split; reflexivity.
Qed.
Lemma state_keeps : forall K k p v ls k' ls', rod_setState K k p v ls = Ok (k', ls') -> k_type k' = k_type k /\ k_acc k' = k_acc k /\ v6tl (k_v6 k') = (if Nat.eqb (k_n k) 0 then vzero else v6tl v).
Proof.
  intros K k p v ls k' ls' H. unfold rod_setState in H.
  destruct (k_type k) eqn:T; cbn [obind] in H; try discriminate;
  (match type of H with context [rod_dependent K ?x ls] => set (k1 := x) in *; destruct (rod_dependent K k1 ls) as [[k2 l2]| | |] eqn:E end; cbn [obind fst snd] in H; try discriminate;
   destruct (dep_keeps _ _ _ _ _ E) as [T2 A2];
   assert (NV : k_n k2 = k_n k1 /\ k_v6 k2 = k_v6 k1) by (unfold rod_dependent in E; cbv zeta in E; destruct (setDependentStates _ _ _) as [x| | |]; cbn [obind] in E; try discriminate; injection E as <- _; split; reflexivity);
   destruct NV as [N2 V2]; rewrite N2 in H; change (k_n k1) with (k_n k) in H; destruct (Nat.eqb (k_n k) 0); injection H as <- _; cbn [with_q with_motion k_type k_acc k_v6 v6tl]; (split; [rewrite T2; exact T|]); (split; [rewrite A2; reflexivity|]); rewrite ?V2; reflexivity).
Qed.
Lemma pinned_rest : forall op K k, pinned_life op K k -> k_type k = RodPinned /\ v6hd (k_acc k) = vzero.
Proof.
  intros op K k H. induction H as [n A B aA aB j7 j6|k ls p v k' ls' _ [T A] E|k ls r rd k' ls' _ [T A] E|k ls p v k' ls' _ [T A] E|k F M a _ [T A] E].
  - split; reflexivity.
  - unfold rod_initialize in E. rewrite T in E. destruct (rod_dependent K k ls) as [[k1 l1]| | |] eqn:D; cbn [obind fst snd] in E; try discriminate. injection E as _ _ <- _. destruct (dep_keeps _ _ _ _ _ D) as [-> ->]. split; assumption.
  - unfold rod_setKinematics in E. rewrite T in E. cbn [obind fst snd] in E. injection E as <- _. split; assumption.
  - destruct (state_keeps _ _ _ _ _ _ _ E) as (-> & -> & _). split; assumption.
  - unfold rod_solves in E. rewrite T in E. cbn [rod_keeps with_motion k_type k_acc]. split; [exact T|exact (proj1 E)].
Qed.
(* the pin of a rod on the vessel has the acceleration the vessel gives *)
Lemma cpin_acc : forall K k t ls k1 ls1 p v k2 ls2, k_type k = RodCpldPin -> rod_updateFairlead K k t ls = Ok (k1, ls1) -> rod_setState K k1 p v ls1 = Ok (k2, ls2) ->
  k_type k2 = RodCpldPin /\ v6hd (k_acc k2) = v6hd (snd (k_ves k)) /\ v6tl (k_acc k2) = v6tl (k_acc k).
Proof.
  intros K k t ls k1 ls1 p v k2 ls2 T E1 E2. unfold rod_updateFairlead in E1. rewrite T in E1. destruct (k_ves k) as [[r rd] rdd]. injection E1 as <- <-.
  destruct (state_keeps _ _ _ _ _ _ _ E2) as (T2 & A2 & _). rewrite T2, A2. split; [exact T|]. split; reflexivity.
Qed.
Lemma falling : forall op K p k e wk ph be zeta M a, pinned_life op K k -> in_vacuum (rod_now p k) e wk ph be zeta -> v6tl (k_v6 k) = vzero -> gr e <> 0 -> (vx (k_q k) <> 0 \/ vy (k_q k) <> 0) ->
  rM6net (rod_now p k) e wk ph be [] [] = Some M -> rod_solves k (rF6net (rod_now p k) e wk ph be [] []) M a -> v6tl a <> vzero.
Proof.
  intros op K p k e wk ph be zeta M a HL HV HW HG HQ HM HS E. destruct (pinned_rest op K k HL) as [T A].
  pose proof (pin_turns p k e wk ph be zeta M a HV ltac:(congruence) HM HS) as P. cbv zeta in P. rewrite A, E, HW in P.
  pose proof (rmass_pos _ (proj1 HV)) as MP. assert (LP : 0 < k_len k) by (destruct HV as ((_ & _ & _ & LP & _) & _); exact LP).
  apply (lever (rmass (rod_now p k)) (k_len k) (gr e) (k_q k)); [apply Rmult_integral_contrapositive_currified; [lra|exact HG]|lra|exact HQ|].
  transitivity (vadd (cross (centre (k_len k) (k_q k)) (weight (rmass (rod_now p k)) (gr e))) (vscale (dot vzero (k_q k) * (rmass (rod_now p k) * (rdia p / 2 * (rdia p / 2) / 4 - k_len k * k_len k / 3))) (cross vzero (k_q k)))).
  { generalize (cross (centre (k_len k) (k_q k)) (weight (rmass (rod_now p k)) (gr e))) (k_q k) (rmass (rod_now p k) * (rdia p / 2 * (rdia p / 2) / 4 - k_len k * k_len k / 3)). intros [x y z] [x1 y1 z1] c. unfold vadd, vscale, cross, vzero. cbn [vx vy vz]. apply v3eq; cbn [vx vy vz]; ring. }
  rewrite <- P. unfold cyl_moment, cyl_force, cyl_inertia, acceleration_at. generalize (centre (k_len k) (k_q k)) (k_q k) (rmass (rod_now p k)) (rmass (rod_now p k) * (rdia p / 2 * (rdia p / 2) / 4 + k_len k * k_len k / 12)) (rmass (rod_now p k) * (rdia p / 2 * (rdia p / 2)) / 2).
  intros [x y z] [x1 y1 z1] c1 c2 c3. unfold vadd, vsub, vscale, cross, dot, vzero. cbn [vx vy vz]. apply v3eq; cbn [vx vy vz]; ring.
Qed.
(* the equations have a solution *)
Lemma cyl_solve : forall m L r q T, 0 < m -> 0 < L -> 0 < r -> dot q q = 1 -> exists al, v6tl (cyl6 m L r q (V6 vzero al)) = T.
Proof.
  intros m L r q T Hm HL Hr Hq.
  set (K1 := m * (r * r / 4 + L * L / 12) + m * (L * L / 4)). set (K2 := m * (r * r) / 2).
  assert (P1 : 0 < K1). { unfold K1. assert (0 < r * r) by nra. assert (0 < L * L) by nra. assert (0 < m * (r * r / 4 + L * L / 12)) by (apply Rmult_lt_0_compat; lra). assert (0 < m * (L * L / 4)) by (apply Rmult_lt_0_compat; lra). lra. }
  assert (P2 : 0 < K2). { unfold K2. assert (0 < r * r) by nra. assert (0 < m * (r * r)) by (apply Rmult_lt_0_compat; lra). lra. }
  assert (F : forall al, v6tl (cyl6 m L r q (V6 vzero al)) = vadd (vscale K1 (vsub al (vscale (dot al q) q))) (vscale (K2 * dot al q) q)).
  { intro al. unfold cyl6. cbn [v6hd v6tl]. unfold velocity_at. cbn [v6hd v6tl].
    assert (E : cross (centre L q) (vscale m (vadd vzero (cross al (centre L q)))) = vscale (m * (L * L / 4)) (vsub (vscale (dot q q) al) (vscale (dot al q) q))).
    { unfold centre. destruct al as [a b c], q as [x y z]. unfold cross, vscale, vadd, vsub, vzero, dot. cbn [vx vy vz]. apply v3eq; cbn [vx vy vz]; field. }
    rewrite E, Hq. unfold cyl_inertia, K1, K2. destruct al as [a b c], q as [x y z]. generalize (dot (V3 a b c) (V3 x y z)). intro d. unfold vscale, vadd, vsub. cbn [vx vy vz]. apply v3eq; cbn [vx vy vz]; ring. }
  exists (vadd (vscale (/ K1) (vsub T (vscale (dot T q) q))) (vscale (/ K2 * dot T q) q)). rewrite F.
  assert (D : dot (vadd (vscale (/ K1) (vsub T (vscale (dot T q) q))) (vscale (/ K2 * dot T q) q)) q = / K2 * dot T q).
  { transitivity (/ K1 * (dot T q - dot T q * dot q q) + / K2 * dot T q * dot q q).
    - destruct T as [a b c], q as [x y z]. unfold vscale, vadd, vsub, dot. cbn [vx vy vz]. ring.
    - rewrite Hq. ring. }
  rewrite D. generalize (dot T q). intro d. clearbody K1 K2. destruct T as [a b c], q as [x y z]. unfold vscale, vadd, vsub. cbn [vx vy vz]. apply v3eq; cbn [vx vy vz]; field; split; lra.
Qed.
Lemma pin_solvable : forall p k e wk ph be zeta, in_vacuum (rod_now p k) e wk ph be zeta -> k_type k <> RodFree ->
  exists M a, rM6net (rod_now p k) e wk ph be [] [] = Some M /\ rod_solves k (rF6net (rod_now p k) e wk ph be [] []) M a.
Proof.
  intros p k e wk ph be zeta HV HT. pose proof HV as (HS & HF & HH & HA & E0 & HK & OB).
  destruct (rod_inertia _ e wk ph be HS HF HH HA E0) as (M & E & _ & _). destruct (vac_mass _ _ _ _ _ _ _ HV E) as [_ MM].
  pose proof (rmass_pos _ HS) as MP. pose proof HS as (_ & Hd & _ & HL & _). cbn [rdia rlen rod_now] in Hd, HL.
  destruct (cyl_solve (rmass (rod_now p k)) (k_len k) (rdia p / 2) (k_q k) (vsub (v6tl (rF6net (rod_now p k) e wk ph be [] [])) (mmulv (m6bl M) (v6hd (k_acc k)))) MP HL ltac:(lra) (proj1 HH)) as (al & EA).
  exists M, (V6 vzero al). split; [exact E|].
  assert (B : mmulv (m6br M) al = vsub (v6tl (rF6net (rod_now p k) e wk ph be [] [])) (mmulv (m6bl M) (v6hd (k_acc k)))).
  { rewrite <- EA. pose proof (f_equal v6tl (MM (V6 vzero al))) as X. rewrite m6_tail in X. cbn [rlen rdia rq rod_now] in X. rewrite <- X.
    assert (Z : mmulv (m6bl M) vzero = vzero) by (unfold mmulv, dot, vzero; cbn [vx vy vz]; apply v3eq; cbn [vx vy vz]; ring). rewrite Z. generalize (mmulv (m6br M) al). vring. }
  unfold rod_solves. cbn [v6hd v6tl]. destruct (k_type k); try contradiction; split; [reflexivity|exact B|reflexivity|exact B|reflexivity|exact B|reflexivity|exact B].
Qed.
(* an inclined rod on a pin, in vacuum: two segments, 4 m *)
Definition props1 : rod := rod1 vzero vzero vzero.
Definition env_air : envc := Envc 0 9.8 0 0 0 0 1.
Definition hung (t : rodtype) (w : v3) (acc : v6) : rodk :=
  Rodk t 2 4 (V3 0.6 0 0.8) (V3 0.6 0 0.8) (XQ vzero qident) (V6 vzero w) acc (v6zero, v6zero, v6zero) vzero vzero (V3 2.4 0 3.2) vzero [] [].
