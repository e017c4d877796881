(** Proofs about pinned bodies and about the lines attached to rods *)
From Coq Require Import Reals List Arith Lra Lia.
From Verif Require Import MErr MVec MStateOps MMat MInterp MLine MRod MBody SMat SLine SRod SBody PMat PEuler PLine PLineB PRod PRodB PRodC PBody PBodyB PBodyC PBodyD.
Import ListNotations.
Open Scope R_scope.

Lemma mmulv_zero M : mmulv M vzero = vzero.
Proof. destruct M as [[? ? ?] [? ? ?] [? ? ?]]. unfold mmulv, vzero, dot. cbn. f_equal; ring. Qed.
Lemma pd_block M : symmetric6 M -> (forall t, t <> v6zero -> 0 < energy6 M t) -> symmetric3 (m6br M) /\ forall u, u <> vzero -> 0 < energy3 (m6br M) u.
Proof.
  intros HS HP. destruct M as [A B C D]. unfold symmetric6, m6tran in HS. cbn [m6tl m6tr m6bl m6br] in HS. injection HS as SA SC SB SD. split; [exact SD|].
  intros u Hu. assert (N : V6 vzero u <> v6zero) by (intros E; apply Hu; injection E; auto). pose proof (HP _ N) as P. unfold energy6, v6dot, m6mulv in P. cbn [v6hd v6tl m6tl m6tr m6bl m6br] in P |- *.
  unfold energy3. match type of P with context [dot vzero ?x] => replace (dot vzero x) with 0 in P by (unfold dot; cbn; ring) end.
  revert P. replace (vadd vzero (mmulv D u)) with (mmulv D u) by (generalize (mmulv D u); vring). intros P. rewrite mmulv_zero in P. replace (vadd vzero (mmulv D u)) with (mmulv D u) in P by (generalize (mmulv D u); vring). lra.
Qed.
Lemma pinned_accelerates : forall b e U parts, sensible_body b -> 0 <= rho_w e -> orthogonal (b_Or b) -> proper_parts parts -> b_type b = BCpldPin ->
  let F := fst (body_rhs b e U parts) in let M := snd (body_rhs b e U parts) in
  exists a, body_solves b F M a /\ v6hd a = v6hd (b_a b) /\ v6tl (m6mulv M a) = v6tl F /\
    forall a', v6hd a' = v6hd (b_a b) -> v6tl (m6mulv M a') = v6tl F -> a' = a.
Proof.
  intros b e U parts HS Hr HO HP HT F M. destruct (body_pd b e U parts HS Hr HO HP) as [S P]. fold M in S, P. destruct (pd_block M S P) as [SD PD].
  pose proof (pd_det _ SD PD) as DD. set (f := vsub (v6tl F) (mmulv (m6bl M) (v6hd (b_a b)))).
  assert (EQ : forall a, v6hd a = v6hd (b_a b) -> (v6tl (m6mulv M a) = v6tl F <-> mmulv (m6br M) (v6tl a) = f)).
  { intros a Ha. unfold m6mulv. cbn [v6tl]. rewrite Ha. unfold f. generalize (mmulv (m6bl M) (v6hd (b_a b))), (mmulv (m6br M) (v6tl a)), (v6tl F). intros [? ? ?] [? ? ?] [? ? ?].
    unfold vadd, vsub. cbn. split; intros E; injection E; intros; f_equal; lra. }
  exists (V6 (v6hd (b_a b)) (mmulv (minv (m6br M)) f)).
  assert (Q : mmulv (m6br M) (mmulv (minv (m6br M)) f) = f) by (apply minv_right; exact DD).
  split; [unfold body_solves; rewrite HT; split; [reflexivity|exact Q]|]. split; [reflexivity|]. split; [apply EQ; [reflexivity|exact Q]|].
  intros a' H1 H2. apply EQ in H2; [|exact H1]. destruct a' as [h t]. cbn [v6hd v6tl] in H1, H2. rewrite H1. f_equal.
  destruct (Req_dec (dot (vsub t (mmulv (minv (m6br M)) f)) (vsub t (mmulv (minv (m6br M)) f))) 0) as [E|E].
  - apply dot_zero in E. revert E. generalize (mmulv (minv (m6br M)) f), t. intros [? ? ?] [? ? ?]. unfold vsub, vzero. cbn. intros E; injection E; intros; f_equal; lra.
  - exfalso. assert (N : vsub t (mmulv (minv (m6br M)) f) <> vzero) by (intros C; apply E; rewrite C; unfold dot; cbn; ring).
    pose proof (PD _ N) as X. unfold energy3 in X. rewrite mmulv_sub_r, Q, H2, vsub_self in X.
    match type of X with context [dot ?p vzero] => replace (dot p vzero) with 0 in X by (unfold dot; cbn; ring) end. lra.
Qed.
Lemma pinned_momentum : forall b e U parts mss fs a, dry b e -> rotation (b_Or b) -> b_type b = BCpldPin ->
  length mss = length fs -> Forall2 (fun x mf => balanced_part (v6tl (b_v b)) x (fst mf) (snd mf)) parts (combine mss fs) -> b_a b = a ->
  vadd (vscale (b_M b) (acceleration_at (mmulv (b_Or b) (b_rCG b)) (v6hd a) (v6tl a) (v6tl (b_v b))))
       (vtotal (fun ms => vtotal (carried (v6tl (b_v b)) (v6hd a) (v6tl a)) ms) mss)
  = vsub (vadd (vadd (body_Fgrav b e) (v6hd (body_drag b e U))) (vtotal (fun f => f) fs)) (v6hd (body_getFnet b (fst (body_rhs b e U parts)) (snd (body_rhs b e U parts)))).
Proof.
  intros b e U parts mss fs a HD HR HT HL HB HA.
  pose proof (fold_balance (v6tl (b_v b)) parts mss fs (body_rhs b e U []) (v6hd a) (v6tl a) HB HL) as E. rewrite <- rhs_fold in E.
  pose proof (core_balance b e U (v6hd a) (v6tl a) HD HR) as C. rewrite C in E. unfold body_getFnet. rewrite HT, HA. cbn [v6hd]. unfold m6mulv in E. cbn [v6hd v6tl] in E.
  revert E. generalize (v6hd (fst (body_rhs b e U parts))), (mmulv (m6tl (snd (body_rhs b e U parts))) (v6hd a)), (mmulv (m6tr (snd (body_rhs b e U parts))) (v6tl a)), (vscale (b_M b) (acceleration_at (mmulv (b_Or b) (b_rCG b)) (v6hd a) (v6tl a) (v6tl (b_v b)))),
    (vadd (body_Fgrav b e) (v6hd (body_drag b e U))), (vtotal (fun ms => vtotal (carried (v6tl (b_v b)) (v6hd a) (v6tl a)) ms) mss), (vtotal (fun f => f) fs).
  intros [a1 a2 a3] [b1 b2 b3] [c1 c2 c3] [d1 d2 d3] [e1 e2 e3] [f1 f2 f3] [g1 g2 g3]. unfold vsub, vadd. cbn [vx vy vz]. intros E. injection E; intros. f_equal; lra.
Qed.

(** lines on the ends of a rod *)
Lemma es_total {A} (f : A -> v3) l x : fold_left (fun a s => vadd a (f s)) l x = vadd x (vtotal f l).
Proof.
  revert x. induction l as [|s l IH]; intros x; cbn [fold_left vtotal fold_right]; [generalize x; vring|]. rewrite IH. unfold vtotal. generalize x, (f s), (fold_right (fun (x0 : A) (s0 : v3) => vadd (f x0) s0) vzero l). vring.
Qed.
Lemma vsum_pick n j (g : v3) : (j < n)%nat -> vsum n (fun i => if Nat.eqb i j then g else vzero) = g.
Proof. intros H. apply (vsum_at n j (fun _ => g)). exact H. Qed.
Lemma rod_lines : forall D e k ph be a b, (0 < rn D)%nat ->
  rF6net D e k ph be a b = v6add (rF6net D e k ph be [] [])
    (v6add (V6 (vtotal esF a) (vtotal esM a)) (v6add (wrench_at (vsub (rnode D (rn D)) (rnode D 0)) (vtotal esF b)) (V6 vzero (vtotal esM b)))).
Proof.
  intros D e k ph be a b HN. unfold rF6net, wrench_at, v6add. cbn [v6hd v6tl].
  rewrite !(rF6_sums D _ (rn D + 1) HN (Nat.le_refl _)). cbn [v6hd v6tl].
  assert (SF : forall l, es_force l = vtotal esF l) by (intros l; unfold es_force; rewrite es_total; generalize (vtotal esF l); vring).
  assert (SM : forall l, es_moment l = vtotal esM l) by (intros l; unfold es_moment; rewrite es_total; generalize (vtotal esM l); vring).
  assert (E1 : vsum (rn D + 1) (rFnet D e k ph be a b) = vadd (vadd (vsum (rn D + 1) (rFnet D e k ph be [] [])) (vtotal esF a)) (vtotal esF b)).
  { rewrite (vsum_ext _ _ (fun i => vadd (vadd (rFnet D e k ph be [] [] i) (if Nat.eqb i 0 then vtotal esF a else vzero)) (if Nat.eqb i (rn D) then vtotal esF b else vzero))).
    - rewrite !vsum_add, !vsum_pick by lia. reflexivity.
    - intros i Hi. unfold rFnet. rewrite !SF. cbn [vtotal fold_right]. generalize (rF D e k ph be i), (vtotal esF a), (vtotal esF b). destruct (Nat.eqb i 0), (Nat.eqb i (rn D)); vring. }
  assert (E2 : vsum (rn D + 1) (fun i => cross (vscale (INR i * rl D) (rq D)) (rFnet D e k ph be a b i)) =
     vadd (vsum (rn D + 1) (fun i => cross (vscale (INR i * rl D) (rq D)) (rFnet D e k ph be [] [] i))) (cross (vscale (INR (rn D) * rl D) (rq D)) (vtotal esF b))).
  { rewrite (vsum_ext _ _ (fun i => vadd (cross (vscale (INR i * rl D) (rq D)) (rFnet D e k ph be [] [] i)) (if Nat.eqb i (rn D) then cross (vscale (INR (rn D) * rl D) (rq D)) (vtotal esF b) else vzero))).
    - rewrite !vsum_add, !vsum_pick by lia. reflexivity.
    - intros i Hi. unfold rFnet. rewrite !SF. cbn [vtotal fold_right]. generalize (rF D e k ph be i), (vtotal esF a), (vtotal esF b). destruct (Nat.eqb_spec i (rn D)) as [->|].
      + replace (Nat.eqb (rn D) 0) with false by (symmetry; apply Nat.eqb_neq; lia). generalize (INR (rn D) * rl D), (rq D). vring.
      + destruct (Nat.eqb_spec i 0) as [->|]; cbn [INR]; generalize (rq D); intros q; [replace (vscale (0 * rl D) q) with vzero by (unfold vscale, vzero; f_equal; ring)|generalize (vscale (INR i * rl D) q)]; vring. }
  rewrite E1, E2. unfold rMext. rewrite !SM. cbn [vtotal fold_right].
  assert (NB : vsub (rnode D (rn D)) (rnode D 0) = vscale (INR (rn D) * rl D) (rq D)).
  { rewrite node_0, rnode_at by lia. generalize (INR (rn D) * rl D), (rA D), (rq D). vring. }
  rewrite NB. cbv zeta.
  match goal with |- context [vadd (vadd (vadd ?x ?y) (vtotal esM a)) (vtotal esM b)] => generalize (vadd x y); intros X0 end.
  f_equal.
  - generalize (vsum (rn D + 1) (rFnet D e k ph be [] [])), (vtotal esF a), (vtotal esF b). vring.
  - generalize (vsum (rn D + 1) (fun i => cross (vscale (INR i * rl D) (rq D)) (rFnet D e k ph be [] [] i))), (cross (vscale (INR (rn D) * rl D) (rq D)) (vtotal esF b)), (vtotal esM a), (vtotal esM b). revert X0. vring.
Qed.
