(** Proofs about the Fourier transforms: every butterfly computes the sums of its columns *)
From Coq Require Import Reals List Arith Lra Lia Bool ZArith.
From Verif Require Import MErr MStateOps MFFT SFFT PFFT.
Import ListNotations.
Local Open Scope nat_scope.

Definition stage (c : cfg) (n fs p m : nat) : Prop :=
  nfft c = n /\ 0 < n /\ (forall i, i < n -> twiddles c i = W (inverse c) n i) /\ fs * (p * m) = n /\ 0 < p /\ 0 < m.
Lemma tw1 c n fs p m u q i : stage c n fs p m -> q < p -> u < m -> i = q * u * fs -> twiddles c i = W (inverse c) n (q * u * fs).
Proof. intros (A & B & C & D & E & F) Hq Hu ->. eapply tw_ok; eassumption. Qed.
Lemma tw2 c n fs p m q i : stage c n fs p m -> q < p -> i = fs * m * q -> twiddles c i = cpow (w1 c n fs m) q.
Proof.
  intros (A & B & C & D & E & F) Hq ->. rewrite C.
  - unfold w1. apply W_pow. exact B.
  - rewrite <- D. assert (0 < fs) by (destruct fs; [cbn in D; lia|lia]). assert (m * q < m * p) by (apply Nat.mul_lt_mono_pos_l; lia). nia.
Qed.
Lemma term c n fs p m u q q1 : stage c n fs p m -> W (inverse c) n (fs * q * (u + q1 * m)) = cmul (W (inverse c) n (q * u * fs)) (cpow (w1 c n fs m) (q * q1)).
Proof. intros (A & B & C & D & E & F). apply G_term. exact B. Qed.
Lemma term0 c n fs p m u : stage c n fs p m -> W (inverse c) n (0 * u * fs) = c1.
Proof. intros (A & B & _). apply W_0. exact B. Qed.
Lemma root c n fs p m : stage c n fs p m -> w1 c n fs m = cexp (sgn (inverse c) * (2 * PI / INR p)) /\ cpow (w1 c n fs m) p = c1.
Proof. intros (A & B & C & D & E & F). split; [eapply w1_val|eapply w1_p]; eassumption. Qed.

Ltac idx := repeat match goal with |- context [Nat.eqb ?a ?b] => first
  [ replace (Nat.eqb a b) with true by (symmetry; apply Nat.eqb_eq; lia)
  | replace (Nat.eqb a b) with false by (symmetry; apply Nat.eqb_neq; lia) ] end.

Lemma root2 c n fs m : stage c n fs 2 m -> w1 c n fs m = Cx (-1) 0.
Proof.
  intros H. destruct (root _ _ _ _ _ H) as [-> _]. cbn [INR]. replace (2 * PI / (1 + 1))%R with PI by field. unfold sgn.
  destruct (inverse c); [rewrite Rmult_1_l|replace (-1 * PI)%R with (- PI)%R by ring; rewrite cexp_opp]; unfold cexp, cconj; cbn; rewrite cos_PI, sin_PI; apply cx_eq; cbn; ring.
Qed.
Lemma bfly2_col c n fs m base u b q : stage c n fs 2 m -> u < m -> q < 2 ->
  bfly2_body c fs m base u b (base + u + q * m) = G c n fs 2 m u (fun q => b (base + u + q * m)) q.
Proof.
  intros S Hu Hq. pose proof S as (_ & _ & _ & _ & _ & mp). unfold bfly2_body, G. cbn [csum]. cbv zeta.
  rewrite !(term c n fs 2 m u) by exact S. rewrite (term0 c n fs 2 m) by exact S. rewrite (tw1 c n fs 2 m u 1 (u * fs)) by (first [exact S|lia]).
  pose proof (root2 c n fs m S) as Rt. rewrite Rt. generalize (W (inverse c) n (1 * u * fs)). intros t.
  unfold upd. destruct q as [|[|q]]; [| |lia]; idx; cbn [cpow Nat.mul Nat.add]; rewrite !Nat.add_0_r.
  - cring.
  - cring.
Qed.
Lemma bfly2_frame c fs m base u b i : (forall q, q < 2 -> i <> base + u + q * m) -> bfly2_body c fs m base u b i = b i.
Proof. intros H. pose proof (H 0 ltac:(lia)). pose proof (H 1 ltac:(lia)). unfold bfly2_body, upd. cbv zeta. idx. reflexivity. Qed.

Lemma root4 c n fs m : stage c n fs 4 m -> w1 c n fs m = Cx 0 (if inverse c then 1 else -1).
Proof.
  intros H. destruct (root _ _ _ _ _ H) as [-> _]. cbn [INR]. replace (2 * PI / (1 + 1 + 1 + 1))%R with (PI / 2)%R by field. unfold sgn.
  destruct (inverse c); [rewrite Rmult_1_l|replace (-1 * (PI / 2))%R with (- (PI / 2))%R by ring; rewrite cexp_opp]; unfold cexp, cconj; cbn; rewrite cos_PI2, sin_PI2; apply cx_eq; cbn; ring.
Qed.
Lemma bfly4_col c n fs m base u b q : stage c n fs 4 m -> u < m -> q < 4 ->
  bfly4_body c fs m base u b (base + u + q * m) = G c n fs 4 m u (fun q => b (base + u + q * m)) q.
Proof.
  intros S Hu Hq. pose proof S as (_ & _ & _ & _ & _ & mp). unfold bfly4_body, G. cbn [csum]. cbv zeta.
  rewrite !(term c n fs 4 m u) by exact S. rewrite (term0 c n fs 4 m) by exact S.
  rewrite (tw1 c n fs 4 m u 1 (u * fs)), (tw1 c n fs 4 m u 2 (u * (fs * 2))), (tw1 c n fs 4 m u 3 (u * (fs * 3))) by (first [exact S|lia]).
  pose proof (root4 c n fs m S) as Rt. rewrite Rt. clear Rt.
  generalize (W (inverse c) n (1 * u * fs)), (W (inverse c) n (2 * u * fs)), (W (inverse c) n (3 * u * fs)). intros t1 t2 t3.
  unfold upd. destruct (inverse c); destruct q as [|[|[|[|q]]]]; try lia; idx; cbn [cpow Nat.mul Nat.add]; rewrite ?Nat.add_0_r;
  generalize (b (base + u)), (b (base + u + m)), (b (base + u + (m + m))), (b (base + u + (m + (m + m)))); intros; cring.
Qed.
Lemma bfly4_frame c fs m base u b i : (forall q, q < 4 -> i <> base + u + q * m) -> bfly4_body c fs m base u b i = b i.
Proof.
  intros H. pose proof (H 0 ltac:(lia)). pose proof (H 1 ltac:(lia)). pose proof (H 2 ltac:(lia)). pose proof (H 3 ltac:(lia)).
  unfold bfly4_body, upd. cbv zeta. destruct (inverse c); idx; reflexivity.
Qed.

Lemma root3 c n fs m : stage c n fs 3 m -> let w := w1 c n fs m in re w = (- (1 / 2))%R /\ (im w * im w = 3 / 4)%R.
Proof.
  intros H w. unfold w. destruct (root _ _ _ _ _ H) as [-> _]. cbn [INR]. replace (2 * PI / (1 + 1 + 1))%R with (2 * (PI / 3))%R by field.
  assert (E : forall s, s = 1%R \/ s = (-1)%R -> re (cexp (s * (2 * (PI / 3)))) = (- (1 / 2))%R).
  { intros s [->| ->]; cbn; [rewrite Rmult_1_l|replace (-1 * (2 * (PI / 3)))%R with (- (2 * (PI / 3)))%R by ring; rewrite cos_neg]; rewrite cos_2PI3; lra. }
  assert (Q : forall a, (im (cexp a) * im (cexp a) = 1 - re (cexp a) * re (cexp a))%R). { intros a. cbn. pose proof (sin2_cos2 a) as X. unfold Rsqr in X. lra. }
  assert (Z : sgn (inverse c) = 1%R \/ sgn (inverse c) = (-1)%R) by (unfold sgn; destruct (inverse c); auto).
  split; [apply E; exact Z|]. rewrite Q, E by exact Z. lra.
Qed.
Lemma bfly3_col c n fs m base u b q : stage c n fs 3 m -> u < m -> q < 3 ->
  bfly3_body c fs m base u b (base + u + q * m) = G c n fs 3 m u (fun q => b (base + u + q * m)) q.
Proof.
  intros S Hu Hq. pose proof S as (_ & _ & _ & _ & _ & mp). unfold bfly3_body, G. cbn [csum]. cbv zeta.
  rewrite !(term c n fs 3 m u) by exact S. rewrite (term0 c n fs 3 m) by exact S.
  rewrite (tw1 c n fs 3 m u 1 (u * fs)), (tw1 c n fs 3 m u 2 (u * (fs * 2))) by (first [exact S|lia]).
  rewrite (tw2 c n fs 3 m 1 (fs * m)) by (first [exact S|lia]).
  destruct (root3 c n fs m S) as [R1 R2]. revert R1 R2. generalize (w1 c n fs m). intros [a s]. cbn [re im]. intros -> R2.
  assert (P1 : cpow (Cx (- (1 / 2)) s) 1 = Cx (- (1 / 2)) s) by (apply cx_eq; cbn; ring).
  assert (P2 : cpow (Cx (- (1 / 2)) s) 2 = Cx (- (1 / 2)) (- s)) by (apply cx_eq; cbn; lra).
  assert (P4 : cpow (Cx (- (1 / 2)) s) 4 = Cx (- (1 / 2)) s).
  { change (cpow (Cx (- (1 / 2)) s) 4) with (cmul (Cx (- (1 / 2)) s) (cmul (Cx (- (1 / 2)) s) (cpow (Cx (- (1 / 2)) s) 2))). rewrite P2.
    assert (cmul (Cx (- (1 / 2)) s) (Cx (- (1 / 2)) (- s)) = c1) as -> by (apply cx_eq; cbn; lra). apply cx_eq; cbn; ring. }
  generalize (W (inverse c) n (1 * u * fs)), (W (inverse c) n (2 * u * fs)). intros [x1 y1] [x2 y2].
  unfold upd. destruct q as [|[|[|q]]]; try lia; idx; cbn [Nat.mul Nat.add]; rewrite ?P1, ?P2, ?P4; rewrite ?Nat.add_0_r;
  destruct (b (base + u)) as [x0 y0], (b (base + u + m)) as [x3 y3], (b (base + u + (m + m))) as [x4 y4]; apply cx_eq; cbn [cpow cadd csub cmul re im c1]; lra.
Qed.
Lemma bfly3_frame c fs m base u b i : (forall q, q < 3 -> i <> base + u + q * m) -> bfly3_body c fs m base u b i = b i.
Proof.
  intros H. pose proof (H 0 ltac:(lia)). pose proof (H 1 ltac:(lia)). pose proof (H 2 ltac:(lia)).
  unfold bfly3_body, upd. cbv zeta. idx; reflexivity.
Qed.

(** cpow of the fifth root *)
Lemma cconj_mul a b : cconj (cmul a b) = cmul (cconj a) (cconj b).
Proof. apply cx_eq; cbn; ring. Qed.
Lemma root5 c n fs m : stage c n fs 5 m -> let w := w1 c n fs m in cpow w 4 = cconj w /\ cpow w 3 = cconj (cpow w 2) /\ (forall k, cpow w (5 + k) = cpow w k).
Proof.
  intros H w. destruct (root _ _ _ _ _ H) as [E R5]. fold w in E, R5.
  assert (N : cmul w (cconj w) = c1). { rewrite E. apply cx_eq; cbn; [|ring]. pose proof (sin2_cos2 (sgn (inverse c) * (2 * PI / INR 5))) as X. unfold Rsqr in X. cbn in X. lra. }
  assert (P4 : cpow w 4 = cconj w).
  { transitivity (cmul (cconj w) (cpow w 5)); [|rewrite R5; ring]. change (cpow w 5) with (cmul w (cpow w 4)). transitivity (cmul (cmul w (cconj w)) (cpow w 4)); [rewrite N; ring|ring]. }
  split; [exact P4|]. split.
  - transitivity (cmul (cconj w) (cpow w 4)).
    + change (cpow w 4) with (cmul w (cpow w 3)). transitivity (cmul (cmul w (cconj w)) (cpow w 3)); [rewrite N; ring|ring].
    + rewrite P4. cbn [cpow]. rewrite !cconj_mul. apply cx_eq; cbn; ring.
  - intros k. change (5 + k) with (S (S (S (S (S k))))). cbn [cpow] in R5 |- *. transitivity (cmul (cmul w (cmul w (cmul w (cmul w (cmul w c1))))) (cpow w k)); [ring|]. rewrite R5. ring.
Qed.
Lemma bfly5_col c n fs m base u b q : stage c n fs 5 m -> u < m -> q < 5 ->
  bfly5_body c fs m base u b (base + u + q * m) = G c n fs 5 m u (fun q => b (base + u + q * m)) q.
Proof.
  intros S Hu Hq. pose proof S as (_ & _ & _ & _ & _ & mp). unfold bfly5_body, G. cbn [csum]. cbv zeta.
  rewrite !(term c n fs 5 m u) by exact S. rewrite (term0 c n fs 5 m) by exact S.
  rewrite (tw1 c n fs 5 m u 1 (u * fs)), (tw1 c n fs 5 m u 2 (2 * u * fs)), (tw1 c n fs 5 m u 3 (3 * u * fs)), (tw1 c n fs 5 m u 4 (4 * u * fs)) by (first [exact S|lia]).
  rewrite (tw2 c n fs 5 m 1 (fs * m)), (tw2 c n fs 5 m 2 (fs * 2 * m)) by (first [exact S|lia]).
  destruct (root5 c n fs m S) as (P4 & P3 & P5). set (w := w1 c n fs m) in *.
  assert (P1 : cpow w 1 = w) by (cbn; ring).
  pose proof (P5 1) as P6. pose proof (P5 3) as P8. pose proof (P5 4) as P9. pose proof (P5 7) as P12. pose proof (P5 11) as P16. pose proof (P5 2) as P7. pose proof (P5 6) as P11. cbn [Nat.add] in P6, P8, P9, P12, P16, P7, P11.
  rewrite P7 in P12. rewrite P11, P6 in P16. rewrite P1 in P16, P6. rewrite P4 in P9. rewrite P3 in P8.
  generalize (W (inverse c) n (1 * u * fs)), (W (inverse c) n (2 * u * fs)), (W (inverse c) n (3 * u * fs)), (W (inverse c) n (4 * u * fs)). intros t1 t2 t3 t4.
  unfold upd. destruct q as [|[|[|[|[|q]]]]]; try lia; idx; cbn [Nat.mul Nat.add]; rewrite ?P16, ?P12, ?P9, ?P8, ?P6, ?P4, ?P3, ?P1; cbn [Nat.mul Nat.add];
  change (cpow w 0) with c1; generalize (cpow w 2); rewrite ?Nat.add_0_r; intros w2;
  generalize (b (base + u)), (b (base + u + m)), (b (base + u + (m + m))), (b (base + u + (m + (m + m)))), (b (base + u + (m + (m + (m + m))))); intros; cring.
Qed.
Lemma bfly5_frame c fs m base u b i : (forall q, q < 5 -> i <> base + u + q * m) -> bfly5_body c fs m base u b i = b i.
Proof.
  intros H. pose proof (H 0 ltac:(lia)). pose proof (H 1 ltac:(lia)). pose proof (H 2 ltac:(lia)). pose proof (H 3 ltac:(lia)). pose proof (H 4 ltac:(lia)).
  unfold bfly5_body, upd. cbv zeta. idx; reflexivity.
Qed.
