(** Proofs about the Fourier transforms: the forward transform of a real signal and the round trip *)
From Coq Require Import Reals List Arith Lra Lia Bool ZArith.
From Verif Require Import MErr MStateOps MFFT SFFT PFFT PFFTB PFFTC PFFTD.
Import ListNotations.
Local Open Scope nat_scope.

Definition rc (x : R) : cpx := Cx x 0.
Section Forward.
Variables (h : nat) (x : nat -> R).
Hypothesis hp : 0 < h.
Let U := W false (2 * h).
Definition EV (k : nat) : cpx := csum h (fun j => cmul (rc (x (2 * j))) (W false h (j * k))).
Definition OD (k : nat) : cpx := csum h (fun j => cmul (rc (x (2 * j + 1))) (W false h (j * k))).
Definition FT (k : nat) : cpx := csum (2 * h) (fun r => cmul (rc (x r)) (U (r * k))).
Lemma FT_real k : FT k = real_dft (2 * h) x k.
Proof.
  unfold FT, real_dft. apply cx_eq; [rewrite re_csum|rewrite im_csum]; cbn [re im]; [|rewrite <- rsum_opp]; apply rsum_ext; intros r _; unfold U, W, sgn, rc; cbn [cmul cexp re im].
  - replace (-1 * (2 * PI * INR (r * k) / INR (2 * h)))%R with (- (2 * PI * INR (r * k) / INR (2 * h)))%R by ring. rewrite cos_neg. ring.
  - replace (-1 * (2 * PI * INR (r * k) / INR (2 * h)))%R with (- (2 * PI * INR (r * k) / INR (2 * h)))%R by ring. rewrite sin_neg. ring.
Qed.
Lemma FT_split k : FT k = cadd (EV k) (cmul (U k) (OD k)).
Proof.
  unfold FT. rewrite csum_split. cbn [csum]. change (Cx 0 0) with c0. unfold EV, OD. rewrite <- csum_cmul.
  transitivity (cadd (csum h (fun j => cmul (rc (x (0 + j * 2))) (U ((0 + j * 2) * k)))) (csum h (fun j => cmul (rc (x (1 + j * 2))) (U ((1 + j * 2) * k))))); [ring|].
  f_equal; apply csum_ext; intros j _.
  - unfold U. rewrite <- (W_double false h (j * k)) by exact hp. replace (0 + j * 2) with (2 * j) by lia. f_equal. f_equal. ring.
  - unfold U. rewrite <- (W_double false h (j * k)) by exact hp. replace (1 + j * 2) with (2 * j + 1) by lia. replace ((2 * j + 1) * k) with (k + 2 * (j * k)) by ring. rewrite W_add by lia. ring.
Qed.
Lemma half_conj (y : nat -> R) k : k <= h -> csum h (fun j => cmul (rc (y j)) (W false h (j * (h - k)))) = cconj (csum h (fun j => cmul (rc (y j)) (W false h (j * k)))).
Proof.
  intros Hk. rewrite <- csum_conj. apply csum_ext. intros j _. rewrite cconj_mul. f_equal; [apply cx_eq; cbn; ring|].
  assert (E : cmul (W false h (j * (h - k))) (W false h (j * k)) = c1) by (rewrite <- W_add by exact hp; rewrite <- (W_per false h hp j); f_equal; nia).
  transitivity (cmul (cmul (W false h (j * (h - k))) (W false h (j * k))) (cconj (W false h (j * k)))); [|rewrite E; ring].
  transitivity (cmul (W false h (j * (h - k))) (cmul (W false h (j * k)) (cconj (W false h (j * k))))); [rewrite W_unit; ring|ring].
Qed.
Lemma EV_conj k : k <= h -> EV (h - k) = cconj (EV k). Proof. apply (half_conj (fun j => x (2 * j))). Qed.
Lemma OD_conj k : k <= h -> OD (h - k) = cconj (OD k). Proof. apply (half_conj (fun j => x (2 * j + 1))). Qed.
Lemma U_conj k : k <= h -> U (h - k) = cmul (Cx (-1) 0) (cconj (U k)).
Proof.
  intros Hk. pose proof (V_mirror h hp k 1 Hk) as M. cbv zeta in M. rewrite !Nat.mul_1_r in M. unfold U. rewrite W_conj. cbn [negb]. rewrite M. rewrite (W_conj false _ k). cbn [negb].
  unfold ee. cbn [Nat.even]. apply cx_eq; cbn; ring.
Qed.
Lemma packed_dft k : dft (-1) h (pack x) k = cadd (EV k) (cmul ci (OD k)).
Proof.
  unfold dft, EV, OD. rewrite <- csum_cmul, <- csum_add. apply csum_ext. intros j _. unfold W, sgn, pack, rc. generalize (cexp (-1 * (2 * PI * INR (j * k) / INR h))). intros. apply cx_eq; cbn [cadd cmul ci re im]; ring.
Qed.
Lemma EV0 : im (EV 0) = 0%R /\ im (OD 0) = 0%R.
Proof.
  assert (Z : forall y : nat -> R, im (csum h (fun j => cmul (rc (y j)) (W false h (j * 0)))) = 0%R).
  { intros y. rewrite (csum_ext _ _ (fun j => rc (y j))) by (intros; rewrite Nat.mul_0_r, W_0 by exact hp; apply cx_eq; cbn; ring). rewrite im_csum. rewrite (rsum_ext _ _ (fun _ => 0%R)) by reflexivity.
    generalize h. intros n. induction n as [|n IH]; cbn; [reflexivity|rewrite IH; ring]. }
  split; [apply (Z (fun j => x (2 * j)))|apply (Z (fun j => x (2 * j + 1)))].
Qed.
End Forward.
Lemma fftr_loop s h x t fd0 : rstate s h false -> (forall k, k < h -> t k = cadd (EV h x k) (cmul ci (OD h x k))) ->
  fd0 0 = FT h x 0 -> fd0 h = FT h x h -> forall j, j <= h / 2 -> let fd := loop j (fftr_body s t) fd0 in
  fd 0 = FT h x 0 /\ fd h = FT h x h /\ forall k, 1 <= k <= j \/ h - j <= k < h -> fd k = FT h x k.
Proof.
  intros (Hh & A & B & C & D & E) HT H0 H1. induction j as [|j IH]; intros Hj; cbn [loop]; cbv zeta; [split; [exact H0|split; [exact H1|intros; lia]]|].
  destruct (IH ltac:(lia)) as (I0 & I1 & I2). set (fd := loop j (fftr_body s t) fd0) in *. unfold fftr_body. rewrite A. replace (S j - 1) with j by lia. rewrite E by lia.
  assert (H2 : 2 * (h / 2) <= h) by (apply Nat.mul_div_le; lia). replace (j + 1) with (S j) by lia. cbn iota. cbv zeta.
  rewrite !(HT (S j)), !(HT (h - S j)) by lia. rewrite EV_conj, OD_conj by lia. rewrite (FT_split h x Hh) in I0, I1 |- *.
  assert (V1 : FT h x (S j) = cadd (EV h x (S j)) (cmul (W false (2 * h) (S j)) (OD h x (S j)))) by (apply FT_split; exact Hh).
  assert (V2 : FT h x (h - S j) = cconj (csub (EV h x (S j)) (cmul (W false (2 * h) (S j)) (OD h x (S j))))).
  { rewrite FT_split by exact Hh. cbv zeta. rewrite EV_conj, OD_conj by lia. pose proof (U_conj h Hh (S j) ltac:(lia)) as M. cbv zeta in M. rewrite M. apply cx_eq; cbn; ring. }
  split; [|split].
  - rewrite upd_other by lia. rewrite upd_other by lia. exact I0.
  - rewrite upd_other by lia. rewrite upd_other by lia. rewrite (FT_split h x Hh). exact I1.
  - intros k Hk. destruct (Nat.eq_dec k (h - S j)) as [->|N1].
    + rewrite upd_same, V2. generalize (EV h x (S j)), (OD h x (S j)), (W false (2 * h) (S j)). intros. apply cx_eq; cbn; lra.
    + rewrite upd_other by exact N1. destruct (Nat.eq_dec k (S j)) as [->|N2].
      * rewrite upd_same, V1. generalize (EV h x (S j)), (OD h x (S j)), (W false (2 * h) (S j)). intros. apply cx_eq; cbn; lra.
      * rewrite upd_other by exact N2. apply I2. lia.
Qed.
Lemma fftr_spectrum s h x tmp fd : rstate s h false -> exists F, kiss_fftr s x tmp fd = Some F /\ forall k, k <= h -> F k = real_dft (2 * h) x k.
Proof.
  intros S. pose proof S as (Hh & A & B & C & D & E). unfold kiss_fftr. rewrite B, A. eexists. split; [reflexivity|]. intros k Hk.
  destruct (fft_dft (substate s) h false Hh A B C D (pack x) tmp) as [F _]. set (t := kiss_fft (substate s) (pack x) tmp) in *.
  assert (T : forall k, k < h -> t k = cadd (EV h x k) (cmul ci (OD h x k))) by (intros q Hq; rewrite F by exact Hq; apply packed_dft).
  destruct (EV0 h x Hh) as [Z1 Z2].
  set (fd0 := upd (upd fd 0 _) h _).
  assert (R0 : fd0 0 = FT h x 0).
  { unfold fd0. rewrite upd_other by lia. rewrite upd_same, T by exact Hh. rewrite FT_split by exact Hh. rewrite W_0 by lia. apply cx_eq; cbn; rewrite ?Z1, ?Z2; ring. }
  assert (R1 : fd0 h = FT h x h).
  { unfold fd0. rewrite upd_same, T by exact Hh. rewrite FT_split by exact Hh. pose proof (EV_conj h x Hh 0 ltac:(lia)) as Q1. pose proof (OD_conj h x Hh 0 ltac:(lia)) as Q2. rewrite Nat.sub_0_r in Q1, Q2. rewrite Q1, Q2.
    pose proof (W_half false h 1 Hh) as Q3. rewrite Nat.mul_1_r in Q3. rewrite Q3. unfold ee. cbn [Nat.even]. apply cx_eq; cbn; rewrite ?Z1, ?Z2; ring. }
  destruct (fftr_loop s h x t fd0 S T R0 R1 (h / 2) (le_n _)) as (L0 & L1 & L2). rewrite <- FT_real.
  destruct (Nat.eq_dec k 0) as [->|N0]; [exact L0|]. destruct (Nat.eq_dec k h) as [->|N1]; [exact L1|]. apply L2.
  assert (h < 2 * (h / 2) + 2) by (pose proof (Nat.div_mod h 2 ltac:(lia)); pose proof (Nat.mod_upper_bound h 2 ltac:(lia)); lia). lia.
Qed.

(** round trip: orthogonality of the roots of unity *)
Lemma cmul_int a b : cmul a b = c0 -> a <> c0 -> b = c0.
Proof.
  intros H Ha. destruct a as [p q], b as [x y]. pose proof (f_equal re H) as H1. pose proof (f_equal im H) as H2. cbn in H1, H2.
  assert (N : (p * p + q * q <> 0)%R). { intros N. apply Ha. assert (p = 0)%R by nra. assert (q = 0)%R by nra. subst. reflexivity. }
  apply cx_eq; cbn; apply (Rmult_eq_reg_l (p * p + q * q)); try exact N.
  - transitivity (p * (p * x - q * y) + q * (p * y + q * x))%R; [ring|rewrite H1, H2; ring].
  - transitivity (p * (p * y + q * x) - q * (p * x - q * y))%R; [ring|rewrite H1, H2; ring].
Qed.
Lemma geometric n w : cmul (csub w c1) (csum n (fun k => cpow w k)) = csub (cpow w n) c1.
Proof. induction n as [|n IH]; cbn [csum cpow]; [apply cx_eq; cbn; ring|]. transitivity (cadd (cmul (csub w c1) (csum n (fun k => cpow w k))) (cmul (csub w c1) (cpow w n))); [ring|]. rewrite IH. ring. Qed.
Lemma cos_1_small a : (Rabs a < 2 * PI)%R -> cos a = 1%R -> a = 0%R.
Proof.
  intros H E. pose proof PI_RGT_0 as P. assert (K : forall b, (0 <= b)%R -> (b < 2 * PI)%R -> cos b = 1%R -> b = 0%R).
  { intros b H1 H2 H3. assert (S : sin (b / 2) = 0%R). { pose proof (cos_2a_sin (b / 2)) as X. replace (2 * (b / 2))%R with b in X by field. rewrite H3 in X. nra. }
    destruct (Rle_lt_or_eq_dec 0 b H1) as [L|L]; [|lra]. exfalso. pose proof (sin_gt_0 (b / 2) ltac:(lra) ltac:(lra)). lra. }
  unfold Rabs in H. destruct (Rcase_abs a).
  - assert (- a = 0)%R; [|lra]. apply K; [lra|exact H|rewrite cos_neg; exact E].
  - apply K; [lra|exact H|exact E].
Qed.
Lemma orthogonal n r s : 0 < n -> r < n -> s < n ->
  csum n (fun k => cmul (W false n (s * k)) (W true n (k * r))) = if Nat.eqb s r then rc (INR n) else c0.
Proof.
  intros Hn Hr Hs. set (w := cmul (W false n s) (W true n r)).
  assert (E : forall k, cmul (W false n (s * k)) (W true n (k * r)) = cpow w k).
  { induction k as [|k IH]; [rewrite Nat.mul_0_r; cbn [Nat.mul cpow]; rewrite !W_0 by exact Hn; ring|].
    cbn [cpow]. rewrite <- IH. replace (s * S k) with (s * k + s) by ring. replace (S k * r) with (k * r + r) by ring. rewrite !W_add by exact Hn. unfold w. ring. }
  rewrite (csum_ext _ _ (fun k => cpow w k)) by (intros; apply E).
  destruct (Nat.eqb_spec s r) as [->|N].
  - assert (w = c1) as ->. { unfold w. rewrite (W_conj false). cbn [negb]. rewrite <- (W_unit true n r). ring. }
    assert (Q : forall k, cpow c1 k = c1) by (induction k as [|k IH]; cbn [cpow]; [reflexivity|rewrite IH; ring]).
    rewrite (csum_ext _ _ (fun _ => c1)) by (intros; apply Q). clear. induction n as [|n IH]; [reflexivity|]. cbn [csum]. rewrite IH, S_INR. apply cx_eq; cbn; ring.
  - apply (cmul_int (csub w c1)).
    + rewrite geometric. assert (cpow w n = c1) as ->; [|apply cx_eq; cbn; ring]. rewrite <- E. rewrite (Nat.mul_comm s n), !W_per by exact Hn. ring.
    + intros X. apply N. assert (Wc : w = c1). { transitivity (cadd (csub w c1) c1); [ring|rewrite X; ring]. }
      assert (I0 : (0 < INR n)%R) by (apply lt_0_INR; exact Hn).
      assert (Cw : w = cexp (2 * PI * (INR r - INR s) / INR n)).
      { unfold w, W, sgn. rewrite <- cexp_add. f_equal. field. lra. }
      rewrite Cw in Wc. apply (f_equal re) in Wc. cbn in Wc. apply cos_1_small in Wc.
      * assert (INR r - INR s = 0)%R. { pose proof PI_RGT_0. apply (Rmult_eq_reg_l (2 * PI / INR n)); [rewrite Rmult_0_r, <- Wc; field; lra|]. intros Z. apply (Rmult_eq_compat_r (INR n)) in Z. unfold Rdiv in Z. rewrite Rmult_assoc, Rinv_l in Z by lra. lra. }
        apply INR_eq. lra.
      * assert (Rabs (INR r - INR s) < INR n)%R. { assert (INR r < INR n)%R by (apply lt_INR; exact Hr). assert (INR s < INR n)%R by (apply lt_INR; exact Hs). pose proof (pos_INR r). pose proof (pos_INR s). apply Rabs_def1; lra. }
        pose proof PI_RGT_0. unfold Rdiv. rewrite !Rabs_mult. rewrite (Rabs_pos_eq 2), (Rabs_pos_eq PI), (Rabs_pos_eq (/ INR n)) by (try lra; apply Rlt_le, Rinv_0_lt_compat; lra).
        apply (Rmult_lt_reg_r (INR n)); [exact I0|]. rewrite Rmult_assoc, Rinv_l, Rmult_1_r by lra. nra.
Qed.
Lemma csum_swap n m f : csum n (fun i => csum m (fun j => f i j)) = csum m (fun j => csum n (fun i => f i j)).
Proof. induction n as [|n IH]; cbn [csum]; [symmetry; apply csum_zero|]. rewrite IH, csum_add. reflexivity. Qed.
Lemma signal_of_spectrum h x r : 0 < h -> r < 2 * h -> real_signal h (real_dft (2 * h) x) r = (INR (2 * h) * x r)%R.
Proof.
  intros Hh Hr. set (A := real_dft (2 * h) x). assert (AF : forall k, A k = FT h x k) by (intros; symmetry; apply FT_real).
  assert (Z : forall k, k <= 2 * h -> FT h x (2 * h - k) = cconj (FT h x k)).
  { intros k Hk. unfold FT. rewrite <- csum_conj. apply csum_ext. intros j _. rewrite cconj_mul. f_equal; [apply cx_eq; cbn; ring|]. rewrite (W_conj false _ (j * k)). cbn [negb]. rewrite cconj_inv.
    assert (E : cmul (W false (2 * h) (j * (2 * h - k))) (W false (2 * h) (j * k)) = c1) by (rewrite <- W_add by lia; rewrite <- (W_per false (2 * h) ltac:(lia) j); f_equal; rewrite <- Nat.mul_add_distr_l; replace (2 * h - k + k) with (2 * h) by lia; ring).
    rewrite (W_conj true). cbn [negb]. transitivity (cmul (W false (2 * h) (j * (2 * h - k))) (cmul (W false (2 * h) (j * k)) (cconj (W false (2 * h) (j * k))))); [rewrite W_unit; ring|].
    transitivity (cmul (cmul (W false (2 * h) (j * (2 * h - k))) (W false (2 * h) (j * k))) (cconj (W false (2 * h) (j * k)))); [ring|]. rewrite E. ring. }
  assert (R0 : im (A 0) = 0%R). { rewrite AF. rewrite FT_split by exact Hh. rewrite W_0 by lia. destruct (EV0 h x Hh) as [Z1 Z2]. cbn. rewrite Z1, Z2. ring. }
  assert (R1 : im (A h) = 0%R). { rewrite AF. pose proof (Z h ltac:(lia)) as Q. replace (2 * h - h) with h in Q by lia. revert Q. generalize (FT h x h). intros a Q. apply (f_equal im) in Q. unfold cconj in Q. cbn [im] in Q. lra. }
  pose proof (two_sides h A Hh r R0 R1) as T. cbv zeta in T. rewrite mirror in T by exact Hh.
  assert (Q : csum h (fun l => cconj (cmul (A (S l)) (W true (2 * h) (S l * r)))) = csum h (fun k => cmul (A (h + k)) (W true (2 * h) ((h + k) * r)))).
  { rewrite <- (csum_rev h (fun l => cconj (cmul (A l) (W true (2 * h) (l * r))))). apply csum_ext. intros k Hk.
    rewrite !AF. rewrite cconj_mul. rewrite <- (Z (h - k)) by lia. replace (2 * h - (h - k)) with (h + k) by lia. f_equal.
    assert (E : cmul (W true (2 * h) ((h - k) * r)) (W true (2 * h) ((h + k) * r)) = c1) by (rewrite <- W_add by lia; rewrite <- (W_per true (2 * h) ltac:(lia) r); f_equal; rewrite <- Nat.mul_add_distr_r; replace (h - k + (h + k)) with (2 * h) by lia; ring).
    transitivity (cmul (cmul (W true (2 * h) ((h - k) * r)) (W true (2 * h) ((h + k) * r))) (cconj (W true (2 * h) ((h - k) * r)))); [rewrite E; ring|].
    transitivity (cmul (cmul (W true (2 * h) ((h - k) * r)) (cconj (W true (2 * h) ((h - k) * r)))) (W true (2 * h) ((h + k) * r))); [ring|]. rewrite W_unit. ring. }
  rewrite Q in T. rewrite <- (csum_app h h (fun k => cmul (A k) (W true (2 * h) (k * r)))) in T. replace (h + h) with (2 * h) in T by lia.
  rewrite (csum_ext _ _ (fun k => csum (2 * h) (fun s => cmul (cmul (rc (x s)) (W false (2 * h) (s * k))) (W true (2 * h) (k * r))))) in T.
  2: { intros k _. rewrite AF. unfold FT. rewrite csum_mul. reflexivity. }
  rewrite csum_swap in T.
  rewrite (csum_ext _ _ (fun s => cmul (rc (x s)) (if Nat.eqb s r then rc (INR (2 * h)) else c0))) in T.
  2: { intros s Hs. rewrite <- (orthogonal (2 * h) r s) by lia. rewrite <- csum_cmul. apply csum_ext. intros k _. ring. }
  assert (Pk : forall n, csum n (fun s => cmul (rc (x s)) (if Nat.eqb s r then rc (INR (2 * h)) else c0)) = if Nat.ltb r n then rc (INR (2 * h) * x r) else c0).
  { induction n as [|n IH]; [reflexivity|]. cbn [csum]. rewrite IH. destruct (Nat.eqb_spec n r) as [->|N].
    - replace (r <? r) with false by (symmetry; apply Nat.ltb_ge; lia). replace (r <? S r) with true by (symmetry; apply Nat.ltb_lt; lia). apply cx_eq; cbn -[INR]; ring.
    - destruct (Nat.ltb_spec r n), (Nat.ltb_spec r (S n)); try lia; apply cx_eq; cbn -[INR]; ring. }
  rewrite Pk in T. replace (r <? 2 * h) with true in T by (symmetry; apply Nat.ltb_lt; exact Hr). apply (f_equal re) in T. cbn -[INR] in T. symmetry. exact T.
Qed.
Lemma signal_ext h F G r : 0 < h -> (forall k, k <= h -> F k = G k) -> real_signal h F r = real_signal h G r.
Proof. intros Hh H. unfold real_signal. rewrite !(H 0), !(H h) by lia. f_equal. f_equal. f_equal. apply rsum_ext. intros k Hk. rewrite H by lia. reflexivity. Qed.
