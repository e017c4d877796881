(** Proofs about the Fourier transforms: the transforms of real signals *)
From Coq Require Import Reals List Arith Lra Lia Bool ZArith.
From Verif Require Import MErr MStateOps MFFT SFFT PFFT PFFTB PFFTC.
Import ListNotations.
Local Open Scope nat_scope.

Lemma cconj_add a b : cconj (cadd a b) = cadd (cconj a) (cconj b). Proof. apply cx_eq; cbn; ring. Qed.
Lemma cconj_inv a : cconj (cconj a) = a. Proof. destruct a. apply cx_eq; cbn; ring. Qed.
Lemma csum_conj n f : csum n (fun i => cconj (f i)) = cconj (csum n f).
Proof. induction n as [|n IH]; cbn [csum]; [apply cx_eq; cbn; ring|]. rewrite IH, cconj_add. reflexivity. Qed.
Lemma csum_cmul n c f : csum n (fun i => cmul c (f i)) = cmul c (csum n f).
Proof. rewrite (csum_ext _ _ (fun i => cmul (f i) c)) by (intros; ring). rewrite csum_mul. ring. Qed.
Lemma csum_rev n f : csum n (fun k => f (n - k)) = csum n (fun k => f (S k)).
Proof.
  induction n as [|n IH]; [reflexivity|]. rewrite csum_S. cbn [csum]. rewrite <- (csum_ext n (fun i => f (n - i))) by (intros; f_equal; lia).
  rewrite IH. replace (S n - 0) with (S n) by lia. ring.
Qed.
Lemma re_csum n f : re (csum n f) = rsum n (fun i => re (f i)). Proof. induction n as [|n IH]; cbn; [reflexivity|rewrite IH; reflexivity]. Qed.
Lemma im_csum n f : im (csum n f) = rsum n (fun i => im (f i)). Proof. induction n as [|n IH]; cbn; [reflexivity|rewrite IH; reflexivity]. Qed.
Lemma rsum_ext n f g : (forall i, i < n -> f i = g i) -> rsum n f = rsum n g.
Proof. induction n as [|n IH]; intros H; [reflexivity|]. cbn [rsum]. rewrite IH by (intros; apply H; lia). rewrite H by lia. reflexivity. Qed.
Lemma rsum_opp n f : rsum n (fun i => (- f i)%R) = (- rsum n f)%R. Proof. induction n as [|n IH]; cbn; [ring|rewrite IH; ring]. Qed.
Lemma W_conj sg n i : W sg n i = cconj (W (negb sg) n i).
Proof. unfold W, sgn. rewrite <- cexp_opp. f_equal. destruct sg; cbn; ring. Qed.
Lemma W_unit sg n i : cmul (W sg n i) (cconj (W sg n i)) = c1.
Proof. unfold W. apply cx_eq; cbn; [|ring]. match goal with |- context [cos ?a] => pose proof (sin2_cos2 a) as X; unfold Rsqr in X; lra end. Qed.
Lemma W_double sg h i : 0 < h -> W sg (2 * h) (2 * i) = W sg h i.
Proof. intros H. unfold W. f_equal. rewrite !mult_INR. assert (INR h <> 0%R) by (apply not_0_INR; lia). cbn [INR]. field. assumption. Qed.
Lemma cexp_PI r : cexp (PI * INR r) = Cx (cos (PI * INR r)) 0 /\ (cos (PI * INR r) = if Nat.even r then 1 else -1)%R.
Proof.
  assert (K : cexp (PI * INR r) = Cx (if Nat.even r then 1 else -1) 0).
  { induction r as [|r IH]; [cbn [INR]; rewrite Rmult_0_r; apply cexp_0|]. rewrite S_INR, Rmult_plus_distr_l, Rmult_1_r, cexp_add, IH, Nat.even_succ, <- Nat.negb_even.
    unfold cexp. rewrite cos_PI, sin_PI. destruct (Nat.even r); apply cx_eq; cbn; ring. }
  pose proof (f_equal re K) as K1. pose proof (f_equal im K) as K2. cbn [cexp re im] in K1, K2. split; [unfold cexp; rewrite K2; reflexivity|exact K1].
Qed.
Definition ee (r : nat) : cpx := Cx (if Nat.even r then 1 else -1) 0.
Lemma W_half sg h r : 0 < h -> W sg (2 * h) (h * r) = ee r.
Proof.
  intros H. assert (T : W true (2 * h) (h * r) = ee r).
  { unfold W, sgn. rewrite Rmult_1_l. replace (2 * PI * INR (h * r) / INR (2 * h))%R with (PI * INR r)%R by (rewrite !mult_INR; assert (INR h <> 0%R) by (apply not_0_INR; lia); cbn [INR]; field; assumption).
    destruct (cexp_PI r) as [-> ->]. reflexivity. }
  destruct sg; [exact T|]. rewrite W_conj. cbn [negb]. rewrite T. apply cx_eq; cbn; ring.
Qed.

(** one side of a spectrum of 2 h components, and its mirror image *)
Section Mirror.
Variables (h : nat) (A : nat -> cpx).
Hypothesis hp : 0 < h.
Let V := W true (2 * h).
Lemma V_mirror l r : l <= h -> V ((h - l) * r) = cmul (ee r) (cconj (V (l * r))).
Proof.
  intros H. assert (E : cmul (V ((h - l) * r)) (V (l * r)) = ee r).
  { unfold V. rewrite <- W_add by lia. rewrite <- (W_half true h r hp). f_equal. nia. }
  rewrite <- E. unfold V. transitivity (cmul (W true (2 * h) ((h - l) * r)) (cmul (W true (2 * h) (l * r)) (cconj (W true (2 * h) (l * r))))); [rewrite W_unit; ring|ring].
Qed.
Lemma ee_sq r : cmul (ee r) (ee r) = c1. Proof. unfold ee. destruct (Nat.even r); apply cx_eq; cbn; ring. Qed.
Lemma mirror r : cmul (ee r) (csum h (fun k => cmul (cconj (A (h - k))) (V (k * r)))) = csum h (fun l => cconj (cmul (A (S l)) (V (S l * r)))).
Proof.
  rewrite (csum_ext h (fun k => cmul (cconj (A (h - k))) (V (k * r))) (fun k => (fun l => cmul (cconj (A l)) (V ((h - l) * r))) (h - k))).
  2: { intros k Hk. cbv beta. replace (h - (h - k)) with k by lia. reflexivity. }
  rewrite (csum_rev h (fun l => cmul (cconj (A l)) (V ((h - l) * r)))), <- csum_cmul. apply csum_ext. intros l Hl. rewrite V_mirror by lia. rewrite cconj_mul.
  transitivity (cmul (cmul (ee r) (ee r)) (cmul (cconj (A (S l))) (cconj (V (S l * r))))); [ring|]. rewrite ee_sq. ring.
Qed.
Lemma two_sides r : im (A 0) = 0%R -> im (A h) = 0%R ->
  cadd (csum h (fun k => cmul (A k) (V (k * r)))) (cmul (ee r) (csum h (fun k => cmul (cconj (A (h - k))) (V (k * r))))) = Cx (real_signal h A r) 0.
Proof.
  intros H0 H1. rewrite mirror. destruct h as [|h']; [lia|]. rewrite csum_S. cbn [csum].
  assert (V0 : V (0 * r) = c1) by (unfold V; apply W_0; lia). rewrite V0.
  assert (Vh : V (S h' * r) = ee r) by (unfold V; apply W_half; lia). rewrite Vh.
  unfold real_signal. replace (S h' - 1) with h' by lia. destruct (cexp_PI r) as [_ ->].
  set (x := csum h' (fun i => cmul (A (S i)) (V (S i * r)))). set (y := csum h' (fun l => cconj (cmul (A (S l)) (V (S l * r))))).
  assert (XY : y = cconj x) by (unfold y, x; apply csum_conj).
  assert (X : re x = rsum h' (fun k => (re (A (S k)) * cos (2 * PI * INR (S k * r) / INR (2 * S h')) - im (A (S k)) * sin (2 * PI * INR (S k * r) / INR (2 * S h')))%R)).
  { unfold x. rewrite re_csum. apply rsum_ext. intros i _. unfold V, W, sgn. rewrite Rmult_1_l. reflexivity. }
  rewrite <- X, XY. apply cx_eq; cbn; rewrite H0, H1; destruct (Nat.even r); ring.
Qed.
End Mirror.

(** the spectrum packed for the complex transform *)
Definition ci : cpx := Cx 0 1.
Definition packed (h : nat) (A : nat -> cpx) (k : nat) : cpx :=
  cadd (cadd (A k) (cconj (A (h - k)))) (cmul (csub (A k) (cconj (A (h - k)))) (cmul ci (W true (2 * h) k))).
Lemma packed_sum h A r : 0 < h -> im (A 0) = 0%R -> im (A h) = 0%R ->
  csum h (fun k => cmul (packed h A k) (W true h (k * r))) = Cx (real_signal h A (2 * r)) (real_signal h A (2 * r + 1)).
Proof.
  intros Hh H0 H1. pose proof (two_sides h A Hh (2 * r) H0 H1) as T1. pose proof (two_sides h A Hh (2 * r + 1) H0 H1) as T2. cbv zeta in T1, T2.
  assert (E1 : ee (2 * r) = c1) by (unfold ee; rewrite Nat.even_mul; reflexivity).
  assert (E2 : ee (2 * r + 1) = Cx (-1) 0) by (unfold ee; rewrite Nat.even_add, Nat.even_mul; reflexivity).
  rewrite E1 in T1. rewrite E2 in T2.
  transitivity (cadd (Cx (real_signal h A (2 * r)) 0) (cmul ci (Cx (real_signal h A (2 * r + 1)) 0))); [|apply cx_eq; cbn; ring].
  rewrite <- T1, <- T2. rewrite <- !csum_cmul. rewrite <- !csum_add. rewrite <- csum_cmul, <- csum_add. apply csum_ext. intros k Hk. unfold packed.
  rewrite <- (W_double true h (k * r)) by exact Hh. replace (2 * (k * r)) with (k * (2 * r)) by ring.
  replace (k * (2 * r + 1)) with (k + k * (2 * r)) by ring. rewrite W_add by lia.
  generalize (A k), (cconj (A (h - k))), (W true (2 * h) k), (W true (2 * h) (k * (2 * r))). intros. apply cx_eq; cbn; ring.
Qed.
(** the ends of a spectrum count as real numbers *)
Definition clip (h : nat) (H : nat -> cpx) (k : nat) : cpx := if Nat.eqb k 0 then Cx (re (H 0)) 0 else if Nat.eqb k h then Cx (re (H h)) 0 else H k.
Lemma clip_signal h H r : 0 < h -> real_signal h (clip h H) r = real_signal h H r.
Proof.
  intros Hh. assert (C0 : re (clip h H 0) = re (H 0)) by reflexivity.
  assert (C1 : re (clip h H h) = re (H h)) by (unfold clip; rewrite Nat.eqb_refl; destruct (Nat.eqb_spec h 0); [lia|reflexivity]).
  unfold real_signal. rewrite C0, C1. f_equal. f_equal. f_equal. apply rsum_ext. intros k Hk.
  assert (clip h H (S k) = H (S k)) as -> by (unfold clip; destruct (Nat.eqb_spec (S k) 0); [lia|]; destruct (Nat.eqb_spec (S k) h); [lia|reflexivity]). reflexivity.
Qed.
Lemma super_ok inv h i : 0 < h -> super_twiddle inv h i = cmul (if inv then ci else Cx 0 (-1)) (W inv (2 * h) (i + 1)).
Proof.
  intros Hh. unfold super_twiddle. cbv zeta. replace 0.5%R with (1 / 2)%R by lra. assert (INR h <> 0%R) by (apply not_0_INR; lia).
  assert (X : forall s : R, cexp (s * (2 * PI * INR (i + 1) / INR (2 * h)) + s * (PI / 2)) = cmul (cexp (s * (PI / 2))) (cexp (s * (2 * PI * INR (i + 1) / INR (2 * h))))) by (intros; rewrite Rplus_comm; apply cexp_add).
  destruct inv; unfold W, sgn.
  - replace (- PI * (INR (i + 1) / INR h + 1 / 2) * -1)%R with (1 * (2 * PI * INR (i + 1) / INR (2 * h)) + 1 * (PI / 2))%R by (rewrite (mult_INR 2 h); cbn [INR]; field; assumption).
    rewrite X. f_equal. rewrite Rmult_1_l. unfold cexp. rewrite cos_PI2, sin_PI2. reflexivity.
  - replace (- PI * (INR (i + 1) / INR h + 1 / 2))%R with (-1 * (2 * PI * INR (i + 1) / INR (2 * h)) + -1 * (PI / 2))%R by (rewrite (mult_INR 2 h); cbn [INR]; field; assumption).
    rewrite X. f_equal. replace (-1 * (PI / 2))%R with (- (PI / 2))%R by ring. unfold cexp. rewrite cos_neg, sin_neg, cos_PI2, sin_PI2. reflexivity.
Qed.
Definition rstate (s : rcfg) (h : nat) (inv : bool) : Prop :=
  0 < h /\ nfft (substate s) = h /\ inverse (substate s) = inv /\ factor_chain h (factors (substate s)) /\
  (forall i, i < h -> twiddles (substate s) i = W inv h i) /\
  forall i, i < h / 2 -> super s i = cmul (if inv then ci else Cx 0 (-1)) (W inv (2 * h) (i + 1)).
Lemma ralloc_ok n inv g1 g2 : 0 < n -> Nat.even n = true -> exists s, kiss_fftr_alloc n inv g1 g2 = Some s /\ rstate s (n / 2) inv.
Proof.
  intros Hn He. unfold kiss_fftr_alloc. rewrite <- Nat.negb_even, He. cbn [negb].
  assert (Hh : 0 < n / 2). { apply Nat.even_spec in He. destruct He as [x ->]. rewrite Nat.mul_comm, Nat.div_mul by lia. lia. }
  destruct (alloc_ok (n / 2) inv g1 Hh) as (c & -> & A & B & C & D). eexists. split; [reflexivity|]. split; [exact Hh|]. cbn [substate super].
  split; [exact A|]. split; [exact B|]. split; [exact C|]. split; [exact D|]. intros i Hi. replace (i <? n / 2 / 2) with true by (symmetry; apply Nat.ltb_lt; exact Hi). apply super_ok. exact Hh.
Qed.
Lemma fftri_loop s h fd t0 : rstate s h true -> t0 0 = packed h (clip h fd) 0 ->
  forall j, j <= h / 2 -> let t := loop j (fftri_body s fd) t0 in t 0 = packed h (clip h fd) 0 /\ forall k, 1 <= k <= j \/ h - j <= k < h -> t k = packed h (clip h fd) k.
Proof.
  intros (Hh & A & B & C & D & E) H0. induction j as [|j IH]; intros Hj; cbn [loop]; cbv zeta; [split; [exact H0|intros; lia]|].
  destruct (IH ltac:(lia)) as [I0 I1]. set (t := loop j (fftri_body s fd) t0) in *. unfold fftri_body. rewrite A. replace (S j - 1) with j by lia. rewrite E by lia.
  assert (H2 : 2 * (h / 2) <= h) by (apply Nat.mul_div_le; lia).
  replace (j + 1) with (S j) by lia. cbn iota.
  assert (C1 : clip h fd (S j) = fd (S j)) by (unfold clip; destruct (Nat.eqb_spec (S j) 0); [lia|]; destruct (Nat.eqb_spec (S j) h); [lia|reflexivity]).
  assert (C2 : clip h fd (h - S j) = fd (h - S j)) by (unfold clip; destruct (Nat.eqb_spec (h - S j) 0); [lia|]; destruct (Nat.eqb_spec (h - S j) h); [lia|reflexivity]).
  assert (V1 : cadd (cadd (fd (S j)) (Cx (re (fd (h - S j))) (- im (fd (h - S j))))) (cmul (csub (fd (S j)) (Cx (re (fd (h - S j))) (- im (fd (h - S j))))) (cmul ci (W true (2 * h) (S j)))) = packed h (clip h fd) (S j)).
  { unfold packed. rewrite C1, C2. reflexivity. }
  assert (V2 : forall x, x = csub (cadd (fd (S j)) (Cx (re (fd (h - S j))) (- im (fd (h - S j))))) (cmul (csub (fd (S j)) (Cx (re (fd (h - S j))) (- im (fd (h - S j))))) (cmul ci (W true (2 * h) (S j)))) ->
    Cx (re x) (im x * -1) = packed h (clip h fd) (h - S j)).
  { intros x ->. unfold packed. replace (h - (h - S j)) with (S j) by lia. rewrite C1, C2.
    pose proof (V_mirror h Hh (S j) 1 ltac:(lia)) as M. cbv zeta in M. rewrite !Nat.mul_1_r in M. rewrite M. unfold ee. cbn [Nat.even].
    generalize (fd (S j)), (fd (h - S j)), (W true (2 * h) (S j)). intros. apply cx_eq; cbn; ring. }
  rewrite V1. cbv zeta. split.
  - rewrite upd_other by lia. rewrite upd_other by lia. rewrite upd_other by lia. exact I0.
  - intros k Hk. destruct (Nat.eq_dec k (h - S j)) as [->|N1].
    + rewrite !upd_same. apply V2. reflexivity.
    + rewrite upd_other by exact N1. rewrite upd_other by exact N1. destruct (Nat.eq_dec k (S j)) as [->|N2]; [apply upd_same|]. rewrite upd_other by exact N2. apply I1. lia.
Qed.
Lemma fftri_signal s h fd tmp out : rstate s h true -> exists x, kiss_fftri s fd tmp out = Some x /\ forall r, r < 2 * h -> x r = real_signal h fd r.
Proof.
  intros S. pose proof S as (Hh & A & B & C & D & E). unfold kiss_fftri. rewrite B, A. eexists. split; [reflexivity|]. intros r Hr.
  set (t0 := upd tmp 0 _).
  assert (T0 : t0 0 = packed h (clip h fd) 0).
  { unfold t0. rewrite upd_same. unfold packed, clip. cbn [Nat.eqb]. rewrite Nat.sub_0_r, Nat.eqb_refl. replace (h =? 0) with false by (symmetry; apply Nat.eqb_neq; lia).
    rewrite W_0 by lia. apply cx_eq; cbn; ring. }
  destruct (fftri_loop s h fd t0 S T0 (h / 2) (le_n _)) as [L0 L1]. set (t := loop (h / 2) (fftri_body s fd) t0) in *.
  assert (T : forall k, k < h -> t k = packed h (clip h fd) k).
  { intros k Hk. destruct (Nat.eq_dec k 0) as [->|N]; [exact L0|]. apply L1.
    assert (h < 2 * (h / 2) + 2) by (pose proof (Nat.div_mod h 2 ltac:(lia)); pose proof (Nat.mod_upper_bound h 2 ltac:(lia)); lia). lia. }
  destruct (fft_dft (substate s) h true Hh A B C D t out) as [F _].
  assert (Z : forall j, j < h -> kiss_fft (substate s) t out j = Cx (real_signal h fd (2 * j)) (real_signal h fd (2 * j + 1))).
  { intros j Hj. rewrite F by exact Hj. rewrite <- !(clip_signal h fd) by exact Hh. rewrite <- packed_sum; [|exact Hh|reflexivity|].
    - unfold dft. apply csum_ext. intros k Hk. rewrite T by exact Hk. reflexivity.
    - unfold clip. rewrite Nat.eqb_refl. replace (h =? 0) with false by (symmetry; apply Nat.eqb_neq; lia). reflexivity. }
  unfold unpack. pose proof (Nat.div_mod r 2 ltac:(lia)) as DM. pose proof (Nat.mod_upper_bound r 2 ltac:(lia)) as MB. assert (Hj : r / 2 < h) by (apply Nat.div_lt_upper_bound; lia).
  rewrite (Z _ Hj). destruct (Nat.even r) eqn:Ev; cbn [re im]; f_equal.
  - apply Nat.even_spec in Ev. destruct Ev as [q ->]. rewrite (Nat.mul_comm 2 q), Nat.div_mul by lia. lia.
  - assert (Od : Nat.odd r = true) by (rewrite <- Nat.negb_even, Ev; reflexivity). apply Nat.odd_spec in Od. destruct Od as [q ->]. replace (2 * q + 1) with (1 + q * 2) by lia. rewrite Nat.div_add by lia. cbn. lia.
Qed.
