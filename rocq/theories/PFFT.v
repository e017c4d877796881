(** Proofs about the Fourier transforms (MFFT.v): complex numbers, roots of unity, butterflies *)
From Coq Require Import Reals List Arith Lra Lia Bool ZArith.
From Verif Require Import MErr MStateOps MFFT SFFT.
Import ListNotations.
Open Scope R_scope.

Lemma cx_eq a b : re a = re b -> im a = im b -> a = b.
Proof. destruct a, b; cbn; congruence. Qed.
Definition c0 : cpx := Cx 0 0.
Definition c1 : cpx := Cx 1 0.
Definition copp (a : cpx) : cpx := Cx (- re a) (- im a).
Lemma cpx_ring : ring_theory c0 c1 cadd cmul csub copp eq.
Proof. constructor; intros; apply cx_eq; cbn; ring. Qed.
Add Ring cpxr : cpx_ring.
Ltac cring := apply cx_eq; cbn; ring.

Lemma csum_ext n f g : (forall i, (i < n)%nat -> f i = g i) -> csum n f = csum n g.
Proof. induction n as [|n IH]; intros H; [reflexivity|]. cbn [csum]. rewrite IH by (intros; apply H; lia). rewrite H by lia. reflexivity. Qed.
Lemma csum_add n f g : csum n (fun i => cadd (f i) (g i)) = cadd (csum n f) (csum n g).
Proof. induction n as [|n IH]; cbn [csum]; [cring|]. rewrite IH. ring. Qed.
Lemma csum_mul n c f : csum n (fun i => cmul (f i) c) = cmul (csum n f) c.
Proof. induction n as [|n IH]; cbn [csum]; [cring|]. rewrite IH. ring. Qed.
Lemma csum_zero n : csum n (fun _ => c0) = c0.
Proof. induction n as [|n IH]; cbn [csum]; [reflexivity|]. rewrite IH. ring. Qed.
Lemma csum_S n f : csum (S n) f = cadd (f 0%nat) (csum n (fun i => f (S i))).
Proof. induction n as [|n IH]; [cbn; cring|]. change (csum (S (S n)) f) with (cadd (csum (S n) f) (f (S n))). rewrite IH. cbn [csum]. ring. Qed.
Lemma csum_app n m f : csum (n + m) f = cadd (csum n f) (csum m (fun i => f (n + i)%nat)).
Proof. induction m as [|m IH]; [rewrite Nat.add_0_r; cbn [csum]; change (Cx 0 0) with c0; ring|]. rewrite Nat.add_succ_r. cbn [csum]. rewrite IH. ring. Qed.
(** a sum over p m indices i = q + j p *)
Lemma csum_split p m f : csum (p * m) f = csum p (fun q => csum m (fun j => f (q + j * p)%nat)).
Proof.
  induction m as [|m IH]; [rewrite Nat.mul_0_r; cbn [csum]; symmetry; apply csum_zero|].
  rewrite Nat.mul_succ_r, csum_app, IH. cbn [csum]. rewrite csum_add. f_equal. apply csum_ext. intros i _. f_equal. lia.
Qed.

(* ----- roots of unity ----- *)
Lemma cexp_add a b : cexp (a + b) = cmul (cexp a) (cexp b).
Proof. apply cx_eq; cbn; [apply cos_plus|]. rewrite sin_plus. ring. Qed.
Lemma cexp_0 : cexp 0 = c1.
Proof. unfold cexp, c1. rewrite cos_0, sin_0. reflexivity. Qed.
Lemma cexp_2kPI k : cexp (2 * PI * INR k) = c1.
Proof.
  induction k as [|k IH]; [cbn [INR]; rewrite Rmult_0_r; apply cexp_0|]. rewrite S_INR, Rmult_plus_distr_l, Rmult_1_r, cexp_add, IH.
  unfold cexp, c1. rewrite cos_2PI, sin_2PI. cring.
Qed.
Lemma cexp_opp a : cexp (- a) = cconj (cexp a).
Proof. unfold cexp, cconj. cbn. rewrite cos_neg, sin_neg. reflexivity. Qed.
Section Roots.
Variable sg : bool.
Variable n : nat.
Hypothesis np : (0 < n)%nat.
Definition sgn : R := if sg then 1 else -1.
Definition W (i : nat) : cpx := cexp (sgn * (2 * PI * INR i / INR n)).
Lemma n0 : INR n <> 0. Proof. apply not_0_INR. lia. Qed.
Lemma W_add i j : W (i + j) = cmul (W i) (W j).
Proof. unfold W. rewrite <- cexp_add. f_equal. rewrite plus_INR. pose proof n0. field. assumption. Qed.
Lemma W_0 : W 0 = c1.
Proof. unfold W. cbn [INR]. replace (sgn * (2 * PI * 0 / INR n)) with 0 by (pose proof n0; field; assumption). apply cexp_0. Qed.
Lemma W_per k : W (n * k) = c1.
Proof.
  unfold W. rewrite mult_INR. replace (2 * PI * (INR n * INR k) / INR n) with (2 * PI * INR k) by (pose proof n0; field; assumption).
  unfold sgn. destruct sg; [rewrite Rmult_1_l; apply cexp_2kPI|]. replace (-1 * (2 * PI * INR k)) with (- (2 * PI * INR k)) by ring.
  rewrite cexp_opp, cexp_2kPI. cring.
Qed.
Lemma W_mod i k : W (i + n * k) = W i.
Proof. rewrite W_add, W_per. ring. Qed.
Lemma W_twiddle i : twiddle sg n i = W i.
Proof. unfold twiddle, W, sgn. cbv zeta. f_equal. pose proof n0. destruct sg; field; assumption. Qed.
End Roots.

(* ----- columns of a butterfly ----- *)
Local Open Scope nat_scope.
Lemma col_inj m u q u' q' : u < m -> u' < m -> u + q * m = u' + q' * m -> u = u' /\ q = q'.
Proof.
  intros H H' E. assert (q = q').
  { apply (f_equal (fun x => x / m)) in E. rewrite !Nat.div_add in E by lia. rewrite !Nat.div_small in E by lia. exact E. }
  subst. split; [lia|reflexivity].
Qed.
Section Columns.
Variables (p m base : nat) (body : nat -> buf -> buf) (G : nat -> (nat -> cpx) -> nat -> cpx).
Hypothesis GE : forall u v v' q, (forall q, q < p -> v q = v' q) -> G u v q = G u v' q.
Hypothesis BW : forall u b q, u < m -> q < p -> body u b (base + u + q * m) = G u (fun q => b (base + u + q * m)) q.
Hypothesis BF : forall u b i, u < m -> (forall q, q < p -> i <> base + u + q * m) -> body u b i = b i.
Lemma loop_cols n b : n <= m ->
  (forall u q, u < n -> q < p -> loop n body b (base + u + q * m) = G u (fun q => b (base + u + q * m)) q) /\
  (forall i, (forall u q, u < n -> q < p -> i <> base + u + q * m) -> loop n body b i = b i).
Proof.
  induction n as [|n IH]; intros Hn; [split; [intros; lia|reflexivity]|]. destruct (IH ltac:(lia)) as [IH1 IH2]. cbn [loop]. split.
  - intros u q Hu Hq. destruct (Nat.eq_dec u n) as [->|N].
    + rewrite BW by lia. apply GE. intros q' Hq'. apply IH2. intros u q'' Hu' _ E. destruct (col_inj m n q' u q'') as [Q _]; lia.
    + rewrite BF; [apply IH1; lia|lia|]. intros q' Hq' E. destruct (col_inj m u q n q') as [Q _]; lia.
  - intros i Hi. rewrite BF; [apply IH2; intros; apply Hi; lia|lia|]. intros q Hq. apply Hi; lia.
Qed.
End Columns.

Ltac up := unfold upd; repeat match goal with |- context [Nat.eqb ?a ?b] => destruct (Nat.eqb_spec a b); [try (exfalso; lia)|try (exfalso; lia)] end.
(** in place: a chain of updates at the indices of a column only *)
Section Stage.
Variables (c : cfg) (n fs p m base : nat).
Let sg := inverse c.
Hypothesis nn : nfft c = n.
Hypothesis np : 0 < n.
Hypothesis tws : forall i, i < n -> twiddles c i = W sg n i.
Hypothesis sz : fs * (p * m) = n.
Hypothesis pp : 0 < p.
Hypothesis mp : 0 < m.
Definition G (u : nat) (v : nat -> cpx) (q1 : nat) : cpx := csum p (fun q => cmul (v q) (W sg n (fs * q * (u + q1 * m)))).
Lemma G_ext u v v' q : (forall q, q < p -> v q = v' q) -> G u v q = G u v' q.
Proof. intros H. apply csum_ext. intros i Hi. rewrite H by exact Hi. reflexivity. Qed.
Lemma fsp : 0 < fs. Proof. destruct fs; [cbn in sz; lia|lia]. Qed.
Lemma tw_ok q u : q < p -> u < m -> twiddles c (q * u * fs) = W sg n (q * u * fs).
Proof. intros Hq Hu. apply tws. rewrite <- sz. pose proof fsp. assert (q * u < p * m); [|nia]. destruct p as [|p']; [lia|]. assert (q * u <= p' * u) by (apply Nat.mul_le_mono_r; lia). nia. Qed.
Definition w1 : cpx := W sg n (fs * m).
Fixpoint cpow (x : cpx) (k : nat) : cpx := match k with O => c1 | S k => cmul x (cpow x k) end.
Lemma W_pow i k : W sg n (i * k) = cpow (W sg n i) k.
Proof. induction k as [|k IH]; [rewrite Nat.mul_0_r; apply W_0; exact np|]. rewrite Nat.mul_succ_r, Nat.add_comm, W_add by exact np. rewrite IH. reflexivity. Qed.
Lemma w1_p : cpow w1 p = c1.
Proof. unfold w1. rewrite <- W_pow. replace (fs * m * p) with (n * 1) by (rewrite <- sz; ring). apply W_per. exact np. Qed.
Lemma G_term u q q1 : W sg n (fs * q * (u + q1 * m)) = cmul (W sg n (q * u * fs)) (cpow w1 (q * q1)).
Proof. unfold w1. rewrite <- W_pow, <- W_add by exact np. f_equal. ring. Qed.
Lemma w1_val : w1 = cexp (sgn sg * (2 * PI / INR p)).
Proof.
  unfold w1, W. f_equal. f_equal. rewrite <- sz, !mult_INR. assert (INR fs <> 0%R) by (apply not_0_INR; pose proof fsp; lia). assert (INR p <> 0%R) by (apply not_0_INR; lia). assert (INR m <> 0%R) by (apply not_0_INR; lia).
  field. auto.
Qed.
End Stage.
