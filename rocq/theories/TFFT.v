(** C92: the Fourier transforms that turn wave files into wave fields and back *)
From Coq Require Import Reals List Arith Lra Lia Bool ZArith.
From Verif Require Import MErr MStateOps MFFT SFFT PFFT PFFTB PFFTC PFFTD PFFTE.
Import ListNotations.
Local Open Scope nat_scope.

(** Whatever the number n of values, the transform is the discrete Fourier transform of the n values,
    whatever lies behind the arrays; nothing beyond the n values is written. *)
Theorem C92_transform : forall n inv garbage, 0 < n -> exists c, kiss_fft_alloc n inv garbage = Some c /\
  forall x out, (forall k, k < n -> kiss_fft c x out k = dft (if inv then 1 else -1)%R n x k) /\ (forall k, n <= k -> kiss_fft c x out k = out k).
Proof.
  intros n inv g Hn. destruct (alloc_ok n inv g Hn) as (c & E & A & B & C & D). exists c. split; [exact E|]. intros x out. exact (fft_dft c n inv Hn A B C D x out).
Qed.
Print Assumptions C92_transform.
(** a size with all five kinds of butterflies: 4, 2, 3, 5 and the generic one *)
Example C92_sizes : kf_factor 840 = Some [(4, 210); (2, 105); (3, 35); (5, 7); (7, 1)].
Proof. vm_compute. reflexivity. Qed.

(** The array of factors (2 * MAXFACTORS = 64 integers) is large enough for every int. *)
Theorem C92_factors_fit : forall n, 0 < n -> (Z.of_nat n < 2 ^ 31)%Z -> exists l, kf_factor n = Some l /\ length l <= 32 /\ factor_chain n l.
Proof. intros n H1 H2. destruct (kf_factor_ok n H1) as (l & E & F & _). exists l. split; [exact E|]. split; [exact (few_factors n l H1 H2 E)|exact F]. Qed.
Print Assumptions C92_factors_fit.
Example C92_factors_ex : kf_factor 12 = Some [(4, 3); (3, 1)] /\ factor_chain 12 [(4, 3); (3, 1)] /\ kf_factor 49 = Some [(7, 7); (7, 1)].
Proof. repeat split; try reflexivity; cbn; lia. Qed.

(** The transform of n real values gives the components 0, ..., n / 2 of their discrete Fourier
    transform, for every even n. *)
Theorem C92_forward_real : forall n g1 g2, 0 < n -> Nat.even n = true -> exists s, kiss_fftr_alloc n false g1 g2 = Some s /\
  forall x tmp out, exists F, kiss_fftr s x tmp out = Some F /\ forall k, k <= n / 2 -> F k = real_dft n x k.
Proof.
  intros n g1 g2 Hn He. destruct (ralloc_ok n false g1 g2 Hn He) as (s & E & S). exists s. split; [exact E|]. intros x tmp out.
  destruct (fftr_spectrum s (n / 2) x tmp out S) as (F & Q & P). exists F. split; [exact Q|]. intros k Hk. rewrite P by exact Hk.
  apply Nat.even_spec in He. destruct He as [h ->]. replace (2 * h / 2) with h by (rewrite Nat.mul_comm, Nat.div_mul; lia). reflexivity.
Qed.
Print Assumptions C92_forward_real.

(** The inverse transform of n / 2 + 1 components gives the n values of the real signal with these
    components (not divided by n). *)
Theorem C92_inverse_real : forall n g1 g2, 0 < n -> Nat.even n = true -> exists s, kiss_fftr_alloc n true g1 g2 = Some s /\
  forall H tmp out, exists x, kiss_fftri s H tmp out = Some x /\ forall r, r < n -> x r = real_signal (n / 2) H r.
Proof.
  intros n g1 g2 Hn He. destruct (ralloc_ok n true g1 g2 Hn He) as (s & E & S). exists s. split; [exact E|]. intros x tmp out.
  destruct (fftri_signal s (n / 2) x tmp out S) as (F & Q & P). exists F. split; [exact Q|]. intros r Hr. apply P.
  apply Nat.even_spec in He. destruct He as [h ->]. replace (2 * h / 2) with h by (rewrite Nat.mul_comm, Nat.div_mul; lia). exact Hr.
Qed.
Print Assumptions C92_inverse_real.

(** Transforming n real values and back gives n times the values. *)
Theorem C92_round_trip : forall n g1 g2 g3 g4, 0 < n -> Nat.even n = true -> exists s t, kiss_fftr_alloc n false g1 g2 = Some s /\ kiss_fftr_alloc n true g3 g4 = Some t /\
  forall x tmp out tmp' out', exists F y, kiss_fftr s x tmp out = Some F /\ kiss_fftri t F tmp' out' = Some y /\ forall r, r < n -> y r = (INR n * x r)%R.
Proof.
  intros n g1 g2 g3 g4 Hn He. destruct (C92_forward_real n g1 g2 Hn He) as (s & E1 & S1). destruct (C92_inverse_real n g3 g4 Hn He) as (t & E2 & S2).
  exists s, t. split; [exact E1|]. split; [exact E2|]. intros x tmp out tmp' out'. destruct (S1 x tmp out) as (F & Q1 & P1). destruct (S2 F tmp' out') as (y & Q2 & P2).
  exists F, y. split; [exact Q1|]. split; [exact Q2|]. intros r Hr. rewrite P2 by exact Hr. apply Nat.even_spec in He. destruct He as [h Eh].
  assert (Dn : n / 2 = h) by (rewrite Eh, Nat.mul_comm, Nat.div_mul; lia). rewrite Dn in *.
  rewrite (signal_ext h F (real_dft (2 * h) x)) by (try lia; intros k Hk; rewrite P1, Eh by exact Hk; reflexivity).
  rewrite Eh. apply signal_of_spectrum; lia.
Qed.
Print Assumptions C92_round_trip.
(** non-trivial: a wave of two samples *)
Example C92_round_trip_ex : real_signal 1 (real_dft 2 (fun r => if Nat.eqb r 0 then 3%R else 5%R)) 1 = 10%R.
Proof. rewrite (signal_of_spectrum 1) by lia. cbn. ring. Qed.

(** An odd number of values is refused. *)
Theorem C92_odd_refused : forall n inv g1 g2, Nat.odd n = true -> kiss_fftr_alloc n inv g1 g2 = None.
Proof. intros n inv g1 g2 H. unfold kiss_fftr_alloc. rewrite H. reflexivity. Qed.
Print Assumptions C92_odd_refused.
