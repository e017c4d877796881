(** Proofs about the Fourier transforms: the generic butterfly, the recursion and the factors *)
From Coq Require Import Reals List Arith Lra Lia Bool ZArith.
From Verif Require Import MErr MStateOps MFFT SFFT PFFT PFFTB.
Import ListNotations.
Local Open Scope nat_scope.

Lemma upd_same b i v : upd b i v i = v. Proof. unfold upd. rewrite Nat.eqb_refl. reflexivity. Qed.
Lemma upd_other b i v j : j <> i -> upd b i v j = b j. Proof. intros H. unfold upd. destruct (Nat.eqb_spec j i); [contradiction|reflexivity]. Qed.
Lemma inner_spec c n fs base k sc j b : nfft c = n -> 0 < n -> (forall i, i < n -> twiddles c i = W (inverse c) n i) -> fs * k < n ->
  let r := loop j (generic_inner c fs base k sc) (0, b) in
  fst r < n /\ W (inverse c) n (fst r) = W (inverse c) n (fs * j * k) /\
  snd r (base + k) = cadd (b (base + k)) (csum j (fun q => cmul (sc (S q)) (W (inverse c) n (fs * S q * k)))) /\
  (forall i, i <> base + k -> snd r i = b i).
Proof.
  intros Hn Hp Ht Hk r. unfold r. clear r. induction j as [|j (I1 & I2 & I3 & I4)].
  - cbn [loop fst snd csum]. split; [exact Hp|]. split; [f_equal; lia|]. split; [apply cx_eq; cbn; ring|reflexivity].
  - cbn [loop]. set (s := loop j (generic_inner c fs base k sc) (0, b)) in *. unfold generic_inner. cbn [fst snd]. rewrite Hn.
    set (i := if n <=? fst s + fs * k then fst s + fs * k - n else fst s + fs * k).
    assert (Hi : i < n /\ W (inverse c) n i = W (inverse c) n (fs * S j * k)).
    { assert (E : W (inverse c) n (fst s + fs * k) = W (inverse c) n (fs * S j * k)).
      { rewrite W_add, I2, <- W_add by exact Hp. f_equal. ring. }
      unfold i. destruct (Nat.leb_spec n (fst s + fs * k)) as [L|L]; [|split; [lia|exact E]]. split; [lia|]. rewrite <- E.
      rewrite <- (W_mod (inverse c) n Hp (fst s + fs * k - n) 1). f_equal. lia. }
    destruct Hi as [H1 H2]. split; [exact H1|]. split; [exact H2|]. split.
    + rewrite upd_same, I3, Ht, H2 by exact H1. cbn [csum]. ring.
    + intros x Hx. rewrite upd_other by exact Hx. apply I4. exact Hx.
Qed.
Lemma generic_spec c n fs p m base u b : stage c n fs p m -> u < m ->
  (forall q, q < p -> generic_body c p fs m base u b (base + u + q * m) = G c n fs p m u (fun q => b (base + u + q * m)) q) /\
  (forall i, (forall q, q < p -> i <> base + u + q * m) -> generic_body c p fs m base u b i = b i).
Proof.
  intros (A & B & C & D & E & F) Hu. assert (Fp : 0 < fs) by (destruct fs; [cbn in D; lia|lia]).
  set (sc := fun q => b (base + (u + q * m))).
  assert (K : forall q1, q1 < p -> fs * (u + q1 * m) < n). { intros q1 H. rewrite <- D. apply Nat.mul_lt_mono_pos_l; [exact Fp|]. assert (S q1 * m <= p * m) by (apply Nat.mul_le_mono_r; lia). cbn in H0. lia. }
  assert (L : forall j, j <= p -> let r := loop j (fun q1 b => snd (loop (p - 1) (generic_inner c fs base (u + q1 * m) sc) (0, upd b (base + (u + q1 * m)) (sc 0)))) b in
    (forall q, q < j -> r (base + u + q * m) = G c n fs p m u (fun q => b (base + u + q * m)) q) /\ (forall i, (forall q, q < j -> i <> base + u + q * m) -> r i = b i)).
  { induction j as [|j IH]; intros Hj r; unfold r; clear r; [split; [intros; lia|reflexivity]|]. destruct (IH ltac:(lia)) as [I1 I2]. cbn [loop].
    set (b' := loop j _ b) in *.
    destruct (inner_spec c n fs base (u + j * m) sc (p - 1) (upd b' (base + (u + j * m)) (sc 0)) A B C (K j ltac:(lia))) as (_ & _ & J1 & J2). split.
    - intros q Hq. destruct (Nat.eq_dec q j) as [->|N].
      + rewrite <- Nat.add_assoc, J1, upd_same. unfold G. replace p with (S (p - 1)) at 2 by lia. rewrite csum_S. f_equal.
        * replace (fs * 0 * (u + j * m)) with 0 by ring. rewrite W_0 by exact B. unfold sc. rewrite Nat.add_assoc. ring.
        * apply csum_ext. intros i _. unfold sc. rewrite Nat.add_assoc. reflexivity.
      + rewrite J2, upd_other; [apply I1; lia| |]; intros X; apply N; apply (col_inj m u q u j); lia.
    - intros i Hi. assert (i <> base + (u + j * m)) by (rewrite Nat.add_assoc; apply Hi; lia). rewrite J2, upd_other by assumption. apply I2. intros; apply Hi; lia. }
  exact (L p (le_n p)).
Qed.
Lemma bfly_spec c n fs p m base b : stage c n fs p m ->
  (forall u q, u < m -> q < p -> bfly c p fs m base b (base + u + q * m) = G c n fs p m u (fun q => b (base + u + q * m)) q) /\
  (forall i, i < base \/ base + p * m <= i -> bfly c p fs m base b i = b i).
Proof.
  intros S. assert (M : 0 < m) by apply S.
  assert (Out : forall i, i < base \/ base + p * m <= i -> forall u q, u < m -> q < p -> i <> base + u + q * m).
  { intros i Hi u q Hu Hq E. assert (Datatypes.S q * m <= p * m) by (apply Nat.mul_le_mono_r; lia). cbn in H. lia. }
  assert (Z : forall body, (forall u b q, u < m -> q < p -> body u b (base + u + q * m) = G c n fs p m u (fun q => b (base + u + q * m)) q) ->
    (forall u b i, u < m -> (forall q, q < p -> i <> base + u + q * m) -> body u b i = b i) ->
    (forall u q, u < m -> q < p -> loop m body b (base + u + q * m) = G c n fs p m u (fun q => b (base + u + q * m)) q) /\
    (forall i, i < base \/ base + p * m <= i -> loop m body b i = b i)).
  { intros body H1 H2. destruct (loop_cols p m base body (G c n fs p m) (G_ext c n fs p m) H1 H2 m b (le_n m)) as [L1 L2].
    split; [exact L1|]. intros i Hi. apply L2. intros u q Hu Hq. apply Out; assumption. }
  assert (Gen : (forall u q, u < m -> q < p -> loop m (generic_body c p fs m base) b (base + u + q * m) = G c n fs p m u (fun q => b (base + u + q * m)) q) /\
    (forall i, i < base \/ base + p * m <= i -> loop m (generic_body c p fs m base) b i = b i)).
  { apply Z; intros; [apply (generic_spec c n fs p m base u b0)|apply (generic_spec c n fs p m base u b0)]; assumption. }
  unfold bfly. destruct p as [|[|[|[|[|[|p]]]]]]; try exact Gen; apply Z; intros.
  - apply bfly2_col; assumption.
  - apply bfly2_frame; assumption.
  - apply bfly3_col; assumption.
  - apply bfly3_frame; assumption.
  - apply bfly4_col; assumption.
  - apply bfly4_frame; assumption.
  - apply bfly5_col; assumption.
  - apply bfly5_frame; assumption.
Qed.

(** the recursion *)
Lemma loop_blocks p m base (step : nat -> buf -> buf) (V : nat -> nat -> cpx) b :
  (forall q b k, q < p -> k < m -> step q b (base + q * m + k) = V q k) ->
  (forall q b i, q < p -> i < base + q * m \/ base + q * m + m <= i -> step q b i = b i) ->
  forall j, j <= p -> (forall q k, q < j -> k < m -> loop j step b (base + q * m + k) = V q k) /\
    (forall i, i < base \/ base + j * m <= i -> loop j step b i = b i).
Proof.
  intros H1 H2. induction j as [|j IH]; intros Hj; [split; [intros; lia|reflexivity]|]. destruct (IH ltac:(lia)) as [I1 I2]. cbn [loop]. split.
  - intros q k Hq Hk. destruct (Nat.eq_dec q j) as [->|N]; [apply H1; lia|]. rewrite H2; [apply I1; lia|lia|]. left. assert (S q * m <= j * m) by (apply Nat.mul_le_mono_r; lia). cbn in H. lia.
  - intros i Hi. cbn [Nat.mul] in Hi. rewrite H2; [apply I2; lia|lia|]. lia.
Qed.
Lemma work_spec c n f istr : nfft c = n -> 0 < n -> (forall i, i < n -> twiddles c i = W (inverse c) n i) ->
  forall fl L fs fo base b, factor_chain L fl -> 0 < L -> fs * L = n ->
  let r := kf_work c f istr fl fs fo base b in
  (forall k, k < L -> r (base + k) = csum L (fun j => cmul (f (fo + j * (fs * istr))) (W (inverse c) n (fs * j * k)))) /\
  (forall i, i < base \/ base + L <= i -> r i = b i).
Proof.
  intros A B C. induction fl as [|[p m] rest IH]; intros L fs fo base b HC HL HF; [destruct HC|]. destruct HC as (EL & Hp & HM).
  assert (Hm : 0 < m) by lia.
  assert (ST : stage c n fs p m) by (repeat split; try assumption; rewrite <- EL; exact HF).
  cbn [kf_work]. cbv zeta.
  set (b1 := if m =? 1 then _ else _).
  assert (IN : (forall q k, q < p -> k < m -> b1 (base + q * m + k) = csum m (fun j => cmul (f (fo + q * (fs * istr) + j * (fs * p * istr))) (W (inverse c) n (fs * p * j * k)))) /\
    (forall i, i < base \/ base + p * m <= i -> b1 i = b i)).
  { unfold b1. destruct (Nat.eqb_spec m 1) as [->|N1].
    - apply (loop_blocks p 1 base (fun q b => upd b (base + q) (f (fo + q * (fs * istr))))); [| |lia].
      + intros q b' k Hq Hk. assert (k = 0) as -> by lia. replace (base + q * 1 + 0) with (base + q) by lia. rewrite upd_same. cbn [csum].
        replace (fo + q * (fs * istr) + 0 * (fs * p * istr)) with (fo + q * (fs * istr)) by lia. replace (fs * p * 0 * 0) with 0 by lia. rewrite W_0 by exact B. change (Cx 0 0) with c0. ring.
      + intros q b' i Hq Hi. apply upd_other. lia.
    - destruct HM as [->|[M1 HC]]; [lia|].
      apply (loop_blocks p m base (fun q b => kf_work c f istr rest (fs * p) (fo + q * (fs * istr)) (base + q * m) b)); [| |lia].
      + intros q b' k Hq Hk. apply (IH m (fs * p)); [exact HC|lia| |exact Hk]. rewrite <- Nat.mul_assoc, <- EL. exact HF.
      + intros q b' i Hq Hi. apply (IH m (fs * p)); [exact HC|lia| |exact Hi]. rewrite <- Nat.mul_assoc, <- EL. exact HF. }
  destruct IN as [I1 I2]. destruct (bfly_spec c n fs p m base b1 ST) as [B1 B2]. split.
  - intros k Hk. set (u := k mod m). set (q1 := k / m).
    assert (EK : k = u + q1 * m) by (unfold u, q1; rewrite (Nat.div_mod k m) at 1 by lia; lia).
    assert (Hu : u < m) by (apply Nat.mod_upper_bound; lia). assert (Hq : q1 < p) by (apply Nat.div_lt_upper_bound; [lia|]; lia).
    rewrite EK, Nat.add_assoc, B1 by assumption. unfold G. rewrite EL, csum_split. apply csum_ext. intros q Hq'.
    replace (base + u + q * m) with (base + q * m + u) by lia. rewrite I1 by assumption. rewrite <- csum_mul. apply csum_ext. intros j Hj.
    rewrite <- EK.
    assert (X : cmul (W (inverse c) n (fs * p * j * u)) (W (inverse c) n (fs * q * k)) = W (inverse c) n (fs * (q + j * p) * k)).
    { rewrite <- W_add by exact B. rewrite <- (W_mod (inverse c) n B (fs * p * j * u + fs * q * k) (j * q1)). f_equal. rewrite EK, <- HF, EL. ring. }
    replace (fo + (q + j * p) * (fs * istr)) with (fo + q * (fs * istr) + j * (fs * p * istr)) by ring. rewrite <- X. ring.
  - intros i Hi. rewrite EL in Hi. rewrite B2, I2 by exact Hi. reflexivity.
Qed.

(** the factors *)
Lemma radix_div : forall fuel n p s r, radix fuel n p s = Some r -> 0 < n -> 0 < p -> 0 < r /\ n = r * (n / r).
Proof.
  induction fuel as [|fuel IH]; intros n p s r H Hn Hp; cbn [radix] in H; destruct (Nat.eqb_spec (n mod p) 0) as [E|E].
  1, 3: assert (r = p) as -> by congruence; split; [exact Hp|rewrite (Nat.div_mod n p) at 1 by lia; lia].
  - discriminate.
  - cbv zeta in H. eapply IH; [exact H|exact Hn|]. destruct (s <? next_radix p); [exact Hn|]. unfold next_radix. destruct p as [|[|[|[|[|p]]]]]; lia.
Qed.
Lemma radix_self fuel n s : 0 < n -> radix fuel n n s = Some n.
Proof. intros H. destruct fuel; cbn [radix]; rewrite Nat.mod_same by lia; reflexivity. Qed.
Lemma next_up p : 2 <= p -> p <> 4 -> p < next_radix p /\ next_radix p <> 4.
Proof. intros H1 H2. unfold next_radix. destruct p as [|[|[|[|[|p]]]]]; lia. Qed.
Lemma radix_some fuel : forall n p s, 1 < n -> 2 <= p -> p <> 4 -> s < p + fuel -> exists r, radix (S fuel) n p s = Some r /\ 2 <= r.
Proof.
  induction fuel as [|fuel IH]; intros n p s Hn Hp H4 Hs; destruct (next_up p Hp H4) as [U1 U2].
  - cbn [radix]. cbv zeta. replace (s <? next_radix p) with true by (symmetry; apply Nat.ltb_lt; lia).
    destruct (Nat.eqb_spec (n mod p) 0); [exists p; split; [reflexivity|exact Hp]|]. rewrite Nat.mod_same by lia. exists n. split; [reflexivity|lia].
  - remember (S fuel) as f. cbn [radix]. cbv zeta. destruct (Nat.eqb_spec (n mod p) 0); [exists p; split; [reflexivity|exact Hp]|]. subst f.
    destruct (Nat.ltb_spec s (next_radix p)) as [L|L]; [exists n; rewrite radix_self by lia; split; [reflexivity|lia]|].
    apply IH; lia.
Qed.
Lemma radix_run n p s : 1 < n -> 2 <= p -> exists r, radix (n + s + 4) n p s = Some r /\ 2 <= r.
Proof.
  intros Hn Hp. destruct (Nat.eq_dec p 4) as [->|N].
  - replace (n + s + 4) with (S (S (n + s + 2))) by lia. remember (S (n + s + 2)) as f. cbn [radix]. cbv zeta. destruct (Nat.eqb_spec (n mod 4) 0); [exists 4; split; [reflexivity|lia]|]. cbn [next_radix].
    destruct (Nat.ltb_spec s 2); [exists n; rewrite radix_self by lia; split; [reflexivity|lia]|]. subst f. apply radix_some; lia.
  - replace (n + s + 4) with (S (n + s + 3)) by lia. apply radix_some; lia.
Qed.
Lemma factor_total fuel : forall n p s, 1 < n -> 2 <= p -> n < fuel -> exists l, factor_loop fuel n p s = Some l /\ factor_chain n l /\ 2 ^ length l <= n.
Proof.
  induction fuel as [|fuel IH]; intros n p s Hn Hp Hf; [lia|]. cbn [factor_loop]. destruct (radix_run n p s Hn Hp) as (r & E & Hr). rewrite E.
  destruct (radix_div _ _ _ _ _ E ltac:(lia) ltac:(lia)) as [_ D]. cbv zeta. set (m := n / r) in *. destruct (Nat.ltb_spec 1 m) as [L|L].
  - destruct (IH m r s L Hr) as (l & -> & C & P); [nia|]. eexists. split; [reflexivity|]. split; [cbn; split; [exact D|split; [lia|right; split; [exact L|exact C]]]|]. cbn [length Nat.pow]. nia.
  - assert (m = 1) as M by (destruct m as [|[|]]; [lia|reflexivity|lia]). eexists. split; [reflexivity|]. split; [cbn; split; [exact D|split; [lia|left; exact M]]|]. cbn. lia.
Qed.
Lemma kf_factor_ok n : 0 < n -> exists l, kf_factor n = Some l /\ factor_chain n l /\ (1 < n -> 2 ^ length l <= n) /\ (n = 1 -> length l = 1).
Proof.
  intros Hn. destruct (Nat.eq_dec n 1) as [->|N].
  - exists [(1, 1)]. split; [reflexivity|]. cbn. repeat split; try lia.
  - destruct (factor_total (S n) n 4 (Nat.sqrt n)) as (l & E & C & P); try lia. exists l. split; [exact E|]. split; [exact C|]. split; [intros _; exact P|lia].
Qed.
Lemma few_factors n l : 0 < n -> (Z.of_nat n < 2 ^ 31)%Z -> kf_factor n = Some l -> length l <= 32.
Proof.
  intros Hn Hs H. destruct (kf_factor_ok n Hn) as (l' & E & _ & P1 & P2). rewrite H in E. assert (l' = l) as -> by congruence. clear E.
  destruct (Nat.eq_dec n 1) as [N|N]; [rewrite P2 by exact N; lia|]. specialize (P1 ltac:(lia)).
  destruct (le_lt_dec (length l) 32) as [L|L]; [exact L|]. exfalso. assert (Q : 2 ^ 32 <= 2 ^ length l) by (apply Nat.pow_le_mono_r; lia).
  assert (Z.of_nat (2 ^ 32) <= Z.of_nat n)%Z by (apply inj_le; eapply Nat.le_trans; eassumption). rewrite Nat2Z.inj_pow in H0. change (Z.of_nat 2) with 2%Z in H0. change (Z.of_nat 32) with 32%Z in H0. lia.
Qed.
(** kiss_fft computes the discrete Fourier transform *)
Lemma alloc_ok n inv g : 0 < n -> exists c, kiss_fft_alloc n inv g = Some c /\ nfft c = n /\ inverse c = inv /\ factor_chain n (factors c) /\ forall i, i < n -> twiddles c i = W inv n i.
Proof.
  intros Hn. unfold kiss_fft_alloc. destruct (kf_factor_ok n Hn) as (l & -> & C & _). eexists. split; [reflexivity|]. cbn [nfft inverse factors twiddles]. split; [reflexivity|]. split; [reflexivity|]. split; [exact C|].
  intros i Hi. replace (i <? n) with true by (symmetry; apply Nat.ltb_lt; exact Hi). apply W_twiddle. exact Hn.
Qed.
Lemma fft_dft c n inv : 0 < n -> nfft c = n -> inverse c = inv -> factor_chain n (factors c) -> (forall i, i < n -> twiddles c i = W inv n i) ->
  forall f b, (forall k, k < n -> kiss_fft c f b k = dft (if inv then 1 else -1)%R n f k) /\ forall i, n <= i -> kiss_fft c f b i = b i.
Proof.
  intros Hn A B C D f b. subst inv. destruct (work_spec c n f 1 A Hn D (factors c) n 1 0 0 b C Hn ltac:(lia)) as [W1 W2]. unfold kiss_fft. split.
  - intros k Hk. change k with (0 + k) at 1. rewrite (W1 k Hk). unfold dft. apply csum_ext. intros j Hj. cbn [Nat.add]. unfold W, sgn.
    replace (j * (1 * 1)) with j by lia. replace (1 * j * k) with (j * k) by lia. reflexivity.
  - intros i Hi. apply W2. lia.
Qed.
