(** Proofs about the wave and current grids. *)
From Coq Require Import Reals ZArith List Arith Lra Lia.
From Verif Require Import MErr MVec MStateOps MInterp MSeafloor MWaves SInterp PInterp SWaves.
Import ListNotations.
Open Scope R_scope.

(* ------------------------------ axes ------------------------------ *)
Lemma lattice_length a d m : length (lattice a d m) = m.
Proof. induction m; [reflexivity|]. cbn [lattice]. rewrite app_length, IHm. cbn. lia. Qed.
Lemma lattice_nth a d m i : (i < m)%nat -> nth i (lattice a d m) 0 = a + INR (S i) * d.
Proof.
  induction m; intros H; [lia|]. cbn [lattice]. destruct (Nat.eq_dec i m) as [->|N].
  - rewrite app_nth2; rewrite lattice_length; [|lia]. now rewrite Nat.sub_diag.
  - rewrite app_nth1 by (rewrite lattice_length; lia). apply IHm. lia.
Qed.
Lemma lattice_axis {tok} (atof : tok -> R) stoul e0 e1 e2 n : stoul e2 = Ok (Z.of_nat n) -> (2 <= n)%nat -> (Z.of_nat n < 2 ^ 32)%Z ->
  exists l, gridAxisCoords atof stoul GRID_LATTICE [e0; e1; e2] = Ok l /\ length l = n /\
    forall i, (i < n)%nat -> nth i l 0 = atof e0 + INR i * ((atof e1 - atof e0) / INR (n - 1)).
Proof.
  intros E H2 Hb. unfold gridAxisCoords. cbn [vget nth_error obind]. rewrite E. cbn [obind].
  rewrite (Z.mod_small (Z.of_nat n)) by lia. rewrite Z.mod_small by lia.
  replace (IZR (Z.of_nat n - 1)) with (INR (n - 1)) by (rewrite INR_IZR_INZ; f_equal; lia).
  replace (Z.to_nat (Z.of_nat n - 1 - 1)) with (n - 2)%nat by lia.
  set (d := (atof e1 - atof e0) / INR (n - 1)). eexists; split; [reflexivity|]. split.
  - cbn. rewrite app_length, lattice_length. cbn. lia.
  - intros i Hi. destruct i as [|i]; [cbn; lra|]. cbn [nth].
    destruct (Nat.eq_dec i (n - 2)) as [->|N].
    + rewrite app_nth2; rewrite lattice_length; [|lia]. rewrite Nat.sub_diag. cbn [nth]. replace (S (n - 2)) with (n - 1)%nat by lia.
      unfold d. field. apply not_0_INR. lia.
    + rewrite app_nth1 by (rewrite lattice_length; lia). apply lattice_nth. lia.
Qed.
Lemma lattice_increasing {tok} (atof : tok -> R) stoul e0 e1 e2 n l : stoul e2 = Ok (Z.of_nat n) -> (2 <= n)%nat -> (Z.of_nat n < 2 ^ 32)%Z ->
  atof e0 < atof e1 -> gridAxisCoords atof stoul GRID_LATTICE [e0; e1; e2] = Ok l ->
  increasing l /\ nth 0 l 0 = atof e0 /\ nth (n - 1) l 0 = atof e1.
Proof.
  intros E H2 Hb Hlt G. destruct (lattice_axis atof stoul e0 e1 e2 n E H2 Hb) as (l' & E' & Hl & Hn).
  rewrite G in E'. injection E' as <-. assert (Hp : 0 < INR (n - 1)) by (apply lt_0_INR; lia).
  split; [|split].
  - intros i j Hij. rewrite !Hn by lia. apply Rplus_lt_compat_l. apply Rmult_lt_compat_r.
    + apply Rdiv_lt_0_compat; lra.
    + apply lt_INR. lia.
  - rewrite Hn by lia. cbn. lra.
  - rewrite Hn by lia. field. lra.
Qed.

(* ------------------------------ time ------------------------------ *)
Lemma wrap_loop_mod n : (0 < n)%nat -> forall fuel it, (it <= fuel)%nat -> wrap_loop fuel it n = Ok (Nat.modulo it n).
Proof.
  intros Hn. induction fuel; intros it Hf; cbn [wrap_loop].
  - replace it with 0%nat by lia. destruct (Nat.ltb_spec (n - 1) 0); [lia|]. now rewrite Nat.mod_0_l by lia.
  - destruct (Nat.ltb_spec (n - 1) it).
    + rewrite IHfuel by lia. f_equal. replace it with ((it - n) + 1 * n)%nat at 2 by lia. now rewrite Nat.mod_add by lia.
    + now rewrite Nat.mod_small by lia.
Qed.
Lemma int_part_nat k q : INR k <= q < INR (S k) -> Int_part q = Z.of_nat k.
Proof.
  intros H. unfold Int_part. rewrite <- (tech_up q (Z.of_nat (S k))); [lia| |].
  - rewrite <- INR_IZR_INZ. lra.
  - rewrite <- INR_IZR_INZ. rewrite S_INR in *. lra.
Qed.
Lemma time_index_run a t k : (2 <= nt a)%nat -> 0 < dtWave a -> INR k * dtWave a <= t < INR (S k) * dtWave a -> (Z.of_nat k < 2 ^ 32 - 1)%Z ->
  time_index a t = Ok (Nat.modulo (S k) (nt a), t / dtWave a - INR k).
Proof.
  intros Hn Hd Ht Hk. unfold time_index. destruct (Nat.ltb_spec 1 (nt a)); [|lia].
  destruct (Req_EM_T (dtWave a) 0); [lra|].
  assert (Hq : INR k <= t / dtWave a < INR (S k)).
  { split.
    - apply Rmult_le_reg_r with (dtWave a); [lra|]. unfold Rdiv. rewrite Rmult_assoc, Rinv_l, Rmult_1_r; lra.
    - apply Rmult_lt_reg_r with (dtWave a); [lra|]. unfold Rdiv. rewrite Rmult_assoc, Rinv_l, Rmult_1_r; lra. }
  rewrite (int_part_nat k _ Hq).
  destruct (Z.ltb_spec (Z.of_nat k) 0); [lia|]. destruct (Z.leb_spec (2 ^ 32) (Z.of_nat k)); [lia|]. cbn [orb].
  rewrite Z.mod_small by lia. replace (Z.to_nat (Z.of_nat k + 1)) with (S k) by lia.
  rewrite wrap_loop_mod by lia. cbn [obind]. now rewrite <- INR_IZR_INZ.
Qed.
Lemma next_in_period k n : (2 <= n)%nat -> Nat.modulo k n <> (n - 1)%nat -> Nat.modulo (S k) n = S (Nat.modulo k n).
Proof.
  intros Hn H. pose proof (Nat.div_mod k n ltac:(lia)) as E. pose proof (Nat.mod_upper_bound k n ltac:(lia)) as B.
  replace (S k) with (S (k mod n) + (k / n) * n)%nat by nia. rewrite Nat.mod_add by lia. apply Nat.mod_small. lia.
Qed.
Lemma next_at_end k n : (2 <= n)%nat -> Nat.modulo k n = (n - 1)%nat -> Nat.modulo (S k) n = 0%nat.
Proof.
  intros Hn H. pose proof (Nat.div_mod k n ltac:(lia)) as E.
  replace (S k) with (0 + (k / n + 1) * n)%nat by nia. rewrite Nat.mod_add by lia. apply Nat.mod_small. lia.
Qed.

(* ------------------------------ places ------------------------------ *)
Lemma factor_place xp x : increasing xp -> xp <> [] ->
  exists j f, interp_factor xp 1 x = Ok (j, f) /\ (j < length xp)%nat /\ on_axis xp x (low j, j, f).
Proof.
  intros Hi Hne. destruct xp as [|a [|b l]]; [congruence| |].
  - exists 0%nat, 0. split; [reflexivity|]. split; [cbn; lia|]. cbn. repeat split; try lia; try lra.
    unfold clamp. cbn. unfold Rmax, Rmin. destruct (Rle_dec a x), (Rle_dec a a), (Rle_dec a x); lra.
  - destruct (interp_factor_segment (a :: b :: l) x Hi) as (j & f & E & Hj & Hf & Hin & Hlo & Hhi); [cbn; lia|].
    exists j, f. split; [exact E|]. split; [lia|]. unfold on_axis, low.
    pose proof (incr_le (a :: b :: l) 0 (length (a :: b :: l) - 1) Hi ltac:(cbn; lia)) as Hends.
    split; [lia|]. split; [lia|]. split; [right; lia|]. split; [lra|]. unfold clamp.
    set (xp := a :: b :: l) in *. destruct (Rle_lt_dec x (nth 0 xp 0)) as [L|L].
    + destruct (Hlo L) as [-> ->]. rewrite Rmax_left; [cbn [Nat.sub]; lra|]. apply Rle_trans with x; [apply Rmin_r|exact L].
    + destruct (Rle_lt_dec (nth (length xp - 1) xp 0) x) as [U|U].
      * destruct (Hhi U) as [-> ->]. rewrite (Rmin_left _ x) by exact U. rewrite Rmax_right by exact Hends. lra.
      * rewrite Rmin_right by lra. rewrite Rmax_right by lra. destruct (Hin ltac:(lra)) as [_ Hx]. lra.
Qed.
Lemma vget_cell3 {A} (d : A) v n m l i j k : shape3 n m l v -> (i < n)%nat -> (j < m)%nat -> (k < l)%nat -> vget3 v i j k = Ok (cell3 d v i j k).
Proof.
  intros [Hl HF] Hi Hj Hk. unfold vget3, vget2, cell3. rewrite (vget_nth v i []) by lia. cbn [obind].
  assert (S2 : shape2 m l (nth i v [])) by (rewrite Forall_forall in HF; apply HF, nth_In; lia).
  destruct S2 as [Hl2 HF2]. rewrite (vget_nth _ j []) by lia. cbn [obind].
  assert (S1 : shape1 l (nth j (nth i v []) [])) by (rewrite Forall_forall in HF2; apply HF2, nth_In; lia).
  unfold shape1 in S1. now rewrite (vget_nth _ k d) by lia.
Qed.
Lemma vget_cell4 {A} (d : A) v n m l w i j k t : shape4 n m l w v -> (i < n)%nat -> (j < m)%nat -> (k < l)%nat -> (t < w)%nat ->
  vget4 v i j k t = Ok (cell4 d v i j k t).
Proof.
  intros [Hl HF] Hi Hj Hk Ht. unfold vget4, cell4. rewrite (vget_nth v i []) by lia. cbn [obind].
  apply vget_cell3 with (n := m) (m := l) (l := w); try assumption. rewrite Forall_forall in HF. apply HF, nth_In. lia.
Qed.
Lemma interp3_linear v n m l i j k fx fy fz : shape3 n m l v -> (i < n)%nat -> (j < m)%nat -> (k < l)%nat ->
  interp3 v i j k fx fy fz = Ok (linear3 (cell3 0 v) (low i, i, fx) (low j, j, fy) (low k, k, fz)).
Proof.
  intros S Hi Hj Hk. assert (Li : (low i < n)%nat) by (unfold low; lia). assert (Lj : (low j < m)%nat) by (unfold low; lia). assert (Lk : (low k < l)%nat) by (unfold low; lia).
  unfold interp3. rewrite !(vget_cell3 0 v n m l) by assumption. cbn [omix obind]. f_equal.
  unfold linear3, linear1, between, mix.
  generalize (cell3 0 v (low i) (low j) (low k)), (cell3 0 v (low i) (low j) k), (cell3 0 v (low i) j (low k)), (cell3 0 v (low i) j k),
    (cell3 0 v i (low j) (low k)), (cell3 0 v i (low j) k), (cell3 0 v i j (low k)), (cell3 0 v i j k). intros. ring.
Qed.
Lemma interp4_linear v n m l w i j k t fx fy fz ft : shape4 n m l w v -> (i < n)%nat -> (j < m)%nat -> (k < l)%nat -> (t < w)%nat ->
  interp4 v i j k t fx fy fz ft = Ok (linear4 (cell4 0 v) (low i, i, fx) (low j, j, fy) (low k, k, fz) (low t, t, ft)).
Proof.
  intros S Hi Hj Hk Ht. assert (Li : (low i < n)%nat) by (unfold low; lia). assert (Lj : (low j < m)%nat) by (unfold low; lia).
  assert (Lk : (low k < l)%nat) by (unfold low; lia). assert (Lt : (low t < w)%nat) by (unfold low; lia).
  unfold interp4. rewrite !(vget_cell4 0 v n m l w) by assumption. cbn [omix obind]. f_equal.
  unfold linear4, linear3, linear1, between, mix.
  generalize (cell4 0 v) as c. intros c.
  generalize (c (low i) (low j) (low k) (low t)), (c (low i) (low j) k (low t)), (c (low i) j (low k) (low t)), (c (low i) j k (low t)),
    (c i (low j) (low k) (low t)), (c i (low j) k (low t)), (c i j (low k) (low t)), (c i j k (low t)),
    (c (low i) (low j) (low k) t), (c (low i) (low j) k t), (c (low i) j (low k) t), (c (low i) j k t),
    (c i (low j) (low k) t), (c i (low j) k t), (c i j (low k) t), (c i j k t). intros. ring.
Qed.
Lemma interp4Vec_linear v n m l w i j k t fx fy fz ft : shape4 n m l w v -> (i < n)%nat -> (j < m)%nat -> (k < l)%nat -> (t < w)%nat ->
  interp4Vec v i j k t fx fy fz ft = Ok (vlinear4 v (low i, i, fx) (low j, j, fy) (low k, k, fz) (low t, t, ft)).
Proof.
  intros S Hi Hj Hk Ht. assert (Li : (low i < n)%nat) by (unfold low; lia). assert (Lj : (low j < m)%nat) by (unfold low; lia).
  assert (Lk : (low k < l)%nat) by (unfold low; lia). assert (Lt : (low t < w)%nat) by (unfold low; lia).
  unfold interp4Vec, ginterp4. rewrite !(vget_cell4 vzero v n m l w) by assumption. cbn [gomix obind]. f_equal.
  unfold vlinear4, linear4, linear3, linear1, between, vmix.
  generalize (cell4 vzero v) as c. intros c.
  generalize (c (low i) (low j) (low k) (low t)), (c (low i) (low j) k (low t)), (c (low i) j (low k) (low t)), (c (low i) j k (low t)),
    (c i (low j) (low k) (low t)), (c i (low j) k (low t)), (c i j (low k) (low t)), (c i j k (low t)),
    (c (low i) (low j) (low k) t), (c (low i) (low j) k t), (c (low i) j (low k) t), (c (low i) j k t),
    (c i (low j) (low k) t), (c i (low j) k t), (c i j (low k) t), (c i j k t). intros. unfold vadd, vscale. cbn [vx vy vz]. f_equal; ring.
Qed.
