(** Dynamic and 4D currents: proofs. *)
From Coq Require Import Reals ZArith List Arith Lra Lia.
From Verif Require Import MErr MVec MStateOps MInterp MSeafloor MWaves MSpec MCur SInterp PInterp SWaves SWavesG SSpecB SCur PWaves PWavesB PSpecB PFill PCur.
Import ListNotations.
Open Scope R_scope.

Lemma tab_length {A} n (f : nat -> A) : length (tabulate n f) = n.
Proof. unfold tabulate. rewrite map_length, seq_length. reflexivity. Qed.
Lemma tab_nth {A} n (f : nat -> A) i d : (i < n)%nat -> nth i (tabulate n f) d = f i.
Proof. intros H. unfold tabulate. rewrite (nth_map f (seq 0 n) i 0%nat) by (rewrite seq_length; exact H). rewrite seq_nth by exact H. reflexivity. Qed.
Lemma tab_map {A B} n (f : nat -> A) (g : A -> B) : map g (tabulate n f) = tabulate n (fun i => g (f i)).
Proof. unfold tabulate. apply map_map. Qed.
Lemma tab_ext {A} n (f g : nat -> A) : (forall i, (i < n)%nat -> f i = g i) -> tabulate n f = tabulate n g.
Proof. intros H. unfold tabulate. apply map_ext_in. intros i Hi. apply in_seq in Hi. apply H. lia. Qed.
Lemma tab_self (l : list R) : tabulate (length l) (fun i => nth i l 0) = l.
Proof. apply (nth_ext _ _ 0 0); [apply tab_length|]. rewrite tab_length. intros i Hi. apply (tab_nth (length l) (fun j => nth j l 0)). exact Hi. Qed.
Lemma forall2_nth {A B} (P : A -> B -> Prop) l bs da db : length l = length bs -> (forall i, (i < length l)%nat -> P (nth i l da) (nth i bs db)) -> Forall2 P l bs.
Proof.
  revert bs. induction l as [|a l IH]; intros [|b bs] L H; cbn in L; try lia; constructor.
  - apply (H 0%nat). cbn. lia.
  - apply IH; [lia|]. intros i Hi. apply (H (S i)). cbn. lia.
Qed.
Lemma oeach_tab {A B} (f : A -> outcome B) l (g : nat -> B) da : (forall i, (i < length l)%nat -> f (nth i l da) = Ok (g i)) -> oeach f l = Ok (tabulate (length l) g).
Proof.
  intros H. apply oeach_ok. apply (forall2_nth _ _ _ da (g 0%nat)); [rewrite tab_length; reflexivity|]. intros i Hi. rewrite tab_nth by exact Hi. apply H. exact Hi.
Qed.
Lemma oeach_seq_tab {B} (f : nat -> outcome B) (g : nat -> B) n : (forall i, (i < n)%nat -> f i = Ok (g i)) -> oeach f (seq 0 n) = Ok (tabulate n g).
Proof. intros H. unfold tabulate. apply oeach_map. intros i Hi. apply in_seq in Hi. apply H. lia. Qed.

Lemma gap_pos T dt : increasing T -> smallest_gap T dt -> 0 < dt.
Proof. intros Hi [_ (i & Hi' & ->)]. assert (nth i T 0 < nth (S i) T 0) by (apply Hi; lia). lra. Qed.
Lemma time_axis_ok T dt n : increasing T -> (2 <= length T)%nat -> sampling T dt n -> dt <= DBL_MAX -> (Z.of_nat n < 2 ^ 32)%Z -> time_axis T = Ok (dt, n).
Proof.
  intros Hi Hn (G & N1 & S1) Hd Hz. pose proof (gap_pos T dt Hi G) as P. unfold time_axis.
  destruct T as [|t0 T']; [cbn in Hn; lia|]. set (T := t0 :: T') in *.
  destruct (min_gap_some T DBL_MAX) as (e & -> & E1 & E2 & E3). destruct G as [G1 (g & Hg & Eg)].
  assert (e = dt) as ->.
  { apply Rle_antisym; [rewrite Eg; apply E2; lia|]. destruct E3 as [->|(i & Hi' & ->)]; [exact Hd|apply G1; lia]. }
  destruct (Req_EM_T dt 0); [lra|]. cbv zeta.
  assert (E : last T 0 = last T 0 / dt * dt) by (field; lra). set (q := last T 0 / dt) in *.
  assert (Q : Int_part q = Z.of_nat (n - 1)).
  { apply int_part_nat. replace (S (n - 1)) with n by lia. split; [apply Rmult_le_reg_r with dt; lra|apply Rmult_lt_reg_r with dt; lra]. }
  rewrite Q. destruct (Z.ltb_spec (Z.of_nat (n - 1)) (-1)); [lia|]. destruct (Z.leb_spec (2 ^ 32 - 1) (Z.of_nat (n - 1))); [lia|].
  cbn [orb]. f_equal. f_equal. lia.
Qed.
Lemma time_loop_spec T ux uy uz dt : increasing T -> (2 <= length T)%nat -> length ux = length T -> length uy = length T -> length uz = length T -> 0 < dt ->
  forall n it j, admissible T j (INR it * dt) ->
  exists l, time_loop T ux uy uz dt it n j = Ok l /\ length l = n /\
    forall k, (k < n)%nat -> let u := nth k l vzero in let t := INR (it + k) * dt in
      lin_interp T ux t (vx u) /\ lin_interp T uy t (vy u) /\ lin_interp T uz t (vz u).
Proof.
  intros Hi Hn L1 L2 L3 Hd. induction n as [|n IH]; intros it j Ha.
  - exists []. repeat split; intros; lia.
  - cbn [time_loop].
    destruct (interp_from_hint T ux j _ Hi Hn L1 Ha) as (j1 & f1 & y1 & E1 & J1 & P1 & I1 & M1).
    destruct (interp_from_hint T uy j _ Hi Hn L2 Ha) as (j2 & f2 & y2 & E2 & J2 & P2 & I2 & M2).
    destruct (interp_from_hint T uz j _ Hi Hn L3 Ha) as (j3 & f3 & y3 & E3 & J3 & P3 & I3 & M3).
    assert (j2 = j1 /\ f2 = f1 /\ j3 = j1 /\ f3 = f1) as (-> & -> & -> & ->) by (rewrite E1 in E2, E3; repeat split; congruence).
    rewrite E1. cbn [obind fst snd]. rewrite (lerp_pick _ _ _ _ P1), (lerp_pick _ _ _ _ P2), (lerp_pick _ _ _ _ P3). cbn [obind].
    destruct (IH (S it) j1) as (l & E & Ll & Hl).
    { destruct (le_lt_dec j1 1) as [L|L]; [left; exact L|right]. replace (Nat.min j1 (length T - 1)) with j1 by lia.
      assert (nth 0 T 0 < nth (j1 - 1) T 0) by (apply Hi; lia). rewrite S_INR. unfold Rmax in M1. destruct (Rle_dec (INR it * dt) (nth 0 T 0)); lra. }
    rewrite E. cbn [obind]. eexists. split; [reflexivity|]. split; [cbn; lia|]. intros [|k] Hk.
    + cbn [nth vx vy vz]. rewrite Nat.add_0_r. cbv zeta. cbn [vx vy vz]. repeat split; first [apply I1|apply I2|apply I3].
    + cbn [nth]. replace (it + S k)%nat with (S it + k)%nat by lia. apply Hl. lia.
Qed.
Lemma time_loop_v T vs dt n : increasing T -> (2 <= length T)%nat -> length vs = length T -> 0 < dt ->
  exists l, time_loop T (map vx vs) (map vy vs) (map vz vs) dt 0 n 1 = Ok l /\ length l = n /\ forall k, (k < n)%nat -> vinterp T vs (INR k * dt) (nth k l vzero).
Proof.
  intros Hi Hn L Hd. destruct (time_loop_spec T (map vx vs) (map vy vs) (map vz vs) dt Hi Hn) with (n := n) (it := 0%nat) (j := 1%nat) as (l & E & Ll & Hl); try (rewrite map_length; exact L); try assumption.
  - left. lia.
  - exists l. split; [exact E|]. split; [exact Ll|]. intros k Hk. apply (Hl k Hk).
Qed.

Section Dynamic.
Context {tok : Type}.
Variables (stod stof : tok -> outcome R).
Lemma block_ok row from n g : (forall i, (i < n)%nat -> (from + i < length row)%nat /\ column_is stod row (from + i) (g i)) -> block stod row from n = Ok (tabulate n g).
Proof.
  intros H. apply oeach_seq_tab. intros i Hi. destruct (H i Hi) as [L C]. unfold column_is in C. unfold vget.
  destruct (nth_error row (from + i)) as [e|] eqn:E; [exact C|]. apply nth_error_None in E. lia.
Qed.
Lemma missing row i v : (length row <= i)%nat -> column_is stod row i v -> v = 0.
Proof. intros L C. unfold column_is in C. apply nth_error_None in L. rewrite L in C. exact C. Qed.
Lemma zeros n g : (forall i, (i < n)%nat -> g i = 0) -> repeat 0 n = tabulate n g.
Proof.
  intros H. apply (nth_ext _ _ 0 0); [rewrite repeat_length, tab_length; reflexivity|]. rewrite repeat_length. intros i Hi.
  rewrite tab_nth by exact Hi. rewrite H by exact Hi. rewrite nth_rep. destruct (Nat.ltb i n); reflexivity.
Qed.
Lemma dyn_row_ok n row t U : (0 < n)%nat -> dynamic_means stod n row t U ->
  dyn_row stod n row = Ok (TRow t (tabulate n (fun k => vx (U k))) (tabulate n (fun k => vy (U k))) (tabulate n (fun k => vz (U k)))).
Proof.
  intros Hn (L & C0 & C). unfold dyn_row. assert (Ln : (n < length row)%nat) by (cbn [In] in L; lia).
  destruct (Nat.leb_spec (length row) n); [lia|]. unfold column_is in C0. unfold vget at 1. destruct (nth_error row 0) as [e0|] eqn:E0; [|apply nth_error_None in E0; lia].
  cbn [obind]. rewrite C0. cbn [obind].
  rewrite (block_ok row 1 n (fun k => vx (U k))) by (intros i Hi; split; [lia|apply (C i Hi)]). cbn [obind].
  assert (Y : (if Nat.leb (2 * n + 1) (length row) then block stod row (n + 1) n else Ok (repeat 0 n)) = Ok (tabulate n (fun k => vy (U k)))).
  { destruct (Nat.leb_spec (2 * n + 1) (length row)) as [G|G].
    - apply block_ok. intros i Hi. split; [lia|]. replace (n + 1 + i)%nat with (1 + n + i)%nat by lia. apply (C i Hi).
    - f_equal. apply zeros. intros i Hi. apply (missing row (1 + n + i)); [cbn [In] in L; lia|apply (C i Hi)]. }
  assert (W : (if Nat.leb (3 * n + 1) (length row) then block stod row (2 * n + 1) n else Ok (repeat 0 n)) = Ok (tabulate n (fun k => vz (U k)))).
  { destruct (Nat.leb_spec (3 * n + 1) (length row)) as [G|G].
    - apply block_ok. intros i Hi. split; [lia|]. replace (2 * n + 1 + i)%nat with (1 + 2 * n + i)%nat by lia. apply (C i Hi).
    - f_equal. apply zeros. intros i Hi. apply (missing row (1 + 2 * n + i)); [cbn [In] in L; lia|apply (C i Hi)]. }
  rewrite Y. cbn [obind]. rewrite W. reflexivity.
Qed.
Lemma dynamic_built lines depths T U dt n : dynamic_file stod lines stof depths T U -> depths <> [] -> increasing T -> (2 <= length T)%nat ->
  sampling T dt n -> dt <= DBL_MAX -> (Z.of_nat n < 2 ^ 32)%Z ->
  exists vel, dynamic_current stod stof lines = Ok (CGrid (Axes [0] [0] depths n dt) [[vel]] (cleared 1 1 (length depths) n)) /\
    length vel = length depths /\ forall k, (k < length depths)%nat -> length (nth k vel []) = n /\
      forall i, (i < n)%nat -> vinterp T (tabulate (length T) (U k)) (INR i * dt) (nth i (nth k vel []) vzero).
Proof.
  intros (h0 & h1 & h2 & h3 & dl & h5 & body & -> & Hd & Lb & Hb) Hne Hi Hn Hs HD Hz.
  assert (Lp : (0 < length depths)%nat) by (destruct depths; cbn; [congruence|lia]).
  set (rows := tabulate (length T) (fun i => TRow (nth i T 0) (tabulate (length depths) (fun k => vx (U k i))) (tabulate (length depths) (fun k => vy (U k i))) (tabulate (length depths) (fun k => vz (U k i))))).
  assert (ET : map tr_t rows = T). { unfold rows. rewrite tab_map. cbn [tr_t]. apply tab_self. }
  destruct (oeach_seq (fun iz => time_loop (map tr_t rows) (map (fun r => nth iz (tr_x r) 0) rows) (map (fun r => nth iz (tr_y r) 0) rows)
     (map (fun r => nth iz (tr_z r) 0) rows) dt 0 n 1) (fun k l => length l = n /\ forall i, (i < n)%nat -> vinterp T (tabulate (length T) (U k)) (INR i * dt) (nth i l vzero)) [] (length depths)) as (vel & E & Lv & Hv).
  { intros k Hk. rewrite ET. destruct (time_loop_v T (tabulate (length T) (U k)) dt n Hi Hn (tab_length _ _) (gap_pos _ _ Hi (proj1 Hs))) as (l & El & Ll & Hl).
    exists l. split; [|split; [exact Ll|exact Hl]]. rewrite <- El.
    f_equal; unfold rows; rewrite !tab_map; apply tab_ext; intros i _; cbn [tr_x tr_y tr_z]; (rewrite tab_nth by exact Hk); reflexivity. }
  exists vel. split; [|split; [exact Lv|exact Hv]].
  unfold dynamic_current. destruct body as [|b body]; [cbn in Lb; lia|]. set (bd := b :: body) in *.
  replace (Nat.ltb (length (h0 :: h1 :: h2 :: h3 :: dl :: h5 :: bd)) 7) with false by (symmetry; apply Nat.ltb_ge; unfold bd; cbn [length]; lia).
  cbn [vget nth_error]. cbn [obind]. rewrite (oeach_ok stof dl depths Hd). cbn [obind skipn].
  rewrite (oeach_tab _ bd (fun i => TRow (nth i T 0) (tabulate (length depths) (fun k => vx (U k i))) (tabulate (length depths) (fun k => vy (U k i))) (tabulate (length depths) (fun k => vz (U k i)))) []).
  2:{ intros i Hi'. apply (dyn_row_ok (length depths) (nth i bd []) (nth i T 0) (fun k => U k i)); [exact Lp|]. apply Hb. lia. }
  rewrite Lb. fold rows. cbn [obind]. rewrite ET at 1. rewrite (time_axis_ok T dt n) by assumption. cbn [obind fst snd].
  unfold allocate. cbn [px py pz nt length Nat.eqb orb]. destruct (Nat.eqb_spec (length depths) 0); [lia|]. destruct (Nat.eqb_spec n 0); [destruct Hs; lia|].
  cbn [orb obind]. rewrite E. reflexivity.
Qed.
End Dynamic.
Lemma lin_node xp yp i y : increasing xp -> (i < length xp)%nat -> lin_interp xp yp (nth i xp 0) y -> y = nth i yp 0.
Proof.
  intros Hi Hl (_ & L2 & L3). destruct (Nat.eq_dec (S i) (length xp)) as [E|E].
  - replace i with (length xp - 1)%nat by lia. apply L2. replace (length xp - 1)%nat with i by lia. lra.
  - assert (D : nth i xp 0 < nth (S i) xp 0) by (apply Hi; lia). specialize (L3 i ltac:(lia) ltac:(lra)).
    assert ((y - nth i yp 0) * (nth (S i) xp 0 - nth i xp 0) = 0) as Z by lra. apply Rmult_integral in Z. lra.
Qed.
Lemma v3_eq (a b : v3) : vx a = vx b -> vy a = vy b -> vz a = vz b -> a = b.
Proof. destruct a, b. cbn. intros -> -> ->. reflexivity. Qed.
Lemma vinterp_node xp vs i u : increasing xp -> (i < length xp)%nat -> vinterp xp vs (nth i xp 0) u -> u = nth i vs vzero.
Proof.
  intros Hi Hl (A & B & C). apply lin_node in A, B, C; try assumption.
  rewrite (comp_nth vx) in A by reflexivity. rewrite (comp_nth vy) in B by reflexivity. rewrite (comp_nth vz) in C by reflexivity. apply v3_eq; assumption.
Qed.
Lemma even_nth n dt i : (i < n)%nat -> nth i (even_times n dt) 0 = INR i * dt.
Proof. intros H. apply (tab_nth n (fun j => INR j * dt)). exact H. Qed.
Lemma even_incr n dt : 0 < dt -> increasing (even_times n dt).
Proof.
  intros Hd i j Hij. unfold even_times in Hij. rewrite tab_length in Hij. rewrite !even_nth by lia. apply Rmult_lt_compat_r; [exact Hd|]. apply lt_INR. lia.
Qed.
Lemma even_last n dt : (1 <= n)%nat -> last (even_times n dt) 0 = INR (n - 1) * dt.
Proof. intros H. rewrite last_nth. unfold even_times at 1. rewrite tab_length. apply even_nth. lia. Qed.
Lemma even_sampling n dt : (2 <= n)%nat -> 0 < dt -> sampling (even_times n dt) dt n.
Proof.
  intros Hn Hd. assert (G : forall i, (S i < n)%nat -> nth (S i) (even_times n dt) 0 - nth i (even_times n dt) 0 = dt).
  { intros i Hi. rewrite !even_nth by lia. rewrite S_INR. ring. }
  unfold sampling, smallest_gap. assert (L : length (even_times n dt) = n) by apply tab_length. rewrite L. repeat split.
  - intros i Hi. rewrite G by exact Hi. lra.
  - exists 0%nat. rewrite G by lia. split; [lia|reflexivity].
  - lia.
  - rewrite even_last by lia. lra.
  - rewrite even_last by lia. apply Rmult_lt_compat_r; [exact Hd|]. apply lt_INR. lia.
Qed.
Lemma even_place n dt t k : (2 <= n)%nat -> 0 < dt -> INR k * dt <= t < INR (S k) * dt -> (S k < n)%nat ->
  on_axis (even_times n dt) t (k, S k, t / dt - INR k).
Proof.
  intros Hn Hd Ht Hk. assert (L : length (even_times n dt) = n) by apply tab_length.
  assert (E : t = t / dt * dt) by (field; lra). set (q := t / dt) in *. rewrite S_INR in Ht.
  assert (Q : INR k <= q < INR k + 1) by (split; [apply Rmult_le_reg_r with dt|apply Rmult_lt_reg_r with dt]; lra).
  unfold on_axis. rewrite L. split; [lia|]. split; [lia|]. split; [right; reflexivity|]. split; [lra|].
  rewrite !even_nth by lia. rewrite S_INR.
  destruct (clamp_cases (even_times n dt) t (even_incr n dt Hd) ltac:(lia)) as [(A & ->)|[(A & ->)|(A & ->)]].
  - rewrite even_nth in * by lia. cbn [INR] in *. assert (0 <= INR k * dt) by (apply Rmult_le_pos; [apply pos_INR|lra]).
    assert (INR k * dt = 0) by lra. assert (t = 0) as T0 by lra. assert (q = 0). { rewrite T0 in E. symmetry in E. apply Rmult_integral in E. lra. } 
    replace (INR k * dt + (q - INR k) * ((INR k + 1) * dt - INR k * dt)) with (q * dt) by ring. lra.
  - exfalso. rewrite L, even_nth in A by lia. assert (INR (S k) <= INR (n - 1)) as B by (apply le_INR; lia). rewrite S_INR in B.
    assert ((INR k + 1) * dt <= INR (n - 1) * dt) by (apply Rmult_le_compat_r; lra). lra.
  - replace (INR k * dt + (q - INR k) * ((INR k + 1) * dt - INR k * dt)) with (q * dt) by ring. lra.
Qed.
Lemma step_of dt t : 0 < dt -> 0 <= t -> exists k, INR k * dt <= t < INR (S k) * dt.
Proof.
  intros Hd Ht. destruct (archimed (t / dt)) as [A B]. assert (E : t = t / dt * dt) by (field; lra).
  assert (P : 0 <= t / dt) by (apply Rmult_le_pos; [exact Ht|left; apply Rinv_0_lt_compat; exact Hd]). set (q := t / dt) in *.
  assert (0 <= up q - 1)%Z as Z. { assert (0 < IZR (up q)) by lra. apply lt_IZR in H. lia. }
  exists (Z.to_nat (up q - 1)). rewrite S_INR, INR_IZR_INZ, Z2Nat.id by exact Z. rewrite minus_IZR.
  split; rewrite E; [apply Rmult_le_compat_r|apply Rmult_lt_compat_r]; lra.
Qed.

Section DynamicFlow.
Context {tok : Type}.
Variables (stod stof : tok -> outcome R).
Variables (lines : list (list tok)) (depths : list R) (U : nat -> nat -> v3) (dt : R) (n : nat).
Hypothesis Hf : dynamic_file stod lines stof depths (even_times n dt) U.
Hypothesis Hne : depths <> [].
Hypothesis Hi : increasing depths.
Hypothesis Hn : (2 <= n)%nat.
Hypothesis Hd : 0 < dt <= DBL_MAX.
Hypothesis Hz : (Z.of_nat n < 2 ^ 32)%Z.
Lemma dynamic_grid : exists vel, let G := CGrid (Axes [0] [0] depths n dt) [[vel]] (cleared 1 1 (length depths) n) in
  dynamic_current stod stof lines = Ok G /\ cgrid_ok G /\ forall k i, (k < length depths)%nat -> (i < n)%nat -> nth i (nth k vel []) vzero = U k i.
Proof.
  assert (L : length (even_times n dt) = n) by apply tab_length.
  destruct (dynamic_built stod stof lines depths (even_times n dt) U dt n) as (vel & E & Lv & Hv); try assumption.
  - apply even_incr. lra.
  - lia.
  - apply even_sampling; [exact Hn|lra].
  - lra.
  - exists vel. split; [exact E|]. split.
    + unfold cgrid_ok. cbn [cg_axes px py pz nt cg_vel cg_acc length]. split; [|split].
      * unfold axes_ok. repeat split; try congruence; try (intros i j Hij; cbn in Hij; lia); assumption.
      * split; [reflexivity|]. constructor; [|constructor]. split; [reflexivity|]. constructor; [|constructor]. split; [exact Lv|].
        apply Forall_forall. intros a Ha. apply (In_nth _ _ []) in Ha. destruct Ha as (k & Hk & <-). apply Hv. lia.
      * apply cleared_shape.
    + intros k i Hk Hi'. destruct (Hv k Hk) as [_ V]. specialize (V i Hi'). rewrite <- (even_nth n dt i Hi') in V.
      apply vinterp_node in V; [|apply even_incr; lra|lia]. rewrite V. rewrite tab_nth by lia. reflexivity.
Qed.
Lemma dynamic_flow : exists G, dynamic_current stod stof lines = Ok G /\
  (forall pos t, 0 <= t < INR (n - 1) * dt -> exists us u, current_kin G pos t = Ok (u, vzero) /\ length us = length depths /\
     (forall k, (k < length depths)%nat -> vinterp (even_times n dt) (tabulate n (U k)) t (nth k us vzero)) /\ vinterp depths us (vz pos) u) /\
  (forall pos t, INR (n - 1) * dt <= t < INR n * dt -> exists u, current_kin G pos t = Ok (u, vzero) /\ vinterp depths (tabulate (length depths) (fun k => U k 0%nat)) (vz pos) u).
Proof.
  destruct dynamic_grid as (vel & E & Ok' & Hv). cbv zeta in *. set (G := CGrid _ _ _) in *. exists G. split; [exact E|].
  assert (NB : INR n <= IZR (2 ^ 32 - 1)). { rewrite INR_IZR_INZ. apply IZR_le. lia. }
  split; intros pos t Ht.
  - destruct (step_of dt t) as (k & Hk); [lra|lra|].
    assert (K : (S k < n)%nat). { apply INR_lt. assert (INR k < INR (n - 1)) as B by (apply Rmult_lt_reg_r with dt; lra). apply INR_lt in B. apply lt_INR. lia. }
    destruct (current_in_time G pos t (k, S k, t / dt - INR k)) as (out & Eo & X & Y & Z & HX & HY & HZ & E1 & E2).
    + exact Ok'.
    + exact Hn.
    + exact (proj1 Hd).
    + unfold short. cbn [dtWave cg_axes G]. assert (INR (n - 1) <= INR n) by (apply le_INR; lia). apply Rlt_le_trans with (INR (n - 1) * dt); [lra|]. apply Rmult_le_compat_r; lra.
    + exists k. split; [exact Hk|]. cbn [nt cg_axes G]. rewrite !Nat.mod_small by lia. reflexivity.
    + cbn [fst nt cg_axes G]. lia.
    + unfold G in *. cbn [cg_axes px py pz cg_vel cg_acc] in *. set (P := (k, S k, t / dt - INR k)) in *.
      set (us := tabulate (length depths) (fun j => vplace (fun i => nth i (nth j vel []) vzero) P)).
      exists us, (fst out). split; [|split; [apply tab_length|split]].
      * rewrite Eo. destruct out as [v a]. cbn [fst snd] in *. rewrite E2. f_equal. f_equal. apply zeros_read. intros. apply cleared_still.
      * intros j Hj. unfold us. rewrite tab_nth by exact Hj.
        rewrite (vplace_ext _ (fun i => nth i (tabulate n (U j)) vzero)).
        -- apply vplace_interp; [apply even_incr; lra|]. apply even_place; try assumption; lra.
        -- unfold P. rewrite !tab_nth by lia. split; apply Hv; lia.
      * rewrite E1, (column_read _ 0 0 _ _ _ _ _ _ HX HY). rewrite (vplace_ext _ (fun j => nth j us vzero)).
        -- apply vplace_interp; assumption.
        -- destruct Z as [[a b] f]. cbn [on_axis] in HZ. destruct HZ as (La & Lb & _). unfold us. rewrite !tab_nth by assumption. split; reflexivity.
  - destruct (current_in_last G pos t ((n - 1)%nat, 0%nat, t / dt - INR (n - 1))) as (out & Eo & X & Y & Z & HX & HY & HZ & E1 & E2).
    + exact Ok'.
    + exact Hn.
    + exact (proj1 Hd).
    + unfold short. cbn [dtWave cg_axes G]. apply Rlt_le_trans with (INR n * dt); [lra|]. apply Rmult_le_compat_r; lra.
    + exists (n - 1)%nat. cbn [nt dtWave cg_axes G]. replace (S (n - 1)) with n by lia. split; [exact Ht|].
      rewrite Nat.mod_small by lia. rewrite Nat.mod_same by lia. reflexivity.
    + reflexivity.
    + unfold G in *. cbn [cg_axes px py pz cg_vel cg_acc snd] in *. exists (fst out). split.
      * rewrite Eo. destruct out as [v a]. cbn [fst snd] in *. rewrite E2. f_equal. f_equal. apply zeros_read. intros. apply cleared_still.
      * rewrite E1, (column_read _ 0 0 _ _ _ _ _ _ HX HY). rewrite (vplace_ext _ (fun j => nth j (tabulate (length depths) (fun k => U k 0%nat)) vzero)).
        -- apply vplace_interp; assumption.
        -- destruct Z as [[a b] f]. cbn [on_axis] in HZ. destruct HZ as (La & Lb & _). rewrite !tab_nth by assumption.
           unfold vplace. rewrite !same1. rewrite !Hv by (assumption || lia). split; [destruct (U a 0%nat)|destruct (U b 0%nat)]; reflexivity.
Qed.
End DynamicFlow.
