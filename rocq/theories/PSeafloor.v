From Coq Require Import Reals ZArith List Arith Lia Lra.
From Verif Require Import MErr MInterp SInterp PInterp MSeafloor SSeafloor.
Import ListNotations.
Open Scope R_scope.

(** ** calcInsertIndex *)
Lemma insert_scan_at l : forall v i m, (m <= length l)%nat -> (0 < i + m)%nat ->
  (forall a, (a < m)%nat -> nth a l 0 <= v) -> ((m < length l)%nat -> nth m l 0 > v) ->
  insert_scan l v i = (i + m - 1)%nat.
Proof.
  induction l as [|b l IH]; intros v i m Hm Him Hle Hgt; cbn [insert_scan].
  - cbn in Hm. f_equal; lia.
  - destruct m as [|m].
    + cbn in Hgt. destruct (Rgt_dec b v); [|exfalso; apply n; apply Hgt; lia].
      destruct (Nat.eqb_spec i 0); [lia|lia].
    + pose proof (Hle 0%nat ltac:(lia)) as H0. cbn in H0.
      destruct (Rgt_dec b v); [lra|]. rewrite (IH v (S i) m); [lia|cbn in Hm; lia|lia| |].
      * intros a Ha. apply (Hle (S a)). lia.
      * intros Hm'. apply Hgt. cbn. lia.
Qed.

Lemma insert_scan_lt l v : forall i, insert_scan l v i = 0%nat \/ (insert_scan l v i < i + length l)%nat.
Proof.
  induction l as [|b l IH]; intros i; cbn [insert_scan].
  - destruct i; [left; reflexivity|right; cbn; lia].
  - destruct (Rgt_dec b v).
    + destruct (Nat.eqb_spec i 0); [left; reflexivity|right; cbn; lia].
    + destruct (IH (S i)) as [E|E]; [left; exact E|right; cbn; lia].
Qed.

Lemma index_in_range l v i : calc_insert_index l v = Ok i -> (i < length l)%nat.
Proof.
  unfold calc_insert_index. destruct l as [|b l]; [discriminate|]. intros H.
  assert (H' : insert_scan (b :: l) v 0 = i) by congruence. rewrite <- H'.
  destruct (insert_scan_lt (b :: l) v 0) as [E|E]; [rewrite E; cbn; lia|exact E].
Qed.

Lemma index_at l k : increasing l -> (k < length l)%nat -> calc_insert_index l (nth k l 0) = Ok k.
Proof.
  intros Hi Hk. unfold calc_insert_index. destruct l as [|b l]; [cbn in Hk; lia|].
  f_equal. rewrite (insert_scan_at (b :: l) _ 0 (S k)); [lia|lia|lia| |].
  - intros a Ha. apply incr_le; [assumption|lia].
  - intros H. apply Hi. lia.
Qed.

Lemma index_of_tick l v i : increasing l -> In v l -> calc_insert_index l v = Ok i -> v = nth i l 0.
Proof.
  intros Hi Hv E. destruct (In_nth _ _ 0 Hv) as (k & Hk & <-).
  rewrite index_at in E by assumption. injection E as <-. reflexivity.
Qed.

(** ** writing into the grid *)
Lemma gset_ok nx ny g i j d : table nx ny g -> (i < nx)%nat -> (j < ny)%nat ->
  exists g', gset g i j d = Ok g' /\ table nx ny g' /\
   (forall a b, cell g' a b = if ((a =? i) && (b =? j))%nat%bool then d else cell g a b) /\
   rsum (map rsum g') = rsum (map rsum g) - cell g i j + d.
Proof.
  intros (Hl & HF) Hi Hj. unfold gset. rewrite (vget_nth g i []) by lia. cbn [obind].
  assert (Hr : length (nth i g []) = ny).
  { apply (proj1 (Forall_forall _ _) HF). apply nth_In. lia. }
  assert (Hrow : forall (l : list R) k a, (k < length l)%nat ->
     exists l', vset l k a = Ok l' /\ length l' = length l /\ (forall n d, nth n l' d = if (n =? k)%nat then a else nth n l d)
       /\ rsum l' = rsum l - nth k l 0 + a).
  { induction l as [|b l IH]; intros k a H; [cbn in H; lia|]. destruct k as [|k]; cbn in *.
    - exists (a :: l). repeat split; [intros [|n]; reflexivity|rewrite !rsum_cons; ring].
    - destruct (IH k a ltac:(lia)) as (l' & E & L & N & S). rewrite E. cbn. exists (b :: l').
      repeat split; [cbn; lia|intros [|n] d0; cbn; [reflexivity|apply N]|cbn; rewrite !rsum_cons, S; ring]. }
  destruct (Hrow (nth i g []) j d ltac:(lia)) as (row' & -> & Lr & Nr & Sr). cbn [obind].
  clear Hrow.
  assert (HG : forall (g : list (list R)) i, (i < length g)%nat -> Forall (fun r => length r = ny) g ->
     exists g', vset g i row' = Ok g' /\ length g' = length g /\ Forall (fun r => length r = ny) g' /\
     (forall n, nth n g' [] = if (n =? i)%nat then row' else nth n g []) /\
     rsum (map rsum g') = rsum (map rsum g) - rsum (nth i g []) + rsum row').
  { induction g0 as [|b g0 IH]; intros i0 H F; [cbn in H; lia|]. inversion F as [|? ? Fb F']; subst.
    destruct i0 as [|i0]; cbn in *.
    - exists (row' :: g0). repeat split; [constructor; [lia|assumption]|intros [|n]; reflexivity|cbn; rewrite !rsum_cons; ring].
    - destruct (IH i0 ltac:(lia) F') as (g' & E & L & F2 & N & S). rewrite E. cbn. exists (b :: g').
      repeat split; [cbn; lia|constructor; assumption|intros [|n]; cbn; [reflexivity|apply N]|cbn; rewrite !rsum_cons, S; ring]. }
  destruct (HG g i ltac:(lia) HF) as (g' & E & L & F & N & S). rewrite E.
  exists g'. split; [reflexivity|]. split; [split; [lia|exact F]|]. split.
  - intros a b. unfold cell. rewrite N. destruct (Nat.eqb_spec a i) as [->|]; cbn [andb]; [|reflexivity].
    rewrite Nr. reflexivity.
  - rewrite S, Sr. unfold cell. ring.
Qed.

(** ** the loop over the entries *)
Definition at_cell (px py : list R) (e : R * R * R) (i j : nat) : Prop :=
  calc_insert_index px (fst (fst e)) = Ok i /\ calc_insert_index py (snd (fst e)) = Ok j.

Section Loop.
Context {tok : Type}.
Variable stoi : tok -> outcome Z.
Variable stof : tok -> outcome R.

Definition parses (l : list tok) (e : R * R * R) : Prop :=
  exists a b c, l = [a; b; c] /\ stof a = Ok (fst (fst e)) /\ stof b = Ok (snd (fst e)) /\ stof c = Ok (snd e).

Lemma read_depths_ok px py : forall lines g total mn r nx ny,
  nx = length px -> ny = length py -> table nx ny g ->
  read_depths stof px py lines g total mn = Ok r ->
  exists es g' mn', r = (g', total + rsum (depths es), mn') /\ Forall2 parses lines es /\
    table nx ny g' /\
    (forall i j, (exists e, In e es /\ at_cell px py e i j /\ cell g' i j = snd e) \/
                 (cell g' i j = cell g i j /\ forall e, In e es -> ~ at_cell px py e i j)) /\
    ((forall e i j, In e es -> at_cell px py e i j -> cell g i j = 0) ->
     (forall e e' i j l1 l2 l3, es = l1 ++ e :: l2 ++ e' :: l3 -> at_cell px py e i j -> ~ at_cell px py e' i j) ->
     rsum (map rsum g') = rsum (map rsum g) + rsum (depths es)) /\
    (match mn' with
     | None => mn = None /\ es = []
     | Some m => (mn = Some m \/ In m (depths es)) /\ Forall (fun d => d <= m) (depths es)
                 /\ (forall m0, mn = Some m0 -> m0 <= m)
     end).
Proof.
  induction lines as [|l lines IH]; intros g total mn r nx ny Hx Hy Ht H.
  - cbn in H. injection H as <-. exists [], g, mn. split; [change (depths []) with (@nil R); rewrite rsum_nil; f_equal; f_equal; ring|].
    split; [constructor|]. split; [exact Ht|]. split; [intros; right; split; [reflexivity|intros ? []]|].
    split; [intros; cbn; rewrite rsum_nil; ring|]. destruct mn; [|split; reflexivity].
    split; [left; reflexivity|]. split; [constructor|]. intros m0 E; injection E as ->. lra.
  - cbn [read_depths] in H. destruct l as [|a [|b [|c [|? ?]]]]; try discriminate.
    destruct (stof a) as [x| | |] eqn:Ea; try discriminate. cbn [obind] in H.
    destruct (stof b) as [y| | |] eqn:Eb; try discriminate. cbn [obind] in H.
    destruct (stof c) as [d| | |] eqn:Ec; try discriminate. cbn [obind] in H.
    destruct (calc_insert_index px x) as [i| | |] eqn:Ei; try discriminate. cbn [obind] in H.
    destruct (calc_insert_index py y) as [j| | |] eqn:Ej; try discriminate. cbn [obind] in H.
    pose proof (index_in_range _ _ _ Ei) as Hi. pose proof (index_in_range _ _ _ Ej) as Hj.
    destruct (gset_ok nx ny g i j d Ht ltac:(lia) ltac:(lia)) as (g1 & E1 & T1 & C1 & S1).
    rewrite E1 in H. cbn [obind] in H. cbv zeta in H.
    set (mn1 := match mn with None => Some d | Some m => if Rgt_dec d m then Some d else Some m end) in H.
    destruct (IH g1 (total + d) mn1 r nx ny Hx Hy T1 H) as (es & g' & mn' & -> & HF & T' & C' & S' & M').
    exists ((x, y, d) :: es), g', mn'.
    split; [rewrite depths_cons, rsum_cons; f_equal; f_equal; cbn [snd]; ring|].
    split; [constructor; [exists a, b, c; repeat split; assumption|exact HF]|].
    split; [exact T'|]. split; [|split].
    + intros p q. destruct (C' p q) as [(e & He & Hat & Hc)|(Hc & Hn)].
      * left. exists e. split; [right; exact He|]. split; assumption.
      * rewrite C1 in Hc. revert Hc.
        destruct (Nat.eqb_spec p i) as [Ep|Np]; [destruct (Nat.eqb_spec q j) as [Eq|Nq]|]; cbn [andb]; intros Hc;
          try (rewrite Ep in * ); try (rewrite Eq in * ).
        -- left. exists (x, y, d). split; [left; reflexivity|]. split; [split; assumption|exact Hc].
        -- right. split; [exact Hc|]. intros e [<-|He]; [|apply Hn; exact He].
           intros [_ H2]. cbn in H2. rewrite Ej in H2. injection H2 as <-. congruence.
        -- right. split; [exact Hc|]. intros e [<-|He]; [|apply Hn; exact He].
           intros [H1 _]. cbn in H1. rewrite Ei in H1. injection H1 as <-. congruence.
    + intros Hz Hd. rewrite S'.
      * rewrite S1. rewrite (Hz (x, y, d) i j) by (try (left; reflexivity); split; assumption). rewrite depths_cons, rsum_cons. cbn [snd]. ring.
      * intros e p q He Hat. rewrite C1.
        destruct (Nat.eqb_spec p i) as [Ep|Np]; [destruct (Nat.eqb_spec q j) as [Eq|Nq]|]; cbn [andb].
        -- exfalso. rewrite Ep, Eq in Hat. destruct (in_split _ _ He) as (l1 & l2 & ->).
           apply (Hd (x, y, d) e i j [] l1 l2 eq_refl); [split; assumption|exact Hat].
        -- apply (Hz e); [right; exact He|exact Hat].
        -- apply (Hz e); [right; exact He|exact Hat].
      * intros e e' p q l1 l2 l3 E. apply (Hd e e' p q ((x, y, d) :: l1) l2 l3). rewrite E. reflexivity.
    + assert (Hmn1 : exists m1, mn1 = Some m1 /\ d <= m1 /\ (m1 = d \/ mn = Some m1) /\ (forall m0, mn = Some m0 -> m0 <= m1)).
      { unfold mn1. destruct mn as [m|].
        - destruct (Rgt_dec d m).
          + exists d. split; [reflexivity|]. split; [lra|]. split; [left; reflexivity|]. intros m0 E0; injection E0 as <-. lra.
          + exists m. split; [reflexivity|]. split; [lra|]. split; [right; reflexivity|]. intros m0 E0; injection E0 as <-. lra.
        - exists d. split; [reflexivity|]. split; [lra|]. split; [left; reflexivity|]. discriminate. }
      destruct Hmn1 as (m1 & E1' & D1 & O1 & B1).
      destruct mn' as [m|]; [|destruct M' as [M' _]; congruence].
      destruct M' as (MA & MB & MC). specialize (MC m1 E1').
      split; [|split].
      * destruct MA as [MA|MA]; [|right; right; exact MA].
        rewrite E1' in MA. injection MA as <-. destruct O1 as [-> | -> ]; [right; left; reflexivity|left; reflexivity].
      * cbn. constructor; [lra|exact MB].
      * intros m0 E0. specialize (B1 m0 E0). lra.
Qed.

Lemma stofs_length l r : stofs stof l = Ok r -> length r = length l.
Proof.
  revert r. induction l as [|t l IH]; cbn; intros r H; [injection H as <-; reflexivity|].
  destruct (stof t); try discriminate. cbn in H. destruct (stofs stof l) eqn:E; try discriminate.
  cbn in H. injection H as <-. cbn. f_equal. apply IH. reflexivity.
Qed.

Lemma table_zero nx ny : table nx ny (repeat (repeat 0 ny) nx).
Proof.
  split; [apply repeat_length|]. apply Forall_forall. intros r H. apply repeat_spec in H. subst. apply repeat_length.
Qed.
Lemma cell_zero nx ny i j : cell (repeat (repeat 0 ny) nx) i j = 0.
Proof.
  unfold cell. destruct (nth_in_or_default i (repeat (repeat 0 ny) nx) []) as [H| -> ]; [|destruct j; reflexivity].
  apply repeat_spec in H. rewrite H. apply nth_repeat.
Qed.

(** what a successful setup computed *)
Lemma setup_ok lines sf : setup stoi stof lines = Ok sf ->
  exists l0 l1 l2 ls es, lines = l0 :: l1 :: l2 :: ls /\ ls <> [] /\
   stofs stof l1 = Ok (sf_px sf) /\ stofs stof l2 = Ok (sf_py sf) /\
   Forall2 parses ls es /\
   table (length (sf_px sf)) (length (sf_py sf)) (sf_grid sf) /\
   (forall i j, (exists e, In e es /\ at_cell (sf_px sf) (sf_py sf) e i j /\ cell (sf_grid sf) i j = snd e) \/
                (cell (sf_grid sf) i j = 0 /\ forall e, In e es -> ~ at_cell (sf_px sf) (sf_py sf) e i j)) /\
   ((forall e e' i j k1 k2 k3, es = k1 ++ e :: k2 ++ e' :: k3 -> at_cell (sf_px sf) (sf_py sf) e i j -> ~ at_cell (sf_px sf) (sf_py sf) e' i j) ->
     rsum (map rsum (sf_grid sf)) = rsum (depths es)) /\
   sf_avg sf = rsum (depths es) / IZR ((Z.of_nat (length (sf_px sf)) * Z.of_nat (length (sf_py sf))) mod 2 ^ 32) /\
   (exists m, sf_min sf = Some m /\ In m (depths es) /\ Forall (fun d => d <= m) (depths es)).
Proof.
  unfold setup. destruct lines as [|l0 [|l1 [|l2 ls]]]; try discriminate.
  destruct ls as [|l3 ls']; [discriminate|]. set (ls := l3 :: ls'). assert (Hls : ls <> []) by discriminate. clearbody ls.
  intros H.
  destruct (obind (vget l0 0) stoi) as [nx| | |]; try discriminate. cbn [obind] in H.
  destruct (obind (vget l0 1) stoi) as [ny| | |]; try discriminate. cbn [obind] in H. cbv zeta in H.
  destruct (Z.eqb_spec (Z.of_nat (length l1)) (nx mod 2 ^ 32)) as [En|]; [|discriminate]. cbn [negb] in H.
  destruct (stofs stof l1) as [px| | |] eqn:Ex; try discriminate. cbn [obind] in H.
  destruct (Z.eqb_spec (Z.of_nat (length l2)) (ny mod 2 ^ 32)) as [Em|]; [|discriminate]. cbn [negb] in H.
  destruct (stofs stof l2) as [py| | |] eqn:Ey; try discriminate. cbn [obind] in H.
  destruct (read_depths stof px py ls (repeat (repeat 0 (length py)) (length px)) 0 None) as [r| | |] eqn:Er; try discriminate.
  cbn [obind] in H.
  destruct (read_depths_ok px py ls _ 0 None r _ _ eq_refl eq_refl (table_zero _ _) Er)
    as (es & g & mn & -> & HF & T & C & S & M).
  injection H as <-. exists l0, l1, l2, ls, es. cbn [sf_px sf_py sf_grid sf_avg sf_min].
  split; [reflexivity|]. split; [assumption|]. split; [assumption|]. split; [assumption|]. split; [assumption|]. split; [assumption|].
  split; [|split; [|split]].
  - intros i j. destruct (C i j) as [A|(A & B)]; [left; exact A|right]. rewrite A, cell_zero. auto.
  - intros Hd. rewrite S; [|intros; apply cell_zero|exact Hd].
    assert (Hz : rsum (map rsum (repeat (repeat 0 (length py)) (length px))) = 0).
    { generalize (length px) as n. induction n as [|n IH]; [reflexivity|]. cbn. rewrite rsum_cons, IH.
      generalize (length py) as m. induction m as [|m IHm]; [cbn; rewrite rsum_nil; ring|]. cbn. rewrite rsum_cons. lra. }
    lra.
  - rewrite Rplus_0_l. do 2 f_equal. apply stofs_length in Ex. apply stofs_length in Ey.
    rewrite Ex, Ey, En, Em. reflexivity.
  - destruct mn as [m|].
    + destruct M as (MA & MB & _). exists m. destruct MA as [MA|MA]; [discriminate|]. auto.
    + destruct M as (_ & ->). inversion HF. subst. congruence.
Qed.
End Loop.

(** ** getDepthAt *)
Lemma map_nth_col (g : list (list R)) i j : (i < length g)%nat ->
  nth i (map (fun r => nth j r 0) g) 0 = cell g i j.
Proof. intros H. unfold cell. rewrite (nth_indep _ 0 (nth j [] 0)) by (rewrite map_length; lia).
  rewrite (map_nth (fun r => nth j r 0)). reflexivity. Qed.

Lemma vget2_cell nx ny g i j : table nx ny g -> (i < nx)%nat -> (j < ny)%nat -> vget2 g i j = Ok (cell g i j).
Proof.
  intros (L & F) Hi Hj. unfold vget2. rewrite (vget_nth g i []) by lia. cbn [obind].
  apply vget_nth. rewrite (proj1 (Forall_forall _ _) F (nth i g [])); [lia|]. apply nth_In. lia.
Qed.

(** index and factor of any axis with at least one tick *)
Lemma axis_factor xp x : increasing xp -> (1 <= length xp)%nat ->
  exists i f, interp_factor xp 1 x = Ok (i, f) /\ (i < length xp)%nat /\ 0 <= f <= 1 /\
   forall yp, length yp = length xp -> lin_interp xp yp x (mix f (nth (low i) yp 0) (nth i yp 0)).
Proof.
  intros Hi Hn. destruct (Nat.eq_dec (length xp) 1) as [E|E].
  - exists 0%nat, 0. unfold interp_factor. rewrite E. cbn [Nat.eqb]. split; [reflexivity|]. split; [lia|]. split; [lra|].
    intros yp Hl. unfold mix, low. split; [|split].
    + intros _. cbn. ring.
    + intros _. rewrite E. cbn. ring.
    + intros k Hk. lia.
  - destruct (interp_factor_segment xp x Hi) as (j & f & Ej & Hj & Hf & Hin & Hlo & Hhi); [lia|].
    exists j, f. split; [exact Ej|]. split; [lia|]. split; [exact Hf|].
    intros yp Hl. replace (mix f (nth (low j) yp 0) (nth j yp 0))
      with (nth (j - 1) yp 0 + f * (nth j yp 0 - nth (j - 1) yp 0)) by (unfold mix, low; ring).
    apply lin_interp_intro; [assumption|lia|assumption|].
    destruct (Rle_dec x (nth 0 xp 0)) as [H|H]; [left; split; [exact H|apply Hlo; exact H]|].
    destruct (Rle_dec (nth (length xp - 1) xp 0) x) as [H'|H']; [right; left; split; [exact H'|apply Hhi; exact H']|].
    right; right. apply Hin. lra.
Qed.

Lemma depth_bilinear sf x y : increasing (sf_px sf) -> increasing (sf_py sf) ->
  sf_px sf <> [] -> sf_py sf <> [] ->
  table (length (sf_px sf)) (length (sf_py sf)) (sf_grid sf) ->
  exists d, get_depth_at sf x y = Ok d /\ bilinear (sf_px sf) (sf_py sf) (sf_grid sf) x y d.
Proof.
  intros Hx Hy Nx Ny T. destruct sf as [px py g av mn]; cbn [sf_px sf_py sf_grid] in *.
  assert (Lx : (1 <= length px)%nat) by (destruct px; [congruence|cbn; lia]).
  assert (Ly : (1 <= length py)%nat) by (destruct py; [congruence|cbn; lia]).
  destruct (axis_factor px x Hx Lx) as (i & fx & Ei & Hi & Hfx & Sx).
  destruct (axis_factor py y Hy Ly) as (j & fy & Ej & Hj & Hfy & Sy).
  unfold get_depth_at. cbn [sf_px sf_py sf_grid]. rewrite Ei, Ej. cbn [obind fst snd]. unfold interp2.
  assert (Hi0 : (low i < length px)%nat) by (unfold low; lia).
  assert (Hj0 : (low j < length py)%nat) by (unfold low; lia).
  rewrite !(vget2_cell _ _ _ _ _ T) by assumption. cbn [omix obind].
  eexists. split; [reflexivity|].
  exists (map (fun k => mix fx (cell g (low i) k) (cell g i k)) (seq 0 (length py))).
  assert (Hcol : forall k, (k < length py)%nat ->
     nth k (map (fun k => mix fx (cell g (low i) k) (cell g i k)) (seq 0 (length py))) 0
     = mix fx (cell g (low i) k) (cell g i k)).
  { intros k Hk. rewrite (nth_indep _ 0 (mix fx (cell g (low i) 0) (cell g i 0))) by (rewrite map_length, seq_length; lia).
    rewrite (map_nth (fun k => mix fx (cell g (low i) k) (cell g i k))). rewrite seq_nth by lia. reflexivity. }
  split; [rewrite map_length, seq_length; reflexivity|]. split.
  - intros k Hk. rewrite Hcol by exact Hk.
    rewrite <- !(map_nth_col g _ k) by (destruct T as [-> _]; lia).
    apply Sx. rewrite map_length. apply T.
  - rewrite <- (Hcol (low j)), <- (Hcol j) by assumption. apply Sy. rewrite map_length, seq_length. reflexivity.
Qed.

Lemma depth_bounds sf x y lo hi : increasing (sf_px sf) -> increasing (sf_py sf) ->
  sf_px sf <> [] -> sf_py sf <> [] ->
  table (length (sf_px sf)) (length (sf_py sf)) (sf_grid sf) ->
  (forall i j, (i < length (sf_px sf))%nat -> (j < length (sf_py sf))%nat -> lo <= cell (sf_grid sf) i j <= hi) ->
  exists d, get_depth_at sf x y = Ok d /\ lo <= d <= hi.
Proof.
  intros Hx Hy Nx Ny T HB. destruct sf as [px py g av mn]; cbn [sf_px sf_py sf_grid] in *.
  assert (Lx : (1 <= length px)%nat) by (destruct px; [congruence|cbn; lia]).
  assert (Ly : (1 <= length py)%nat) by (destruct py; [congruence|cbn; lia]).
  destruct (axis_factor px x Hx Lx) as (i & fx & Ei & Hi & Hfx & Sx).
  destruct (axis_factor py y Hy Ly) as (j & fy & Ej & Hj & Hfy & Sy).
  unfold get_depth_at. cbn [sf_px sf_py sf_grid]. rewrite Ei, Ej. cbn [obind fst snd]. unfold interp2.
  assert (Hi0 : (low i < length px)%nat) by (unfold low; lia).
  assert (Hj0 : (low j < length py)%nat) by (unfold low; lia).
  rewrite !(vget2_cell _ _ _ _ _ T) by assumption. cbn [omix obind].
  eexists. split; [reflexivity|]. repeat apply mix_bounds; auto.
Qed.

Lemma lin_node xp yp k y : increasing xp -> (k < length xp)%nat -> lin_interp xp yp (nth k xp 0) y -> y = nth k yp 0.
Proof.
  intros Hi Hk (H1 & H2 & H3). destruct k as [|k]; [apply H1; lra|].
  assert (nth k xp 0 < nth (S k) xp 0) by (apply Hi; lia).
  specialize (H3 k Hk ltac:(lra)). apply (Rmult_eq_reg_r (nth (S k) xp 0 - nth k xp 0)); lra.
Qed.

Lemma depth_at_node sf i j : increasing (sf_px sf) -> increasing (sf_py sf) ->
  table (length (sf_px sf)) (length (sf_py sf)) (sf_grid sf) ->
  (i < length (sf_px sf))%nat -> (j < length (sf_py sf))%nat ->
  get_depth_at sf (nth i (sf_px sf) 0) (nth j (sf_py sf) 0) = Ok (cell (sf_grid sf) i j).
Proof.
  intros Hx Hy T Hi Hj.
  destruct (depth_bilinear sf (nth i (sf_px sf) 0) (nth j (sf_py sf) 0) Hx Hy) as (d & -> & col & L & Hc & Hd); try assumption.
  { intros E; rewrite E in Hi; cbn in Hi; lia. } { intros E; rewrite E in Hj; cbn in Hj; lia. }
  f_equal. apply lin_node in Hd; [|assumption|lia]. rewrite Hd.
  specialize (Hc j Hj). apply lin_node in Hc; [|assumption|lia]. rewrite Hc.
  apply map_nth_col. destruct T as [-> _]; lia.
Qed.

(** beyond the ends *)
Lemma factor_left xp x : (1 <= length xp)%nat -> x <= nth 0 xp 0 -> interp_factor xp 1 x = interp_factor xp 1 (nth 0 xp 0).
Proof.
  intros Hn Hx. unfold interp_factor.
  destruct (Nat.eqb_spec (length xp) 1); [reflexivity|]. destruct (Nat.eqb_spec (length xp) 0); [lia|].
  cbn [Nat.eqb]. destruct (Nat.ltb_spec (length xp - 1) 1); [lia|]. cbn [Nat.sub].
  rewrite (vget_nth xp 0 0) by lia. cbn [obind].
  destruct (Rle_dec x (nth 0 xp 0)); [|lra]. destruct (Rle_dec (nth 0 xp 0) (nth 0 xp 0)); [reflexivity|lra].
Qed.
Lemma factor_right xp x : increasing xp -> (1 <= length xp)%nat -> nth (length xp - 1) xp 0 <= x ->
  interp_factor xp 1 x = interp_factor xp 1 (nth (length xp - 1) xp 0).
Proof.
  intros Hi Hn Hx. destruct (Nat.eq_dec (length xp) 1) as [E|E].
  - unfold interp_factor. rewrite E. reflexivity.
  - destruct (interp_factor_segment xp x Hi ltac:(lia)) as (j & f & -> & _ & _ & _ & _ & H).
    destruct (interp_factor_segment xp (nth (length xp - 1) xp 0) Hi ltac:(lia)) as (j' & f' & -> & _ & _ & _ & _ & H').
    destruct (H Hx) as [-> ->]. destruct (H' ltac:(lra)) as [-> ->]. reflexivity.
Qed.

Lemma depth_clamped sf x y : increasing (sf_px sf) -> increasing (sf_py sf) ->
  sf_px sf <> [] -> sf_py sf <> [] ->
  (x <= nth 0 (sf_px sf) 0 -> get_depth_at sf x y = get_depth_at sf (nth 0 (sf_px sf) 0) y) /\
  (nth (length (sf_px sf) - 1) (sf_px sf) 0 <= x -> get_depth_at sf x y = get_depth_at sf (nth (length (sf_px sf) - 1) (sf_px sf) 0) y) /\
  (y <= nth 0 (sf_py sf) 0 -> get_depth_at sf x y = get_depth_at sf x (nth 0 (sf_py sf) 0)) /\
  (nth (length (sf_py sf) - 1) (sf_py sf) 0 <= y -> get_depth_at sf x y = get_depth_at sf x (nth (length (sf_py sf) - 1) (sf_py sf) 0)).
Proof.
  intros Hx Hy Nx Ny. unfold get_depth_at.
  assert (Lx : (1 <= length (sf_px sf))%nat) by (destruct (sf_px sf); [congruence|cbn; lia]).
  assert (Ly : (1 <= length (sf_py sf))%nat) by (destruct (sf_py sf); [congruence|cbn; lia]).
  repeat split; intros H.
  - rewrite (factor_left (sf_px sf) x) by assumption. reflexivity.
  - rewrite (factor_right (sf_px sf) x) by assumption. reflexivity.
  - rewrite (factor_left (sf_py sf) y) by assumption. reflexivity.
  - rewrite (factor_right (sf_py sf) y) by assumption. reflexivity.
Qed.

(** ** from file to depth *)
Section File.
Context {tok : Type}.
Variable stoi : tok -> outcome Z.
Variable stof : tok -> outcome R.

(** the depth entries of a file *)
Definition entries_are (lines : list (list tok)) (es : list (R * R * R)) : Prop :=
  Forall2 (parses stof) (skipn 3 lines) es.

Lemma parses_inj l e e' : parses stof l e -> parses stof l e' -> e = e'.
Proof.
  intros (a & b & c & -> & Ha & Hb & Hc) (a' & b' & c' & E & Ha' & Hb' & Hc').
  injection E as <- <- <-. destruct e as [[x y] d], e' as [[x' y'] d']; cbn in *. congruence.
Qed.
Lemma entries_inj ls es es' : Forall2 (parses stof) ls es -> Forall2 (parses stof) ls es' -> es = es'.
Proof.
  intros H. revert es'. induction H; intros es' H'; inversion H'; subst; [reflexivity|].
  f_equal; [eapply parses_inj; eassumption|apply IHForall2; assumption].
Qed.

Lemma setup_entries lines sf : setup stoi stof lines = Ok sf ->
  exists es, entries_are lines es /\ sf_px sf <> [] /\ sf_py sf <> [] /\ es <> [].
Proof.
  intros H. destruct (setup_ok stoi stof lines sf H) as (l0 & l1 & l2 & ls & es & -> & Hne & _ & _ & HF & T & _ & _ & _ & m & _ & Hm & _).
  exists es. split; [exact HF|].
  (* a first entry was placed, so the axes are not empty *)
  assert (es <> []) by (destruct es; [destruct Hm|discriminate]).
  assert (Hs := H). unfold setup in H. destruct ls as [|l3 ls']; [congruence|].
  destruct (obind (vget l0 0) stoi) as [nx| | |]; try discriminate. cbn [obind] in H.
  destruct (obind (vget l0 1) stoi) as [ny| | |]; try discriminate. cbn [obind] in H. cbv zeta in H.
  destruct (_ =? _)%Z in H; [|discriminate]. cbn [negb] in H.
  destruct (stofs stof l1) as [px| | |]; try discriminate. cbn [obind] in H.
  destruct (_ =? _)%Z in H; [|discriminate]. cbn [negb] in H.
  destruct (stofs stof l2) as [py| | |]; try discriminate. cbn [obind] in H.
  destruct (read_depths stof px py (l3 :: ls') (repeat (repeat 0 (length py)) (length px)) 0 None) as [[[g t] m0]| | |] eqn:Er; try discriminate.
  cbn [obind] in H. injection H as <-. cbn.
  cbn [read_depths] in Er. destruct l3 as [|a [|b [|c [|? ?]]]]; try discriminate.
  destruct (stof a) as [x| | |]; try discriminate. destruct (stof b) as [y| | |]; try discriminate.
  destruct (stof c) as [d| | |]; try discriminate. cbn [obind] in Er.
  destruct px; [discriminate|]. destruct py; [discriminate|]. repeat split; try discriminate. assumption.
Qed.

Lemma file_bounds lines sf es lo hi x y : setup stoi stof lines = Ok sf -> entries_are lines es ->
  increasing (sf_px sf) -> increasing (sf_py sf) -> complete (sf_px sf) (sf_py sf) es ->
  Forall (within lo hi) (depths es) ->
  exists d, get_depth_at sf x y = Ok d /\ lo <= d <= hi.
Proof.
  intros H He Hx Hy Hc HB. destruct (setup_entries lines sf H) as (es1 & He1 & Nx & Ny & _).
  destruct (setup_ok stoi stof lines sf H) as (l0 & l1 & l2 & ls & es' & -> & Hne & _ & _ & HF & T & C & _).
  assert (es' = es) by (eapply entries_inj; eassumption). subst es'.
  apply depth_bounds; try assumption. intros i j Hi Hj.
  destruct (C i j) as [(e & Hin & _ & ->)|(_ & Hn)].
  - apply (proj1 (Forall_forall _ _) HB). unfold depths. apply in_map. exact Hin.
  - exfalso. destruct (Hc (nth i (sf_px sf) 0) (nth j (sf_py sf) 0)) as (d & Hd); [apply nth_In; assumption|apply nth_In; assumption|].
    apply (Hn _ Hd). split; cbn; apply index_at; assumption.
Qed.

Lemma file_node lines sf es xe ye d : setup stoi stof lines = Ok sf -> entries_are lines es ->
  increasing (sf_px sf) -> increasing (sf_py sf) ->
  Forall (on_grid (sf_px sf) (sf_py sf)) es -> consistent es ->
  In (xe, ye, d) es -> get_depth_at sf xe ye = Ok d.
Proof.
  intros H He Hx Hy Hg Hc Hin. destruct (setup_entries lines sf H) as (es1 & He1 & Nx & Ny & _).
  destruct (setup_ok stoi stof lines sf H) as (l0 & l1 & l2 & ls & es' & -> & Hne & _ & _ & HF & T & C & _).
  assert (es' = es) by (eapply entries_inj; eassumption). subst es'.
  rewrite Forall_forall in Hg. destruct (Hg _ Hin) as [Gx Gy]. cbn in Gx, Gy.
  destruct (In_nth _ _ 0 Gx) as (i & Hi & Ei). destruct (In_nth _ _ 0 Gy) as (j & Hj & Ej).
  rewrite <- Ei, <- Ej, depth_at_node by assumption. f_equal.
  destruct (C i j) as [([[x' y'] d'] & Hin' & (A1 & A2) & ->)|(_ & Hn)].
  - cbn in *. destruct (Hg _ Hin') as [Gx' Gy']; cbn in Gx', Gy'.
    apply index_of_tick in A1; [|assumption|assumption]. apply index_of_tick in A2; [|assumption|assumption].
    apply (Hc xe ye); [|exact Hin]. rewrite <- Ei, <- Ej, <- A1, <- A2. exact Hin'.
  - exfalso. apply (Hn _ Hin). split; cbn; rewrite <- ?Ei, <- ?Ej; apply index_at; assumption.
Qed.

Lemma file_bilinear lines sf x y : setup stoi stof lines = Ok sf ->
  increasing (sf_px sf) -> increasing (sf_py sf) ->
  exists d, get_depth_at sf x y = Ok d /\ bilinear (sf_px sf) (sf_py sf) (sf_grid sf) x y d.
Proof.
  intros H Hx Hy. destruct (setup_entries lines sf H) as (es1 & He1 & Nx & Ny & _).
  destruct (setup_ok stoi stof lines sf H) as (l0 & l1 & l2 & ls & es' & -> & Hne & _ & _ & HF & T & C & _).
  apply depth_bilinear; assumption.
Qed.

Lemma file_clamped lines sf x y : setup stoi stof lines = Ok sf ->
  increasing (sf_px sf) -> increasing (sf_py sf) ->
  (x <= nth 0 (sf_px sf) 0 -> get_depth_at sf x y = get_depth_at sf (nth 0 (sf_px sf) 0) y) /\
  (nth (length (sf_px sf) - 1) (sf_px sf) 0 <= x -> get_depth_at sf x y = get_depth_at sf (nth (length (sf_px sf) - 1) (sf_px sf) 0) y) /\
  (y <= nth 0 (sf_py sf) 0 -> get_depth_at sf x y = get_depth_at sf x (nth 0 (sf_py sf) 0)) /\
  (nth (length (sf_py sf) - 1) (sf_py sf) 0 <= y -> get_depth_at sf x y = get_depth_at sf x (nth (length (sf_py sf) - 1) (sf_py sf) 0)).
Proof.
  intros H Hx Hy. destruct (setup_entries lines sf H) as (es1 & He1 & Nx & Ny & _). apply depth_clamped; assumption.
Qed.

Lemma file_min lines sf es : setup stoi stof lines = Ok sf -> entries_are lines es ->
  exists m, sf_min sf = Some m /\ In m (depths es) /\ Forall (fun d => d <= m) (depths es).
Proof.
  intros H He.
  destruct (setup_ok stoi stof lines sf H) as (l0 & l1 & l2 & ls & es' & -> & Hne & _ & _ & HF & T & C & _ & _ & M).
  assert (es' = es) by (eapply entries_inj; eassumption). subst es'. exact M.
Qed.

(** distinct grid points *)
Lemma file_mean lines sf es : setup stoi stof lines = Ok sf -> entries_are lines es ->
  increasing (sf_px sf) -> increasing (sf_py sf) ->
  (Z.of_nat (length (sf_px sf)) * Z.of_nat (length (sf_py sf)) < 2 ^ 32)%Z ->
  Forall (on_grid (sf_px sf) (sf_py sf)) es -> NoDup (map fst es) ->
  sf_avg sf = rsum (map rsum (sf_grid sf)) / (INR (length (sf_px sf)) * INR (length (sf_py sf))).
Proof.
  intros H He Hx Hy Hb Hg Hd. destruct (setup_entries lines sf H) as (es1 & He1 & Nx & Ny & _).
  destruct (setup_ok stoi stof lines sf H) as (l0 & l1 & l2 & ls & es' & -> & Hne & _ & _ & HF & T & C & S & A & _).
  assert (es' = es) by (eapply entries_inj; eassumption). subst es'.
  rewrite A, S.
  - rewrite Z.mod_small by lia. rewrite mult_IZR, <- !INR_IZR_INZ. reflexivity.
  - intros e e' i j k1 k2 k3 E (A1 & A2) (B1 & B2).
    rewrite Forall_forall in Hg.
    destruct (Hg e) as [G1 G2]; [rewrite E; apply in_or_app; right; left; reflexivity|].
    destruct (Hg e') as [G1' G2']; [rewrite E; apply in_or_app; right; right; apply in_or_app; right; left; reflexivity|].
    apply index_of_tick in A1; try assumption. apply index_of_tick in A2; try assumption.
    apply index_of_tick in B1; try assumption. apply index_of_tick in B2; try assumption.
    assert (Ef : fst e = fst e'). { destruct e as [[? ?] ?], e' as [[? ?] ?]; cbn in *. congruence. }
    rewrite E in Hd. rewrite map_app in Hd. cbn [map] in Hd. rewrite map_app in Hd. cbn [map] in Hd.
    apply NoDup_remove_2 in Hd. apply Hd. rewrite Ef. apply in_or_app. right. apply in_or_app. right. left. reflexivity.
Qed.
End File.

(** ** witnesses: entries given as integers *)
Definition ztoi (z : Z) : outcome Z := Ok z.
Definition ztof (z : Z) : outcome R := Ok (IZR z).

Definition flat_file : list (list Z) := [[2; 1]; [0; 10]; [0]; [0; 0; -5]; [10; 0; -7]]%Z.

Lemma flat_file_ok : setup ztoi ztof flat_file =
  Ok (mkSeafloor [0; 10] [0] [[-5]; [-7]] ((0 + -5 + -7) / IZR 2) (Some (-5))).
Proof.
  unfold flat_file, setup. cbn [vget nth_error obind ztoi length].
  unfold ztof at 1 2. cbn -[Rgt_dec IZR].
  repeat (destruct (Rgt_dec _ _); try lra; cbn -[Rgt_dec IZR]); try lra.
  f_equal.
Qed.

Lemma incr_pair a b : a < b -> increasing [a; b].
Proof. intros H i j Hij. cbn in Hij. destruct i as [|[|i]], j as [|[|j]]; cbn; try lia; lra. Qed.
Lemma incr_one a : increasing [a].
Proof. intros i j Hij. cbn in Hij. lia. Qed.

Lemma incomplete_out_of_bounds : exists (lines : list (list Z)) sf es d,
  setup ztoi ztof lines = Ok sf /\ entries_are ztof lines es /\
  increasing (sf_px sf) /\ increasing (sf_py sf) /\
  Forall (within (-7) (-5)) (depths es) /\ get_depth_at sf 20 0 = Ok d /\ ~ within (-7) (-5) d.
Proof.
  exists [[2; 1]; [0; 10]; [0]; [0; 0; -5]]%Z.
  exists (mkSeafloor [0; 10] [0] [[-5]; [0]] ((0 + -5) / IZR 2) (Some (-5))).
  exists [(0, 0, -5)], 0. split; [|split; [|split; [|split; [|split; [|split]]]]].
  - unfold setup. cbn [vget nth_error obind ztoi length].
    unfold ztof at 1 2. cbn -[Rgt_dec IZR].
    repeat (destruct (Rgt_dec _ _); try lra; cbn -[Rgt_dec IZR]); try lra. f_equal.
  - repeat constructor. exists 0%Z, 0%Z, (-5)%Z. repeat split.
  - apply incr_pair; lra.
  - apply incr_one.
  - cbn. constructor; [unfold within; lra|constructor].
  - rewrite (proj1 (proj2 (depth_clamped (mkSeafloor [0; 10] [0] [[-5]; [0]] ((0 + -5) / IZR 2) (Some (-5))) 20 0
      (incr_pair 0 10 ltac:(lra)) (incr_one 0) ltac:(discriminate) ltac:(discriminate)))); [|cbn; lra].
    apply (depth_at_node (mkSeafloor [0; 10] [0] [[-5]; [0]] ((0 + -5) / IZR 2) (Some (-5))) 1 0);
      cbn; try lia; [apply incr_pair; lra|apply incr_one|].
    repeat constructor.
  - intros H. unfold within in H. lra.
Qed.

Lemma average_not_mean : exists (lines : list (list Z)) sf,
  setup ztoi ztof lines = Ok sf /\ increasing (sf_px sf) /\ increasing (sf_py sf) /\
  sf_grid sf = [[-10]] /\ sf_avg sf = -20.
Proof.
  exists [[1; 1]; [0]; [0]; [0; 0; -10]; [0; 0; -10]]%Z.
  exists (mkSeafloor [0] [0] [[-10]] ((0 + -10 + -10) / IZR 1) (Some (-10))).
  split; [|split; [apply incr_one|split; [apply incr_one|split; [reflexivity|cbn; lra]]]].
  unfold setup. cbn [vget nth_error obind ztoi length].
  unfold ztof at 1 2. cbn -[Rgt_dec IZR].
  repeat (destruct (Rgt_dec _ _); try lra; cbn -[Rgt_dec IZR]); try lra. f_equal.
Qed.
