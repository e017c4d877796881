(** Currents described in files: proofs. *)
From Coq Require Import Reals ZArith List Arith Lra Lia.
From Verif Require Import MErr MVec MStateOps MInterp MSeafloor MWaves MSpec MCur SInterp PInterp SWaves SWavesG SSpecB SCur PWaves PWavesB PSpecB PFill.
Import ListNotations.
Open Scope R_scope.

Lemma oeach_ok {A B} (f : A -> outcome B) l bs : Forall2 (fun a b => f a = Ok b) l bs -> oeach f l = Ok bs.
Proof. induction 1 as [|a b l bs H _ IH]; [reflexivity|]. cbn [oeach]. rewrite H. cbn [obind]. rewrite IH. reflexivity. Qed.
Lemma oeach_map {A B} (f : A -> outcome B) (g : A -> B) l : (forall a, In a l -> f a = Ok (g a)) -> oeach f l = Ok (map g l).
Proof.
  intros H. apply oeach_ok. induction l as [|a l IH]; [constructor|]. cbn [map]. constructor; [apply H; left; reflexivity|].
  apply IH. intros b Hb. apply H. right. exact Hb.
Qed.
Lemma oeach_seq {B} (f : nat -> outcome B) (P : nat -> B -> Prop) (d : B) n : (forall i, (i < n)%nat -> exists b, f i = Ok b /\ P i b) ->
  exists l, oeach f (seq 0 n) = Ok l /\ length l = n /\ forall i, (i < n)%nat -> P i (nth i l d).
Proof.
  intros H. cut (forall s m, (s + m <= n)%nat -> exists l, oeach f (seq s m) = Ok l /\ length l = m /\ forall i, (i < m)%nat -> P (s + i)%nat (nth i l d)).
  { intros C. destruct (C 0%nat n) as (l & E & L & Q); [lia|]. exists l. split; [exact E|]. split; [exact L|]. intros i Hi. exact (Q i Hi). }
  intros s m. revert s. induction m as [|m IH]; intros s Hs.
  - exists []. split; [reflexivity|]. split; [reflexivity|]. intros i Hi. lia.
  - cbn [seq oeach]. destruct (H s) as (b & Eb & Pb); [lia|]. rewrite Eb. cbn [obind]. destruct (IH (S s)) as (l & E & L & Q); [lia|].
    rewrite E. cbn [obind]. exists (b :: l). split; [reflexivity|]. split; [cbn; lia|]. intros [|i] Hi; cbn [nth].
    + rewrite Nat.add_0_r. exact Pb.
    + replace (s + S i)%nat with (S s + i)%nat by lia. apply Q. lia.
Qed.

(* ------------------------------ places and linear interpolation ------------------------------ *)
Lemma clamp_cases xp x : increasing xp -> (1 <= length xp)%nat ->
  (x <= nth 0 xp 0 /\ clamp xp x = nth 0 xp 0) \/ (nth (length xp - 1) xp 0 <= x /\ clamp xp x = nth (length xp - 1) xp 0) \/
  (nth 0 xp 0 < x < nth (length xp - 1) xp 0 /\ clamp xp x = x).
Proof.
  intros Hi Hn. assert (E : nth 0 xp 0 <= nth (length xp - 1) xp 0) by (apply incr_le; [assumption|lia]). unfold clamp, Rmax, Rmin.
  destruct (Rle_lt_dec x (nth 0 xp 0)) as [L|L]; [left|right; destruct (Rle_lt_dec (nth (length xp - 1) xp 0) x) as [U|U]; [left|right]].
  - split; [exact L|]. destruct (Rle_dec (nth (length xp - 1) xp 0) x), (Rle_dec (nth 0 xp 0) (nth (length xp - 1) xp 0)), (Rle_dec (nth 0 xp 0) x); lra.
  - split; [exact U|]. destruct (Rle_dec (nth (length xp - 1) xp 0) x), (Rle_dec (nth 0 xp 0) (nth (length xp - 1) xp 0)); lra.
  - split; [lra|]. destruct (Rle_dec (nth (length xp - 1) xp 0) x), (Rle_dec (nth 0 xp 0) x); lra.
Qed.
Lemma step_lin xp yp x j f : increasing xp -> (1 <= j < length xp)%nat -> 0 <= f <= 1 ->
  nth (j - 1) xp 0 + f * (nth j xp 0 - nth (j - 1) xp 0) = clamp xp x ->
  lin_interp xp yp x (nth (j - 1) yp 0 + f * (nth j yp 0 - nth (j - 1) yp 0)).
Proof.
  intros Hi Hj Hf E. assert (D : nth (j - 1) xp 0 < nth j xp 0) by (apply Hi; lia).
  destruct (clamp_cases xp x Hi ltac:(lia)) as [(L & C)|[(U & C)|(I & C)]].
  - destruct (Nat.eq_dec j 1) as [->|J].
    + apply lin_interp_intro; try assumption. left. split; [exact L|]. split; [reflexivity|]. cbn [Nat.sub] in *. rewrite C in E.
      assert (f * (nth 1 xp 0 - nth 0 xp 0) = 0) as Z by lra. apply Rmult_integral in Z. lra.
    + exfalso. assert (nth 0 xp 0 < nth (j - 1) xp 0) by (apply Hi; lia). rewrite C in E. assert (0 <= f * (nth j xp 0 - nth (j - 1) xp 0)) by (apply Rmult_le_pos; lra). lra.
  - destruct (Nat.eq_dec j (length xp - 1)) as [J|J].
    + apply lin_interp_intro; try assumption. right; left. split; [exact U|]. split; [exact J|]. rewrite C in E. rewrite <- J in E.
      assert ((1 - f) * (nth j xp 0 - nth (j - 1) xp 0) = 0) as Z by lra. apply Rmult_integral in Z. lra.
    + exfalso. assert (nth j xp 0 < nth (length xp - 1) xp 0) by (apply Hi; lia). rewrite C in E.
      assert (0 <= (1 - f) * (nth j xp 0 - nth (j - 1) xp 0)) by (apply Rmult_le_pos; lra). lra.
  - apply lin_interp_intro; try assumption. right; right. lra.
Qed.
Lemma place_lin xp yp x P : increasing xp -> on_axis xp x P -> lin_interp xp yp x (linear1 (fun i => nth i yp 0) P).
Proof.
  destruct P as [[a b] f]. cbn [on_axis linear1]. intros Hi (Ha & Hb & [Eb|Eb] & Hf & E); subst b; unfold between.
  - replace (nth a yp 0 + f * (nth a yp 0 - nth a yp 0)) with (nth a yp 0) by ring. rewrite Rminus_diag_eq in E by reflexivity.
    destruct (Nat.eq_dec (length xp) 1) as [N|N].
    + assert (a = 0)%nat as -> by lia. unfold lin_interp. rewrite N. cbn [Nat.sub]. repeat split; try reflexivity. intros k Hk. lia.
    + destruct a as [|a].
      * replace (nth 0 yp 0) with (nth (1 - 1) yp 0 + 0 * (nth 1 yp 0 - nth (1 - 1) yp 0)) by (cbn [Nat.sub]; ring).
        apply step_lin; [assumption|lia|lra|]. cbn [Nat.sub]. lra.
      * replace (nth (S a) yp 0) with (nth (S a - 1) yp 0 + 1 * (nth (S a) yp 0 - nth (S a - 1) yp 0)) by ring.
        apply step_lin; [assumption|lia|lra|]. lra.
  - replace a with (S a - 1)%nat at 1 3 by lia. apply step_lin; [assumption|lia|assumption|]. replace (S a - 1)%nat with a by lia. exact E.
Qed.
Lemma comp_nth (c : v3 -> R) vs i : c vzero = 0 -> nth i (map c vs) 0 = c (nth i vs vzero).
Proof. intros H. rewrite <- H. apply map_nth. Qed.
Definition vplace (g : nat -> v3) (P : place) : v3 := V3 (linear1 (fun i => vx (g i)) P) (linear1 (fun i => vy (g i)) P) (linear1 (fun i => vz (g i)) P).
Lemma vplace_ext g g' P : (let '(a, b, _) := P in g a = g' a /\ g b = g' b) -> vplace g P = vplace g' P.
Proof. destruct P as [[a b] f]. intros [H1 H2]. unfold vplace, linear1, between. rewrite H1, H2. reflexivity. Qed.
Lemma vplace_interp xp vs x P : increasing xp -> on_axis xp x P -> vinterp xp vs x (vplace (fun i => nth i vs vzero) P).
Proof.
  intros Hi Hp. unfold vinterp, vplace. cbn [vx vy vz].
  split; [|split].
  - pose proof (place_lin xp (map vx vs) x P Hi Hp) as H. destruct P as [[a b] f]. cbn [linear1] in *. rewrite !(comp_nth vx) in H by reflexivity. exact H.
  - pose proof (place_lin xp (map vy vs) x P Hi Hp) as H. destruct P as [[a b] f]. cbn [linear1] in *. rewrite !(comp_nth vy) in H by reflexivity. exact H.
  - pose proof (place_lin xp (map vz vs) x P Hi Hp) as H. destruct P as [[a b] f]. cbn [linear1] in *. rewrite !(comp_nth vz) in H by reflexivity. exact H.
Qed.
Lemma single p x P : on_axis [p] x P -> exists f, P = (0%nat, 0%nat, f).
Proof. destruct P as [[a b] f]. cbn. intros (Ha & Hb & _). assert (a = 0%nat) as -> by lia. assert (b = 0%nat) as -> by lia. exists f. reflexivity. Qed.
Lemma same1 g f : linear1 g (0%nat, 0%nat, f) = g 0%nat.
Proof. unfold linear1, between. ring. Qed.
(** a column of water read from a grid with one node in the plane *)
Lemma column_read tab p q x y X Y Z T : on_axis [p] x X -> on_axis [q] y Y ->
  vlinear4 [[tab]] X Y Z T = vplace (fun k => vplace (fun t => nth t (nth k tab []) vzero) T) Z.
Proof.
  intros HX HY. destruct (single _ _ _ HX) as [fx ->]. destruct (single _ _ _ HY) as [fy ->].
  unfold vlinear4, vplace, linear4, linear3. rewrite !same1. unfold cell4, cell3. cbn [nth]. reflexivity.
Qed.
Lemma zeros_read v X Y Z T : (forall i j k t, cell4 vzero v i j k t = vzero) -> vlinear4 v X Y Z T = vzero.
Proof.
  intros H. destruct X as [[a b] f], Y as [[c d] e], Z as [[m n] o], T as [[q r] s].
  unfold vlinear4, linear4, linear3, linear1, between. rewrite !H. unfold vzero. cbn [vx vy vz]. f_equal; ring.
Qed.
Lemma nth_repeat' {A} (a : A) n i : nth i (repeat a n) a = a.
Proof. revert i. induction n as [|n IH]; intros [|i]; cbn; try reflexivity. apply IH. Qed.
Lemma nth_rep {A} (a d : A) n i : nth i (repeat a n) d = if Nat.ltb i n then a else d.
Proof. revert i. induction n as [|n IH]; intros [|i]; cbn [repeat nth]; try reflexivity. rewrite IH. reflexivity. Qed.
Lemma cleared_still nx ny nz nw i j k t : cell4 vzero (cleared nx ny nz nw) i j k t = vzero.
Proof.
  unfold cell4, cell3, cleared. rewrite !nth_rep.
  destruct (Nat.ltb i nx); [|destruct j, k, t; reflexivity]. rewrite nth_rep. destruct (Nat.ltb j ny); [|destruct k, t; reflexivity].
  rewrite nth_rep. destruct (Nat.ltb k nz); [|destruct t; reflexivity]. rewrite nth_rep. destruct (Nat.ltb t nw); reflexivity.
Qed.
Lemma cleared_shape nx ny nz nw : shape4 nx ny nz nw (cleared nx ny nz nw).
Proof.
  unfold shape4, shape3, shape2, shape1, cleared. rewrite repeat_length. split; [reflexivity|].
  apply Forall_forall. intros a Ha. apply repeat_spec in Ha. subst a. rewrite repeat_length. split; [reflexivity|].
  apply Forall_forall. intros a Ha. apply repeat_spec in Ha. subst a. rewrite repeat_length. split; [reflexivity|].
  apply Forall_forall. intros a Ha. apply repeat_spec in Ha. subst a. apply repeat_length.
Qed.

(* ------------------------------ steady profile ------------------------------ *)
Section Steady.
Context {tok : Type}.
Variable stod : tok -> outcome R.
Lemma column_opt row i v : column_is stod row i v -> opt_col stod row i = Ok v.
Proof. unfold column_is, opt_col. destruct (nth_error row i); [trivial|]. intros ->. reflexivity. Qed.
Lemma steady_row_ok row p : steady_means stod row p -> steady_row stod row = Ok p.
Proof.
  intros (L & C0 & C1 & C2 & C3). destruct p as [z [x y w]]. cbn [fst snd vx vy vz] in *.
  destruct row as [|e0 [|e1 rest]]; cbn [length] in L; try lia. unfold column_is in C0, C1. cbn [nth_error] in C0, C1.
  unfold steady_row. rewrite C0. cbn [obind]. rewrite C1. cbn [obind]. rewrite (column_opt _ _ _ C2). cbn [obind]. rewrite (column_opt _ _ _ C3). reflexivity.
Qed.
Lemma steady_built h0 h1 h2 body rows : Forall2 (steady_means stod) body rows -> body <> [] ->
  steady_current stod (h0 :: h1 :: h2 :: body) = Ok (CGrid (Axes [0] [0] (map fst rows) 1 1) [[map (fun r => [snd r]) rows]] (cleared 1 1 (length rows) 1)).
Proof.
  intros H Hb. unfold steady_current. destruct body as [|b body]; [congruence|]. cbn [length Nat.ltb Nat.leb skipn].
  rewrite (oeach_ok _ _ rows).
  - cbn [obind]. unfold allocate. cbn [px py pz nt length Nat.eqb orb]. rewrite map_length. inversion H. subst. reflexivity.
  - clear Hb. induction H; constructor; [apply steady_row_ok; assumption|assumption].
Qed.
Lemma steady_flow h0 h1 h2 body rows : Forall2 (steady_means stod) body rows -> body <> [] -> increasing (map fst rows) ->
  exists G, steady_current stod (h0 :: h1 :: h2 :: body) = Ok G /\
    forall pos t, exists u, current_kin G pos t = Ok (u, vzero) /\ vinterp (map fst rows) (map snd rows) (vz pos) u.
Proof.
  intros H Hb Hi. eexists. split; [apply steady_built; eassumption|]. intros pos t.
  assert (Hr : rows <> []) by (intros ->; inversion H; congruence).
  set (G := CGrid _ _ _). destruct (current_steady G pos t) as (out & E & X & Y & Z & HX & HY & HZ & E1 & E2).
  - unfold cgrid_ok, G. cbn [cg_axes px py pz nt cg_vel cg_acc length]. rewrite map_length. split; [|split].
    + unfold axes_ok. repeat split; try congruence; try (intros i j Hij; cbn in Hij; lia); [exact Hi|]. destruct rows; cbn; congruence.
    + split; [reflexivity|]. constructor; [|constructor]. split; [reflexivity|]. constructor; [|constructor]. split; [apply map_length|].
      apply Forall_forall. intros a Ha. apply in_map_iff in Ha. destruct Ha as (r & <- & _). reflexivity.
    + apply cleared_shape.
  - reflexivity.
  - unfold G in *. cbn [cg_axes px py pz cg_vel cg_acc] in *. exists (fst out). split.
    + rewrite E. destruct out as [v a]. cbn [fst snd] in *. rewrite E2. f_equal. f_equal. apply zeros_read. intros. apply cleared_still.
    + rewrite E1, (column_read _ 0 0 _ _ _ _ _ _ HX HY).
      rewrite (vplace_ext _ (fun k => nth k (map snd rows) vzero)).
      * apply vplace_interp; assumption.
      * destruct Z as [[a b] f]. cbn [on_axis] in HZ. destruct HZ as (La & Lb & _). rewrite map_length in La, Lb.
        assert (Q : forall k, (k < length rows)%nat -> vplace (fun t0 => nth t0 (nth k (map (fun r => [snd r]) rows) []) vzero) (0%nat, 0%nat, 0) = nth k (map snd rows) vzero).
        { intros k Hk. rewrite (nth_map _ _ _ (0, vzero)) by exact Hk. rewrite (nth_map snd _ _ (0, vzero)) by exact Hk. cbn [nth].
          unfold vplace. rewrite !same1. destruct (snd (nth k rows (0, vzero))); reflexivity. }
        split; apply Q; assumption.
Qed.
End Steady.
Section Descending.
Context {tok : Type}.
Variable stod : tok -> outcome R.
(** depths from the surface downwards *)
Lemma steady_descending h0 h1 h2 body rows : Forall2 (steady_means stod) body rows -> (2 <= length rows)%nat -> decreasing (map fst rows) ->
  exists G, steady_current stod (h0 :: h1 :: h2 :: body) = Ok G /\
    forall pos t, current_kin G pos t = Ok (if Rle_dec (vz pos) (nth 0 (map fst rows) 0) then nth 0 (map snd rows) vzero else nth (length rows - 1) (map snd rows) vzero, vzero).
Proof.
  intros H Hr Hi. eexists. split; [apply steady_built; [eassumption|]|].
  { intros ->. inversion H. subst. cbn in Hr. lia. }
  intros pos t. set (zs := map fst rows) in *. assert (Lz : length zs = length rows) by apply map_length.
  set (tab := map (fun r : R * v3 => [snd r]) rows). assert (Lt : length tab = length rows) by apply map_length.
  assert (Q : forall k, (k < length rows)%nat -> vplace (fun t0 => nth t0 (nth k tab []) vzero) (0%nat, 0%nat, 0) = nth k (map snd rows) vzero).
  { intros k Hk. unfold tab. rewrite (nth_map _ _ _ (0, vzero)) by exact Hk. rewrite (nth_map snd _ _ (0, vzero)) by exact Hk. cbn [nth].
    unfold vplace. rewrite !same1. destruct (snd (nth k rows (0, vzero))); reflexivity. }
  assert (S : shape4 1 1 (length rows) 1 [[tab]]).
  { split; [reflexivity|]. constructor; [|constructor]. split; [reflexivity|]. constructor; [|constructor]. split; [exact Lt|].
      apply Forall_forall. intros a Ha. apply in_map_iff in Ha. destruct Ha as (r & <- & _). reflexivity. }
  assert (F : exists j f, interp_factor zs 1 (vz pos) = Ok (j, f) /\ (j < length rows)%nat /\
     vplace (fun k => nth k (map snd rows) vzero) (low j, j, f) = if Rle_dec (vz pos) (nth 0 zs 0) then nth 0 (map snd rows) vzero else nth (length rows - 1) (map snd rows) vzero).
  { destruct (interp_factor_cases zs 1 (vz pos)) as [(L & E)|[(L & U & E)|(j & Hj & X & _)]]; [lia| | |].
    - assert (hint zs 1 = 1)%nat as Eh by (unfold hint; lia). rewrite Eh in *. cbn [Nat.sub] in L. exists 1%nat, 0. split; [exact E|]. split; [lia|].
      destruct (Rle_dec (vz pos) (nth 0 zs 0)) as [_|N]; [|exfalso; apply N; exact L]. unfold vplace, linear1, between, low. cbn [Nat.sub].
      rewrite !Rmult_0_l, !Rplus_0_r. destruct (nth 0 (map snd rows) vzero); reflexivity.
    - assert (hint zs 1 = 1)%nat as Eh by (unfold hint; lia). rewrite Eh in *. cbn [Nat.sub] in L. exists (length zs - 1)%nat, 1. split; [exact E|]. split; [lia|].
      destruct (Rle_dec (vz pos) (nth 0 zs 0)) as [N|_]; [exfalso; lra|]. unfold vplace, linear1, between, low. rewrite Lz.
      replace (length rows - 1 - 1)%nat with (length rows - 2)%nat by lia.
      destruct (nth (length rows - 1) (map snd rows) vzero) as [a1 a2 a3], (nth (length rows - 2) (map snd rows) vzero) as [b1 b2 b3]. cbn [vx vy vz]. f_equal; ring.
    - exfalso. assert (hint zs 1 = 1)%nat as Eh by (unfold hint; lia). rewrite Eh in *. assert (nth j zs 0 < nth (j - 1) zs 0) by (apply Hi; lia). lra. }
  destruct F as (j & f & E & Lj & V). unfold current_kin. cbn [cg_axes px py pz cg_vel cg_acc]. fold zs.
  change (interp_factor [0] 1 (vx pos)) with (Ok (0%nat, 0)). change (interp_factor [0] 1 (vy pos)) with (Ok (0%nat, 0)). cbn [obind].
  rewrite time_steady by (cbn [nt]; lia). cbn [obind]. rewrite E. cbn [obind fst snd]. fold tab.
  rewrite (interp4Vec_linear _ 1 1 (length rows) 1) by (try assumption; lia). cbn [obind].
  rewrite (interp4Vec_linear _ 1 1 (length rows) 1) by (try apply cleared_shape; try assumption; lia). cbn [obind].
  rewrite (zeros_read (cleared _ _ _ _)) by (intros; apply cleared_still). f_equal. f_equal. rewrite <- V.
  unfold vlinear4, linear4, linear3. rewrite !same1. unfold cell4, cell3. cbn [nth].
  change (vplace (fun k => vplace (fun t0 => nth t0 (nth k tab []) vzero) (low 0, 0%nat, 0)) (low j, j, f) = vplace (fun k => nth k (map snd rows) vzero) (low j, j, f)).
  apply vplace_ext. split; apply Q; unfold low; lia.
Qed.
Lemma steady_short lines : (length lines < 4)%nat -> steady_current stod lines = Throw ExInputFile.
Proof. intros H. unfold steady_current. apply Nat.ltb_lt in H. rewrite H. reflexivity. Qed.
Lemma steady_columns h0 h1 h2 good rows bad rest : Forall2 (steady_means stod) good rows -> (length bad < 2)%nat ->
  steady_current stod (h0 :: h1 :: h2 :: good ++ bad :: rest) = Throw ExInputFile.
Proof.
  intros H Hb. unfold steady_current.
  assert (E : oeach (steady_row stod) (good ++ bad :: rest) = Throw ExInputFile).
  { induction H as [|a p good rows Ha _ IH].
    - cbn [app oeach]. destruct bad as [|e [|e' l]]; [reflexivity|reflexivity|cbn in Hb; lia].
    - cbn [app oeach]. rewrite (steady_row_ok stod _ _ Ha). cbn [obind]. rewrite IH. reflexivity. }
  replace (Nat.ltb (length (h0 :: h1 :: h2 :: good ++ bad :: rest)) 4) with false.
  - cbn [skipn]. rewrite E. reflexivity.
  - symmetry. apply Nat.ltb_ge. cbn [length]. rewrite app_length. cbn [length]. lia.
Qed.
End Descending.
