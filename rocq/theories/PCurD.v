(** Waves and currents in one grid: proofs. *)
From Coq Require Import Reals ZArith List Arith Bool Lra Lia.
From Verif Require Import MErr MVec MStateOps MInterp MSeafloor MWaves MSpec MCur SInterp PInterp SWaves SWavesG SSpecB SCur PWaves PWavesB PSpecB PFill PCur PCurB PCurC.
Import ListNotations.
Open Scope R_scope.

Lemma over_ok a tab add g : shape4 (length (px a)) (length (py a)) (length (pz a)) (nt a) tab ->
  (forall i j k t, (i < length (px a))%nat -> (j < length (py a))%nat -> (k < length (pz a))%nat -> (t < nt a)%nat -> add i j k t (cell4 vzero tab i j k t) = Ok (g i j k t)) ->
  exists tab', over_grid a tab add = Ok tab' /\ shape4 (length (px a)) (length (py a)) (length (pz a)) (nt a) tab' /\
    forall i j k t, (i < length (px a))%nat -> (j < length (py a))%nat -> (k < length (pz a))%nat -> (t < nt a)%nat -> cell4 vzero tab' i j k t = g i j k t.
Proof.
  intros S H. set (nx := length (px a)) in *. set (ny := length (py a)) in *. set (nz := length (pz a)) in *.
  exists (tabulate nx (fun i => tabulate ny (fun j => tabulate nz (fun k => tabulate (nt a) (fun t => g i j k t))))). split; [|split].
  - unfold over_grid. apply oeach_seq_tab. intros i Hi. apply oeach_seq_tab. intros j Hj. apply oeach_seq_tab. intros k Hk. apply oeach_seq_tab. intros t Ht.
    rewrite (vget_cell4 vzero tab nx ny nz (nt a)) by assumption. cbn [obind]. apply H; assumption.
  - assert (F : forall (B : Type) (P : B -> Prop) n (f : nat -> B), (forall i, P (f i)) -> Forall P (tabulate n f)).
    { intros B P n f Hf. apply Forall_forall. intros b Hb. unfold tabulate in Hb. apply in_map_iff in Hb. destruct Hb as (i & <- & _). apply Hf. }
    split; [apply tab_length|]. apply F. intros i. split; [apply tab_length|]. apply F. intros j. split; [apply tab_length|]. apply F. intros k. apply tab_length.
  - intros i j k t Hi Hj Hk Ht. unfold cell4, cell3. rewrite !tab_nth by assumption. reflexivity.
Qed.
Lemma kin_total c pos t : cgrid_ok c -> still c -> readable c t -> exists u, current_kin c pos t = Ok (u, vzero).
Proof.
  intros Hc Hs H. assert (E : exists out, current_kin c pos t = Ok out /\ snd out = vzero).
  { destruct H as [H|(H1 & H2 & H3 & H4)].
    - destruct (current_steady c pos t Hc H) as (out & E & X & Y & Z & _ & _ & _ & _ & E2). exists out. split; [exact E|]. rewrite E2. apply zeros_read. exact Hs.
    - destruct (step_of _ t H2 H3) as (k & Hk). destruct (time_place (cg_axes c) t k H1 H2 Hk (short_k _ _ _ H2 (proj1 Hk) H4)) as (w & ft & E & Hw & _).
      destruct (current_kin_at c pos t w ft Hc Hw E) as (out & Eo & X & Y & Z & _ & _ & _ & _ & E2). exists out. split; [exact Eo|]. rewrite E2. apply zeros_read. exact Hs. }
  destruct E as ([u a] & E & Ea). cbn [snd] in Ea. subst a. exists u. exact E.
Qed.
Lemma kin_plane c pos pos' t : length (px (cg_axes c)) = 1%nat -> length (py (cg_axes c)) = 1%nat -> vz pos = vz pos' -> current_kin c pos t = current_kin c pos' t.
Proof.
  intros H1 H2 H3. unfold current_kin. rewrite H3.
  assert (F : forall l x, length l = 1%nat -> interp_factor l 1 x = Ok (0%nat, 0)). { intros l x H. unfold interp_factor. rewrite H. reflexivity. }
  rewrite (F _ (vx pos)), (F _ (vx pos')), (F _ (vy pos)), (F _ (vy pos')) by assumption. reflexivity.
Qed.
Lemma kin_steady c pos t t' : nt (cg_axes c) = 1%nat -> current_kin c pos t = current_kin c pos t'.
Proof. intros H. unfold current_kin. rewrite !time_steady by lia. reflexivity. Qed.
Definition mode_ok (m : cmode) (c : cgrid) : Prop :=
  still c /\ match m with
  | CSteady => length (px (cg_axes c)) = 1%nat /\ length (py (cg_axes c)) = 1%nat /\ nt (cg_axes c) = 1%nat
  | CDynamic => length (px (cg_axes c)) = 1%nat /\ length (py (cg_axes c)) = 1%nat
  | C4D => True
  end.
Lemma vadd_0 u : vadd u vzero = u.
Proof. destruct u as [a b c]. unfold vadd, vzero. cbn [vx vy vz]. f_equal; ring. Qed.
Lemma unify_ok m w c : wgrid_ok w -> cgrid_ok c -> mode_ok m c ->
  (forall r, (r < nt (wg_axes w))%nat -> readable c (INR r * dtWave (wg_axes w))) ->
  exists w', unify m w c = Ok w' /\ wgrid_ok w' /\ wg_axes w' = wg_axes w /\ wg_zeta w' = wg_zeta w /\ wg_pdyn w' = wg_pdyn w /\
    let a := wg_axes w in
    forall i j k r, (i < length (px a))%nat -> (j < length (py a))%nat -> (k < length (pz a))%nat -> (r < nt a)%nat ->
      exists u, current_kin c (V3 (nth i (px a) 0) (nth j (py a) 0) (nth k (pz a) 0)) (INR r * dtWave a) = Ok (u, vzero) /\
        cell4 vzero (wg_vel w') i j k r = vadd (cell4 vzero (wg_vel w) i j k r) u /\
        cell4 vzero (wg_acc w') i j k r = cell4 vzero (wg_acc w) i j k r.
Proof.
  intros Hw Hc (Hs & Hm) Hr. set (a := wg_axes w) in *.
  assert (P : forall i j k r, (r < nt a)%nat -> exists u, probe m c a i j k r = Ok (u, vzero) /\
     current_kin c (V3 (nth i (px a) 0) (nth j (py a) 0) (nth k (pz a) 0)) (INR r * dtWave a) = Ok (u, vzero)).
  { intros i j k r Hlt. destruct (kin_total c (V3 (nth i (px a) 0) (nth j (py a) 0) (nth k (pz a) 0)) _ Hc Hs (Hr r Hlt)) as (u & E). exists u. split; [|exact E]. rewrite <- E.
    destruct m; cbn [probe].
    - destruct Hm as (M1 & M2 & M3). rewrite (kin_steady c _ 0 (INR r * dtWave a) M3). apply kin_plane; try assumption. reflexivity.
    - destruct Hm as (M1 & M2). apply kin_plane; try assumption. reflexivity.
    - reflexivity. }
  set (cu := fun i j k r => match probe m c a i j k r with Ok u => fst u | _ => vzero end).
  assert (PC : forall i j k r, (r < nt a)%nat -> probe m c a i j k r = Ok (cu i j k r, vzero)).
  { intros i j k r Hlt. destruct (P i j k r Hlt) as (u & E & _). unfold cu. rewrite E. reflexivity. }
  destruct Hw as (Ax & Sz & Sp & Sv & Sa). fold a in Ax, Sz, Sp, Sv, Sa.
  destruct (over_ok a (wg_vel w) (fun ix iy iz it v => u <- probe m c a ix iy iz it ;; Ok (match m with CDynamic => vadd (vadd v (fst u)) (snd u) | _ => vadd v (fst u) end))
     (fun i j k r => vadd (cell4 vzero (wg_vel w) i j k r) (cu i j k r)) Sv) as (vel & Ev & SV & CV).
  { intros i j k r _ _ _ Hlt. rewrite PC by exact Hlt. cbn [obind fst snd]. destruct m; try reflexivity. rewrite vadd_0. reflexivity. }
  destruct (over_ok a (wg_acc w) (fun ix iy iz it v => u <- probe m c a ix iy iz it ;; Ok (match m with CDynamic => v | _ => vadd v (snd u) end))
     (fun i j k r => cell4 vzero (wg_acc w) i j k r) Sa) as (acc & Ea & SA & CA).
  { intros i j k r _ _ _ Hlt. rewrite PC by exact Hlt. cbn [obind fst snd]. destruct m; try rewrite vadd_0; reflexivity. }
  exists (WGrid a (wg_zeta w) (wg_pdyn w) vel acc). split; [|split; [|split; [reflexivity|split; [reflexivity|split; [reflexivity|]]]]].
  - unfold unify. fold a. rewrite Ev. cbn [obind]. rewrite Ea. reflexivity.
  - unfold wgrid_ok. cbn [wg_axes wg_zeta wg_pdyn wg_vel wg_acc]. repeat split; try assumption; try apply Ax; try apply Sz; try apply Sp; try apply SV; try apply SA.
  - cbv zeta. intros i j k r Hi Hj Hk Hlt. destruct (P i j k r Hlt) as (u & E1 & E2). exists u. split; [exact E2|]. cbn [wg_vel wg_acc].
    rewrite CV, CA by assumption. assert (cu i j k r = u) as -> by (rewrite PC in E1 by exact Hlt; congruence). split; reflexivity.
Qed.

(* ------------------------------ grids made from files ------------------------------ *)
Section Made.
Context {tok : Type}.
Variables (stod stof : tok -> outcome R) (stoul : tok -> outcome Z) (eqb : tok -> tok -> bool).
Ltac step H := match type of H with
  | obind ?e _ = Ok _ => destruct e eqn:?; cbn [obind] in H; try discriminate H
  | (if ?b then _ else _) = Ok _ => destruct b; try discriminate H
  end.
Lemma made_ok m lines c : made stod stof stoul eqb m lines c -> mode_ok m c.
Proof.
  destruct m; cbn [made]; intros H.
  - unfold steady_current in H. step H. step H. cbv zeta in H. step H. assert (c = _) as -> by (symmetry; injection H; intros E; exact E).
    split; [intros i j k t; apply cleared_still|]. repeat split.
  - unfold dynamic_current in H. step H. step H. step H. cbv zeta in H. step H. step H. step H. step H.
    assert (c = _) as -> by (symmetry; injection H; intros E; exact E). split; [intros i j k t; apply cleared_still|]. repeat split.
  - unfold current_4d in H. step H. cbv zeta in H. repeat step H.
    assert (c = _) as -> by (symmetry; injection H; intros E; exact E). split; [intros i j k t; apply cleared_still|]. exact I.
Qed.
End Made.

(* ------------------------------ 4D files ------------------------------ *)
Lemma same_iff a b : same_node a b = true <-> a = b.
Proof.
  destruct a as [[[i j] k] r], b as [[[i' j'] k'] r']. cbn [same_node]. rewrite !andb_true_iff, !Nat.eqb_eq. split; [intros [[-> ->] [-> ->]]; reflexivity|]. intros E. inversion E. repeat split.
Qed.
Lemma latest_fold (ws : list ((nat * nat * nat * nat) * v3)) p (acc : v3) (V : nat * nat * nat * nat -> v3) : (forall w, In w ws -> snd w = V (fst w)) ->
  (In p (map fst ws) -> fold_left (fun acc w => if same_node (fst w) p then snd w else acc) ws acc = V p) /\
  (~ In p (map fst ws) -> fold_left (fun acc w => if same_node (fst w) p then snd w else acc) ws acc = acc).
Proof.
  revert acc. induction ws as [|w ws IH]; intros acc H; [split; [intros []|reflexivity]|]. cbn [map fold_left].
  destruct (IH (if same_node (fst w) p then snd w else acc)) as [I1 I2]; [intros w' Hw'; apply H; right; exact Hw'|]. 
  assert (Q : forall a b : nat * nat * nat * nat, {a = b} + {a <> b}).
  { intros a b. destruct (same_node a b) eqn:E; [left; apply same_iff; exact E|right; intros C; apply same_iff in C; congruence]. }
  destruct (in_dec Q p (map fst ws)) as [D|D]; split; intros Hp.
  - apply I1. exact D.
  - exfalso. apply Hp. right. exact D.
  - rewrite (I2 D). destruct Hp as [E|Hp]; [|contradiction]. rewrite (proj2 (same_iff _ _) E). rewrite H by (left; reflexivity). rewrite E. reflexivity.
  - rewrite I2 by (intros C; apply Hp; right; exact C). destruct (same_node (fst w) p) eqn:E; [|reflexivity]. exfalso. apply Hp. left. apply same_iff. exact E.
Qed.
Lemma latest_given ws p V : (forall w, In w ws -> snd w = V (fst w)) -> In p (map fst ws) -> latest ws p = V p.
Proof. intros H. apply (latest_fold ws p vzero V H). Qed.
Lemma latest_none ws p : ~ In p (map fst ws) -> latest ws p = vzero.
Proof.
  unfold latest. generalize vzero as acc. intros acc. revert acc. induction ws as [|w ws IH]; intros acc H; [reflexivity|]. cbn [fold_left].
  destruct (same_node (fst w) p) eqn:E; [exfalso; apply H; left; apply same_iff; exact E|]. apply IH. intros C. apply H. right. exact C.
Qed.
Section Four.
Context {tok : Type}.
Variables (stod : tok -> outcome R) (stoul : tok -> outcome Z) (eqb : tok -> tok -> bool).
Hypothesis Heq : forall a b, eqb a b = true <-> a = b.
Variables (l0 l1 l2 l3 l4 l5 X Y Z T : list tok) (x y z t : list R) (data : list (list tok)) (dt : R) (n : nat).
Hypothesis Hh : grid_header stod stoul l0 l1 l2 l3 l4 X Y Z T x y z t.
Hypothesis Hs : sampling t dt n.
Hypothesis Hd : dt <= DBL_MAX.
Hypothesis Hn : (Z.of_nat n < 2 ^ 32)%Z.
Hypothesis Hl : (length X * length Y * length Z * length T <= length data + 1)%nat.
Lemma four_table ws : Forall2 (row_at stod X Y Z T) data ws ->
  exists c, current_4d stod stoul eqb (l0 :: l1 :: l2 :: l3 :: l4 :: l5 :: data) = Ok c /\ cg_axes c = Axes x y z n dt /\ table_of t dt c (latest ws).
Proof.
  destruct Hh as ((d0 & d1 & d2 & d3 & dr & -> & D0 & D1 & D2 & D3) & B0 & B1 & B2 & B3 & A1 & A2 & A3 & A4 & Ht). intros Hw.
  destruct (four_built stod stoul eqb Heq d0 d1 d2 d3 dr l1 l2 l3 l4 l5 data X Y Z T x y z t ws dt n) as (vel & E & S & C); try assumption.
  eexists. split; [exact E|]. split; [reflexivity|]. split; [exact S|]. split; [intros i j k r; apply cleared_still|]. split; [reflexivity|]. exact C.
Qed.
Lemma table_ext c W W' : cg_axes c = Axes x y z n dt -> (forall p, node_in X Y Z T p -> W p = W' p) -> table_of t dt c W -> table_of t dt c W'.
Proof.
  intros Ea H (S & St & D & C). split; [exact S|]. split; [exact St|]. split; [exact D|]. intros i j k r Hi Hj Hk Hr.
  rewrite <- (tab_ext (length t) (fun it => W (i, j, k, it))); [apply C; assumption|]. intros it Hit. apply H.
  destruct Hh as (_ & _ & _ & _ & _ & A1 & A2 & A3 & A4 & _). rewrite Ea in Hi, Hj, Hk. cbn [px py pz] in *.
  apply axis_read in A1, A2, A3, A4. destruct A1 as (_ & _ & L1), A2 as (_ & _ & L2), A3 as (_ & _ & L3), A4 as (_ & _ & L4). cbn [node_in].
  rewrite L1, L2, L3, L4. repeat split; assumption.
Qed.
Lemma rows_at V ps : Forall2 (line_of stod X Y Z T V) data ps -> Forall2 (row_at stod X Y Z T) data (map (fun p => (p, V p)) ps).
Proof.
  clear Hl. induction 1 as [|row p data' ps H _ IH]; [constructor|]. cbn [map]. constructor; [|exact IH].
  destruct p as [[[i j] k] r]. destruct H as (e0 & e1 & e2 & e3 & H0 & H1 & H2 & H3 & H4). exists e0, e1, e2, e3. split; [exact H4|]. cbn [fst]. repeat split; left; assumption.
Qed.
Lemma maps_fst (V : nat * nat * nat * nat -> v3) ps : map fst (map (fun p => (p, V p)) ps) = ps.
Proof. rewrite map_map. cbn [fst]. apply map_id. Qed.
Lemma four_all V ps : Forall2 (line_of stod X Y Z T V) data ps -> (forall p, node_in X Y Z T p -> In p ps) ->
  exists c, current_4d stod stoul eqb (l0 :: l1 :: l2 :: l3 :: l4 :: l5 :: data) = Ok c /\ cg_axes c = Axes x y z n dt /\ table_of t dt c V.
Proof.
  intros H Hall. destruct (four_table _ (rows_at V ps H)) as (c & E & Ea & Ht). exists c. split; [exact E|]. split; [exact Ea|].
  apply (table_ext c (latest (map (fun p => (p, V p)) ps)) V Ea); [|exact Ht]. intros p Hp. apply latest_given; [|rewrite maps_fst; apply Hall; exact Hp].
  intros w Hw. apply in_map_iff in Hw. destruct Hw as (q & <- & _). reflexivity.
Qed.
Lemma four_first V p0 ps : Forall2 (line_of stod X Y Z T V) data ps -> NoDup (p0 :: ps) -> (forall p, node_in X Y Z T p -> In p (p0 :: ps)) ->
  exists c, current_4d stod stoul eqb (l0 :: l1 :: l2 :: l3 :: l4 :: l5 :: data) = Ok c /\ cg_axes c = Axes x y z n dt /\
    table_of t dt c (fun p => if same_node p0 p then vzero else V p).
Proof.
  intros H Hnd Hall. destruct (four_table _ (rows_at V ps H)) as (c & E & Ea & Ht). exists c. split; [exact E|]. split; [exact Ea|].
  apply (table_ext c (latest (map (fun p => (p, V p)) ps)) _ Ea); [|exact Ht]. intros p Hp. inversion Hnd as [|a b N1 N2]. subst. destruct (same_node p0 p) eqn:Es.
  - apply same_iff in Es. subst p0. apply latest_none. rewrite maps_fst. exact N1.
  - apply latest_given; [|rewrite maps_fst; destruct (Hall p Hp) as [C|C]; [subst; rewrite (proj2 (same_iff p p) eq_refl) in Es; discriminate|exact C]].
    intros w Hw. apply in_map_iff in Hw. destruct Hw as (q & <- & _). reflexivity.
Qed.
End Four.
Lemma dynamic_short {tok} (stod stof : tok -> outcome R) lines : (length lines < 7)%nat -> dynamic_current stod stof lines = Throw ExInputFile.
Proof. intros H. unfold dynamic_current. apply Nat.ltb_lt in H. rewrite H. reflexivity. Qed.
Lemma four_short {tok} (stod : tok -> outcome R) stoul eqb lines : (length lines < 7)%nat -> current_4d stod stoul eqb lines = Throw ExInputFile.
Proof. intros H. unfold current_4d. apply Nat.ltb_lt in H. rewrite H. reflexivity. Qed.
