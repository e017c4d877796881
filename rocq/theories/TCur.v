(** Property theorems: currents described in files (C94). *)
From Coq Require Import Reals ZArith List Arith Bool Lra Lia.
From Verif Require Import MErr MVec MStateOps MInterp MSeafloor MWaves MSpec MCur SInterp PInterp SWaves SWavesG SSpecB SCur PWaves PWavesB PCur PCurB PCurC PCurD.
Import ListNotations.
Open Scope R_scope.

(** a steady profile with depths in increasing order: everywhere and at every time the velocity is the
    linear interpolation in depth, the nearest value outside; no acceleration *)
Theorem C94_steady_partial : forall (tok : Type) (stod : tok -> outcome R) h0 h1 h2 body rows,
  Forall2 (steady_means stod) body rows -> body <> [] -> increasing (map fst rows) ->
  exists G, steady_current stod (h0 :: h1 :: h2 :: body) = Ok G /\
    forall pos t, exists u, current_kin G pos t = Ok (u, vzero) /\ vinterp (map fst rows) (map snd rows) (vz pos) u.
Proof. exact @steady_flow. Qed.
Print Assumptions C94_steady_partial.

(** depths listed from the surface downwards are accepted, and no value but the first row (last row
    above the surface) is ever used *)
Theorem C94_descending_refuted : forall (tok : Type) (stod : tok -> outcome R) h0 h1 h2 body rows,
  Forall2 (steady_means stod) body rows -> (2 <= length rows)%nat -> decreasing (map fst rows) ->
  exists G, steady_current stod (h0 :: h1 :: h2 :: body) = Ok G /\
    forall pos t, current_kin G pos t = Ok (if Rle_dec (vz pos) (nth 0 (map fst rows) 0) then nth 0 (map snd rows) vzero else nth (length rows - 1) (map snd rows) vzero, vzero).
Proof. exact @steady_descending. Qed.
Print Assumptions C94_descending_refuted.

(** files without enough lines or columns are refused *)
Theorem C94_short_files : forall (tok : Type) (stod stof : tok -> outcome R) stoul eqb lines,
  ((length lines < 4)%nat -> steady_current stod lines = Throw ExInputFile) /\
  ((length lines < 7)%nat -> dynamic_current stod stof lines = Throw ExInputFile /\ current_4d stod stoul eqb lines = Throw ExInputFile).
Proof. intros tok stod stof stoul eqb lines. split; [apply steady_short|]. intros H. split; [apply dynamic_short; exact H|apply four_short; exact H]. Qed.
Print Assumptions C94_short_files.
Theorem C94_columns : forall (tok : Type) (stod : tok -> outcome R) h0 h1 h2 good rows bad rest,
  Forall2 (steady_means stod) good rows -> (length bad < 2)%nat ->
  steady_current stod (h0 :: h1 :: h2 :: good ++ bad :: rest) = Throw ExInputFile.
Proof. exact @steady_columns. Qed.
Print Assumptions C94_columns.

(** a dynamic profile: the samples kept are the linear interpolations in time of the velocities given *)
Theorem C94_dynamic_samples : forall (tok : Type) (stod stof : tok -> outcome R) lines depths T U dt n,
  dynamic_file stod lines stof depths T U -> depths <> [] -> increasing T -> (2 <= length T)%nat ->
  sampling T dt n -> dt <= DBL_MAX -> (Z.of_nat n < 2 ^ 32)%Z ->
  exists vel, dynamic_current stod stof lines = Ok (CGrid (Axes [0] [0] depths n dt) [[vel]] (cleared 1 1 (length depths) n)) /\
    length vel = length depths /\ forall k, (k < length depths)%nat -> length (nth k vel []) = n /\
      forall i, (i < n)%nat -> vinterp T (tabulate (length T) (U k)) (INR i * dt) (nth i (nth k vel []) vzero).
Proof. exact @dynamic_built. Qed.
Print Assumptions C94_dynamic_samples.

(** with equally spaced times from 0 on, before the last of them, the velocity is the linear
    interpolation in depth of the linear interpolations in time *)
Theorem C94_dynamic_flow_partial : forall (tok : Type) (stod stof : tok -> outcome R) lines depths U dt n,
  dynamic_file stod lines stof depths (even_times n dt) U -> depths <> [] -> increasing depths -> (2 <= n)%nat -> 0 < dt <= DBL_MAX -> (Z.of_nat n < 2 ^ 32)%Z ->
  exists G, dynamic_current stod stof lines = Ok G /\
    forall pos t, 0 <= t < INR (n - 1) * dt -> exists us u, current_kin G pos t = Ok (u, vzero) /\ length us = length depths /\
     (forall k, (k < length depths)%nat -> vinterp (even_times n dt) (tabulate n (U k)) t (nth k us vzero)) /\ vinterp depths us (vz pos) u.
Proof. intros. destruct (dynamic_flow stod stof lines depths U dt n) as (G & E & F & _); try assumption. exists G. split; [exact E|exact F]. Qed.
Print Assumptions C94_dynamic_flow_partial.

(** from the last time on, and not only after it, the velocities of the first time are returned,
    instead of the nearest, last ones *)
Theorem C94_dynamic_end_refuted : forall (tok : Type) (stod stof : tok -> outcome R) lines depths U dt n,
  dynamic_file stod lines stof depths (even_times n dt) U -> depths <> [] -> increasing depths -> (2 <= n)%nat -> 0 < dt <= DBL_MAX -> (Z.of_nat n < 2 ^ 32)%Z ->
  exists G, dynamic_current stod stof lines = Ok G /\
    forall pos t, INR (n - 1) * dt <= t < INR n * dt -> exists u, current_kin G pos t = Ok (u, vzero) /\ vinterp depths (tabulate (length depths) (fun k => U k 0%nat)) (vz pos) u.
Proof. intros. destruct (dynamic_flow stod stof lines depths U dt n) as (G & E & _ & F); try assumption. exists G. split; [exact E|exact F]. Qed.
Print Assumptions C94_dynamic_end_refuted.

(** the table of a 4D file: at every node the interpolation in time of the last velocities written in
    the lines from the seventh on; words which are not in the axes stand for the first node *)
Theorem C94_4d_table : forall (tok : Type) (stod : tok -> outcome R) stoul eqb, (forall a b, eqb a b = true <-> a = b) ->
  forall l0 l1 l2 l3 l4 l5 X Y Z T x y z t data dt n,
  grid_header stod stoul l0 l1 l2 l3 l4 X Y Z T x y z t -> sampling t dt n -> dt <= DBL_MAX -> (Z.of_nat n < 2 ^ 32)%Z ->
  (length X * length Y * length Z * length T <= length data + 1)%nat -> forall ws, Forall2 (row_at stod X Y Z T) data ws ->
  exists c, current_4d stod stoul eqb (l0 :: l1 :: l2 :: l3 :: l4 :: l5 :: data) = Ok c /\ cg_axes c = Axes x y z n dt /\ table_of t dt c (latest ws).
Proof. exact @four_table. Qed.
Print Assumptions C94_4d_table.

(** with one ignored line after the axes, and one line per node: the velocities given *)
Theorem C94_4d_partial : forall (tok : Type) (stod : tok -> outcome R) stoul eqb, (forall a b, eqb a b = true <-> a = b) ->
  forall l0 l1 l2 l3 l4 l5 X Y Z T x y z t data dt n,
  grid_header stod stoul l0 l1 l2 l3 l4 X Y Z T x y z t -> sampling t dt n -> dt <= DBL_MAX -> (Z.of_nat n < 2 ^ 32)%Z ->
  (length X * length Y * length Z * length T <= length data + 1)%nat ->
  forall V ps, Forall2 (line_of stod X Y Z T V) data ps -> (forall p, node_in X Y Z T p -> In p ps) ->
  exists c, current_4d stod stoul eqb (l0 :: l1 :: l2 :: l3 :: l4 :: l5 :: data) = Ok c /\ cg_axes c = Axes x y z n dt /\ table_of t dt c V.
Proof. exact @four_all. Qed.
Print Assumptions C94_4d_partial.

(** in the layout of the documentation the data follow the axes immediately: the node of the first data
    line gets no current *)
Theorem C94_4d_first_line_refuted : forall (tok : Type) (stod : tok -> outcome R) stoul eqb, (forall a b, eqb a b = true <-> a = b) ->
  forall l0 l1 l2 l3 l4 first X Y Z T x y z t data dt n,
  grid_header stod stoul l0 l1 l2 l3 l4 X Y Z T x y z t -> sampling t dt n -> dt <= DBL_MAX -> (Z.of_nat n < 2 ^ 32)%Z ->
  (length X * length Y * length Z * length T <= length (first :: data))%nat ->
  forall V p0 ps, Forall2 (line_of stod X Y Z T V) (first :: data) (p0 :: ps) -> NoDup (p0 :: ps) -> (forall p, node_in X Y Z T p -> In p (p0 :: ps)) ->
  exists c, current_4d stod stoul eqb (l0 :: l1 :: l2 :: l3 :: l4 :: first :: data) = Ok c /\ cg_axes c = Axes x y z n dt /\
    table_of t dt c (fun p => if same_node p0 p then vzero else V p).
Proof.
  intros tok stod stoul eqb He l0 l1 l2 l3 l4 first X Y Z T x y z t data dt n Hh Hs Hd Hn Hl V p0 ps HF Hnd Hall. inversion HF. subst.
  eapply four_first; try eassumption. cbn [length] in Hl. lia.
Qed.
Print Assumptions C94_4d_first_line_refuted.

(** currents added to a wave grid: at every node and instant of the wave grid the velocity grows by that
    of the current there and then; nothing else changes *)
Theorem C94_unify : forall (tok : Type) (stod stof : tok -> outcome R) stoul eqb m lines c w,
  made stod stof stoul eqb m lines c -> cgrid_ok c -> wgrid_ok w ->
  (forall r, (r < nt (wg_axes w))%nat -> readable c (INR r * dtWave (wg_axes w))) ->
  exists w', unify m w c = Ok w' /\ wgrid_ok w' /\ wg_axes w' = wg_axes w /\ wg_zeta w' = wg_zeta w /\ wg_pdyn w' = wg_pdyn w /\
    let a := wg_axes w in
    forall i j k r, (i < length (px a))%nat -> (j < length (py a))%nat -> (k < length (pz a))%nat -> (r < nt a)%nat ->
      exists u, current_kin c (V3 (nth i (px a) 0) (nth j (py a) 0) (nth k (pz a) 0)) (INR r * dtWave a) = Ok (u, vzero) /\
        cell4 vzero (wg_vel w') i j k r = vadd (cell4 vzero (wg_vel w) i j k r) u /\
        cell4 vzero (wg_acc w') i j k r = cell4 vzero (wg_acc w) i j k r.
Proof. intros tok stod stof stoul eqb m lines c w Hm Hc Hw Hr. apply unify_ok; try assumption. exact (made_ok stod stof stoul eqb m lines c Hm). Qed.
Print Assumptions C94_unify.

(* ------------------------------ cases ------------------------------ *)
(** words: an integer and a spelling of it *)
Definition word : Type := Z * bool.
Definition w (z : Z) : word := (z, false).
Definition num (e : word) : outcome R := Ok (IZR (fst e)).
Definition cnt (e : word) : outcome Z := Ok (fst e).
Definition weqb (a b : word) : bool := andb (Z.eqb (fst a) (fst b)) (Bool.eqb (snd a) (snd b)).
Lemma weqb_ok a b : weqb a b = true <-> a = b.
Proof.
  destruct a as [a1 a2], b as [b1 b2]. unfold weqb. cbn [fst snd]. rewrite andb_true_iff, Z.eqb_eq, Bool.eqb_true_iff. split; [intros [-> ->]; reflexivity|]. intros E. inversion E. split; reflexivity.
Qed.
Lemma max_big z : (z <= 1000)%Z -> IZR z <= DBL_MAX.
Proof. intros H. unfold DBL_MAX. apply IZR_le. transitivity 1000%Z; [exact H|]. vm_compute. discriminate. Qed.

Definition srows : list (R * v3) := [(-10, V3 1 0 0); (0, V3 0 0 0)].
Definition sbody : list (list word) := [[w (-10); w 1]; [w 0; w 0; w 0; w 0]].
Lemma sbody_ok : Forall2 (steady_means num) sbody srows.
Proof. repeat constructor; cbn; lia. Qed.
Example steady_case : exists G, steady_current num ([] :: [] :: [] :: sbody) = Ok G /\ forall x y t, current_kin G (V3 x y (-5)) t = Ok (V3 (1 / 2) 0 0, vzero).
Proof.
  destruct (C94_steady_partial word num [] [] [] sbody srows sbody_ok) as (G & E & F); [discriminate| |].
  - intros i j H. cbn in H. assert (i = 0%nat) as -> by lia. assert (j = 1%nat) as -> by lia. cbn. lra.
  - exists G. split; [exact E|]. intros x y t. destruct (F (V3 x y (-5)) t) as ([a b c] & -> & (_ & _ & A) & (_ & _ & B) & (_ & _ & C)). 
    specialize (A 0%nat ltac:(cbn; lia) ltac:(cbn; lra)). specialize (B 0%nat ltac:(cbn; lia) ltac:(cbn; lra)). specialize (C 0%nat ltac:(cbn; lia) ltac:(cbn; lra)). cbn in A, B, C.
    f_equal. f_equal. f_equal; lra.
Qed.
Definition drows : list (R * v3) := [(0, V3 0 0 0); (-10, V3 1 0 0)].
Definition dbody : list (list word) := [[w 0; w 0; w 0; w 0]; [w (-10); w 1]].
Example descending_case : exists G, steady_current num ([] :: [] :: [] :: dbody) = Ok G /\ forall x y t, current_kin G (V3 x y (-5)) t = Ok (vzero, vzero).
Proof.
  destruct (C94_descending_refuted word num [] [] [] dbody drows) as (G & E & F).
  - repeat constructor; cbn; lia.
  - cbn. lia.
  - intros i j H. cbn in H. assert (i = 0%nat) as -> by lia. assert (j = 1%nat) as -> by lia. cbn. lra.
  - exists G. split; [exact E|]. intros x y t. rewrite F. cbn [vz drows map fst snd nth]. destruct (Rle_dec (-5) 0); [reflexivity|lra].
Qed.
Example columns_case : steady_current num ([] :: [] :: [] :: sbody ++ [[w 5]]) = Throw ExInputFile.
Proof. apply (C94_columns word num [] [] [] sbody srows [w 5] [] sbody_ok). cbn. lia. Qed.

(** one depth, times 0 and 10, velocities 0 and 1 *)
Definition yfile : list (list word) := [[]; []; []; []; [w (-5)]; []; [w 0; w 0]; [w 10; w 1]].
Definition yU (k i : nat) : v3 := V3 (INR i) 0 0.
Lemma yfile_ok : dynamic_file num yfile num [-5] (even_times 2 10) yU.
Proof.
  exists [], [], [], [], [w (-5)], [], [[w 0; w 0]; [w 10; w 1]]. split; [reflexivity|]. split; [repeat constructor|]. split; [reflexivity|].
  intros i Hi. change (length (even_times 2 10)) with 2%nat in Hi. rewrite even_nth by exact Hi. split; [left; destruct i as [|[|i]]; [reflexivity|reflexivity|lia]|].
  destruct i as [|[|i]]; [| |lia]; (split; [unfold column_is; cbn; unfold num; cbn; f_equal; ring|]); intros k Hk; cbn in Hk; assert (k = 0%nat) as -> by lia; cbn; unfold num; cbn; repeat split.
Qed.
Lemma lin_one p b x y : lin_interp [p] [b] x y -> y = b.
Proof. intros (A & B & _). cbn in A, B. destruct (Rle_lt_dec x p) as [H|H]; [exact (A H)|apply B; lra]. Qed.
Lemma vinterp_one p v x u : vinterp [p] [v] x u -> u = v.
Proof. intros (A & B & C). apply v3_eq; [exact (lin_one _ _ _ _ A)|exact (lin_one _ _ _ _ B)|exact (lin_one _ _ _ _ C)]. Qed.
Example dynamic_case : exists G, dynamic_current num num yfile = Ok G /\ (forall pos t, 0 <= t < 10 -> current_kin G pos t = Ok (V3 (t / 10) 0 0, vzero)) /\
  (forall pos t, 10 <= t < 20 -> current_kin G pos t = Ok (vzero, vzero)).
Proof.
  assert (I : increasing [-5]) by (intros i j H; cbn in H; lia).
  destruct (C94_dynamic_flow_partial word num num yfile [-5] yU 10 2 yfile_ok) as (G & E & F); [discriminate|exact I|lia|split; [lra|apply max_big; lia]|lia|].
  destruct (C94_dynamic_end_refuted word num num yfile [-5] yU 10 2 yfile_ok) as (G' & E' & F'); [discriminate|exact I|lia|split; [lra|apply max_big; lia]|lia|].
  assert (G' = G) as -> by congruence. exists G. split; [exact E|]. split; intros pos t Ht.
  - destruct (F pos t) as (us & u & Eu & L & V & W); [cbn [Nat.sub INR]; lra|]. destruct us as [|v [|? ?]]; cbn in L; try lia. specialize (V 0%nat ltac:(cbn; lia)).
    apply vinterp_one in W. subst v. rewrite Eu. destruct u as [a b c]. destruct V as ((_ & _ & A) & (_ & _ & B) & (_ & _ & C)).
    specialize (A 0%nat ltac:(cbn; lia) ltac:(cbn; lra)). specialize (B 0%nat ltac:(cbn; lia) ltac:(cbn; lra)). specialize (C 0%nat ltac:(cbn; lia) ltac:(cbn; lra)). cbn in A, B, C.
    f_equal. f_equal. f_equal; lra.
  - destruct (F' pos t) as (u & Eu & W); [cbn [Nat.sub INR]; lra|]. apply vinterp_one in W. rewrite Eu, W. reflexivity.
Qed.
(** the current changes with time and its acceleration is zero: no acceleration is ever derived from the
    velocities of a dynamic profile *)
Theorem C94_dynamic_acceleration_refuted : exists lines G, dynamic_current num num lines = Ok G /\
  (forall pos t, 0 <= t < 10 -> current_kin G pos t = Ok (V3 (t / 10) 0 0, vzero)).
Proof. destruct dynamic_case as (G & E & F & _). exists yfile, G. split; [exact E|exact F]. Qed.
Print Assumptions C94_dynamic_acceleration_refuted.

(** a 4D file: depths -3 and 0, times 0 and 15 *)
Definition qX : list word := [w 0]. Definition qZ : list word := [w (-3); w 0]. Definition qT : list word := [w 0; w 15].
Definition qhead : list word := [w 1; w 1; w 2; w 2].
Lemma q_header : grid_header num cnt qhead qX qX qZ qT qX qX qZ qT [0] [0] [-3; 0] [0; 15].
Proof.
  assert (I1 : increasing [0]) by (intros i j H; cbn in H; lia).
  assert (I2 : forall a b, a < b -> increasing [a; b]) by (intros a b L i j H; cbn in H; assert (i = 0%nat) as -> by lia; assert (j = 1%nat) as -> by lia; exact L).
  assert (N1 : NoDup qX) by (repeat constructor; intros []).
  assert (N2 : NoDup qZ) by (repeat constructor; [intros [H|[]]; discriminate|intros []]).
  assert (N3 : NoDup qT) by (repeat constructor; [intros [H|[]]; discriminate|intros []]).
  split; [exists (w 1), (w 1), (w 2), (w 2), []; repeat split|].
  repeat split; try lia; try (exists []; reflexivity); try assumption; try (repeat constructor); try discriminate; apply I2; lra.
Qed.
Lemma q_sampling : sampling [0; 15] 15 2.
Proof.
  assert (E : [0; 15] = even_times 2 15) by (unfold even_times, tabulate; cbn; f_equal; [ring|f_equal; ring]). rewrite E. apply even_sampling; [lia|lra].
Qed.
Definition qV (p : nat * nat * nat * nat) : v3 := let '(_, _, k, r) := p in V3 (INR k + 2 * INR r + 1) 0 0.
Definition qline (z t u : Z) : list word := [w 0; w 0; w z; w t; w u; w 0; w 0].
Definition qdata : list (list word) := [qline (-3) 0 1; qline 0 0 2; qline (-3) 15 3; qline 0 15 4].
Definition qnodes : list (nat * nat * nat * nat) := [(0, 0, 0, 0); (0, 0, 1, 0); (0, 0, 0, 1); (0, 0, 1, 1)]%nat.
Lemma qdata_ok : Forall2 (line_of num qX qX qZ qT qV) qdata qnodes.
Proof.
  repeat constructor; unfold line_of; (eexists; eexists; eexists; eexists; repeat (split; [reflexivity|])); (eexists; eexists; eexists; eexists; split; [reflexivity|]);
    cbn; unfold num; cbn; repeat split; f_equal; ring.
Qed.
Lemma qnodes_all p : node_in qX qX qZ qT p -> In p qnodes.
Proof.
  destruct p as [[[i j] k] r]. intros (A & B & C & D). cbn in A, B, C, D. destruct i as [|i]; [|lia]. destruct j as [|j]; [|lia].
  destruct k as [|[|k]]; [| |lia]; (destruct r as [|[|r]]; [| |lia]); cbn; auto 6.
Qed.
Example four_case : exists c, current_4d num cnt weqb (qhead :: qX :: qX :: qZ :: qT :: [] :: qdata) = Ok c /\ table_of [0; 15] 15 c qV.
Proof.
  destruct (C94_4d_partial word num cnt weqb weqb_ok _ _ _ _ _ [] _ _ _ _ _ _ _ _ qdata 15 2 q_header q_sampling) with (V := qV) (ps := qnodes) as (c & E & _ & F);
    [apply max_big; lia|lia|cbn; lia|exact qdata_ok|exact qnodes_all|]. exists c. split; [exact E|exact F].
Qed.
Example four_documented_case : exists c, current_4d num cnt weqb (qhead :: qX :: qX :: qZ :: qT :: qdata) = Ok c /\ cell4 vzero (cg_vel c) 0 0 0 0 = vzero.
Proof.
  destruct (C94_4d_first_line_refuted word num cnt weqb weqb_ok qhead qX qX qZ qT (qline (-3) 0 1) _ _ _ _ _ _ _ _ (tl qdata) 15 2 q_header q_sampling) with (V := qV) (p0 := (0, 0, 0, 0)%nat) (ps := tl qnodes) as (c & E & Ea & F);
    [apply max_big; lia|lia|cbn; lia|exact qdata_ok| |exact qnodes_all|].
  - repeat constructor; cbn; intros H; repeat destruct H as [H|H]; try discriminate; contradiction.
  - exists c. split; [exact E|]. destruct F as (_ & _ & _ & F). rewrite Ea in F. specialize (F 0 0 0 0)%nat. cbn [px py pz nt length] in F.
    specialize (F ltac:(lia) ltac:(lia) ltac:(lia) ltac:(lia)). 
    replace (INR 0 * 15) with (nth 0 [0; 15] 0) in F by (cbn; ring). apply vinterp_node in F; [exact F| |cbn; lia].
    intros i j H; cbn in H; assert (i = 0%nat) as -> by lia; assert (j = 1%nat) as -> by lia; cbn; lra.
Qed.
(** the example of the documentation writes a depth as 0 in the axis and -0 in the data: these words are
    the number 0, but their current goes to the first depth, and depth 0 gets none *)
Definition mzero : word := (0%Z, true).
Definition qodd : list (list word) := [qline (-3) 0 1; [w 0; w 0; mzero; w 0; w 2; w 0; w 0]; qline (-3) 15 3; [w 0; w 0; mzero; w 15; w 4; w 0; w 0]].
Theorem C94_4d_unknown_word_refuted : num mzero = num (w 0) /\
  exists c, current_4d num cnt weqb (qhead :: qX :: qX :: qZ :: qT :: [] :: qodd) = Ok c /\ cg_axes c = Axes [0] [0] [-3; 0] 2 15 /\
  cell4 vzero (cg_vel c) 0 0 0 0 = V3 2 0 0 /\ cell4 vzero (cg_vel c) 0 0 1 0 = vzero /\ cell4 vzero (cg_vel c) 0 0 0 1 = V3 4 0 0 /\ cell4 vzero (cg_vel c) 0 0 1 1 = vzero.
Proof.
  split; [reflexivity|].
  assert (I : increasing [0; 15]) by (intros i j H; cbn in H; assert (i = 0%nat) as -> by lia; assert (j = 1%nat) as -> by lia; cbn; lra).
  destruct (C94_4d_table word num cnt weqb weqb_ok _ _ _ _ _ [] _ _ _ _ _ _ _ _ qodd 15 2 q_header q_sampling)
    with (ws := [((0, 0, 0, 0)%nat, V3 1 0 0); ((0, 0, 0, 0)%nat, V3 2 0 0); ((0, 0, 0, 1)%nat, V3 3 0 0); ((0, 0, 0, 1)%nat, V3 4 0 0)]) as (c & E & Ea & F);
    [apply max_big; lia|lia|cbn; lia| |].
  - assert (N : ~ In mzero qZ) by (intros [H|[H|[]]]; discriminate).
    assert (G : forall z t u, nth_error qZ 0 = Some (w z) -> forall r, nth_error qT r = Some (w t) -> row_at num qX qX qZ qT (qline z t u) ((0, 0, 0, r)%nat, V3 (IZR u) 0 0)).
    { intros z t u Hz r Hr. exists (w 0), (w 0), (w z), (w t). split; [exists (w u), (w 0), (w 0), []; repeat split|]. cbn [fst]. repeat split; left; try reflexivity; assumption. }
    assert (G' : forall t u r, nth_error qT r = Some (w t) -> row_at num qX qX qZ qT [w 0; w 0; mzero; w t; w u; w 0; w 0] ((0, 0, 0, r)%nat, V3 (IZR u) 0 0)).
    { intros t u r Hr. exists (w 0), (w 0), mzero, (w t). split; [exists (w u), (w 0), (w 0), []; repeat split|]. cbn [fst]. split; [left; reflexivity|]. split; [left; reflexivity|].
      split; [right; split; [exact N|reflexivity]|left; exact Hr]. }
    constructor; [apply G; reflexivity|]. constructor; [apply G'; reflexivity|]. constructor; [apply G; reflexivity|]. constructor; [apply G'; reflexivity|constructor].
  - exists c. split; [exact E|]. split; [exact Ea|]. destruct F as (_ & _ & _ & F). rewrite Ea in F. cbn [px py pz nt length] in F.
    assert (K : forall k r, (k < 2)%nat -> (r < 2)%nat -> cell4 vzero (cg_vel c) 0 0 k r = latest [((0, 0, 0, 0)%nat, V3 1 0 0); ((0, 0, 0, 0)%nat, V3 2 0 0); ((0, 0, 0, 1)%nat, V3 3 0 0); ((0, 0, 0, 1)%nat, V3 4 0 0)] (0, 0, k, r)%nat).
    { intros k r Hk Hr. specialize (F 0 0 k r ltac:(lia) ltac:(lia) Hk Hr)%nat.
      replace (INR r * 15) with (nth r [0; 15] 0) in F by (destruct r as [|[|r]]; [cbn; ring|cbn; ring|lia]).
      apply vinterp_node in F; [|exact I|exact Hr]. rewrite F. rewrite tab_nth by exact Hr. reflexivity. }
    repeat split; (rewrite K by lia); reflexivity.
Qed.
Print Assumptions C94_4d_unknown_word_refuted.

(** a steady current added to still water *)
Definition calm : wgrid := WGrid (Axes [0] [0] [-5] 2 1) [[[0; 0]]] [[[[0; 0]]]] (cleared 1 1 1 2) (cleared 1 1 1 2).
Definition sgrid : cgrid := CGrid (Axes [0] [0] [-10; 0] 1 1) [[[[V3 1 0 0]; [V3 0 0 0]]]] (cleared 1 1 2 1).
Lemma sgrid_made : made num num cnt weqb CSteady ([] :: [] :: [] :: sbody) sgrid.
Proof. reflexivity. Qed.
Lemma one_incr a : increasing [a].
Proof. intros i j H. cbn in H. lia. Qed.
Example unify_case : cgrid_ok sgrid /\ wgrid_ok calm /\ (forall r, (r < nt (wg_axes calm))%nat -> readable sgrid (INR r * dtWave (wg_axes calm))) /\
  exists w', unify CSteady calm sgrid = Ok w' /\ cell4 vzero (wg_vel w') 0 0 0 1 = V3 (1 / 2) 0 0.
Proof.
  assert (I : increasing [-10; 0]) by (intros i j H; cbn in H; assert (i = 0%nat) as -> by lia; assert (j = 1%nat) as -> by lia; cbn; lra).
  assert (C : cgrid_ok sgrid).
  { split; [repeat split; cbn; try discriminate; try apply one_incr; exact I|]. split; repeat constructor. }
  assert (W : wgrid_ok calm).
  { split; [repeat split; cbn; try discriminate; apply one_incr|]. repeat split; repeat constructor. }
  assert (Rd : forall r, (r < nt (wg_axes calm))%nat -> readable sgrid (INR r * dtWave (wg_axes calm))) by (intros r _; left; reflexivity).
  split; [exact C|]. split; [exact W|]. split; [exact Rd|].
  destruct (C94_unify word num num cnt weqb CSteady ([] :: [] :: [] :: sbody) sgrid calm sgrid_made C W Rd) as (w' & E & _ & _ & _ & _ & F).
  exists w'. split; [exact E|]. cbv zeta in F. destruct (F 0 0 0 1)%nat as (u & Eu & Ev & _); cbn; try lia. cbn [calm wg_axes px py pz nth] in Eu.
  destruct steady_case as (G & EG & FG). assert (G = sgrid) as -> by (pose proof sgrid_made as S; unfold made in S; congruence).
  rewrite FG in Eu. rewrite Ev. assert (u = V3 (1 / 2) 0 0) as -> by congruence. unfold vadd. cbn. f_equal; lra.
Qed.
