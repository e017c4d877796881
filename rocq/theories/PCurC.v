(** 4D currents and their addition to wave grids: proofs. *)
From Coq Require Import Reals ZArith List Arith Bool Lra Lia.
From Verif Require Import MErr MVec MStateOps MInterp MSeafloor MWaves MSpec MCur SInterp PInterp SWaves SWavesG SSpecB SCur PWaves PWavesB PSpecB PFill PCur PCurB.
Import ListNotations.
Open Scope R_scope.

(* ------------------------------ writing in tables ------------------------------ *)
Lemma vset_spec {A} (l : list A) i a d : (i < length l)%nat -> exists l', vset l i a = Ok l' /\ length l' = length l /\ forall j, nth j l' d = if Nat.eqb i j then a else nth j l d.
Proof.
  revert i. induction l as [|b l IH]; intros i Hi; [cbn in Hi; lia|]. destruct i as [|i].
  - exists (a :: l). split; [reflexivity|]. split; [reflexivity|]. intros [|j]; reflexivity.
  - destruct (IH i) as (l' & E & L & N); [cbn in Hi; lia|]. cbn [vset]. rewrite E. cbn [obind]. exists (b :: l'). split; [reflexivity|]. split; [cbn; lia|].
    intros [|j]; [reflexivity|]. cbn [nth Nat.eqb]. apply N.
Qed.
Lemma forall_set {A} (P : A -> Prop) l l' i a d : Forall P l -> P a -> length l' = length l -> (forall j, nth j l' d = if Nat.eqb i j then a else nth j l d) -> Forall P l'.
Proof.
  intros H Ha L N. apply Forall_forall. intros b Hb. apply (In_nth _ _ d) in Hb. destruct Hb as (j & Hj & <-). rewrite N. destruct (Nat.eqb i j); [exact Ha|].
  rewrite Forall_forall in H. apply H. apply nth_In. lia.
Qed.
Lemma forall_nth {A} (P : A -> Prop) l i d : Forall P l -> (i < length l)%nat -> P (nth i l d).
Proof. intros H Hi. rewrite Forall_forall in H. apply H. apply nth_In. exact Hi. Qed.
Lemma vset4_spec {A} (d : A) n m l w t i j k r a : shape4 n m l w t -> (i < n)%nat -> (j < m)%nat -> (k < l)%nat -> (r < w)%nat ->
  exists t', vset4 t i j k r a = Ok t' /\ shape4 n m l w t' /\
    forall i' j' k' r', cell4 d t' i' j' k' r' = if andb (andb (Nat.eqb i i') (Nat.eqb j j')) (andb (Nat.eqb k k') (Nat.eqb r r')) then a else cell4 d t i' j' k' r'.
Proof.
  intros (L1 & S1) Hi Hj Hk Hr. pose proof (forall_nth _ _ i [] S1 ltac:(lia)) as (L2 & S2). pose proof (forall_nth _ _ j [] S2 ltac:(lia)) as (L3 & S3).
  pose proof (forall_nth _ _ k [] S3 ltac:(lia)) as L4. unfold shape1 in L4.
  unfold vset4. rewrite (vget_nth t i []) by lia. cbn [obind]. rewrite (vget_nth (nth i t []) j []) by lia. cbn [obind].
  rewrite (vget_nth (nth j (nth i t []) []) k []) by lia. cbn [obind].
  destruct (vset_spec (nth k (nth j (nth i t []) []) []) r a d) as (t3 & E3 & M3 & N3); [lia|]. rewrite E3. cbn [obind].
  destruct (vset_spec (nth j (nth i t []) []) k t3 []) as (t2 & E2 & M2 & N2); [lia|]. rewrite E2. cbn [obind].
  destruct (vset_spec (nth i t []) j t2 []) as (t1 & E1 & M1 & N1); [lia|]. rewrite E1. cbn [obind].
  destruct (vset_spec t i t1 []) as (t0 & E0 & M0 & N0); [lia|]. exists t0. split; [exact E0|]. split.
  - split; [lia|]. apply (forall_set _ t t0 i t1 []); [exact S1| |exact M0|exact N0]. split; [lia|]. apply (forall_set _ (nth i t []) t1 j t2 []); [exact S2| |exact M1|exact N1].
    split; [lia|]. apply (forall_set _ (nth j (nth i t []) []) t2 k t3 []); [exact S3| |exact M2|exact N2]. unfold shape1. lia.
  - intros i' j' k' r'. unfold cell4, cell3. rewrite N0. destruct (Nat.eqb_spec i i') as [<-|_]; [|reflexivity]. rewrite N1. destruct (Nat.eqb_spec j j') as [<-|_]; [|reflexivity].
    rewrite N2. destruct (Nat.eqb_spec k k') as [<-|_]; [|reflexivity]. rewrite N3. destruct (Nat.eqb_spec r r') as [<-|_]; reflexivity.
Qed.

Section FourD.
Context {tok : Type}.
Variables (stod : tok -> outcome R) (stoul : tok -> outcome Z) (eqb : tok -> tok -> bool).
Hypothesis Heq : forall a b, eqb a b = true <-> a = b.
Lemma find_absent keys i k f : ~ In k keys -> find_last eqb keys i k f = f.
Proof.
  revert i f. induction keys as [|a r IH]; intros i f H; [reflexivity|]. cbn [find_last]. destruct (eqb a k) eqn:E.
  - exfalso. apply H. left. apply Heq. exact E.
  - apply IH. intros Hr. apply H. right. exact Hr.
Qed.
Lemma find_present keys k j : NoDup keys -> nth_error keys j = Some k -> forall i f, find_last eqb keys i k f = (i + j)%nat.
Proof.
  revert j. induction keys as [|a r IH]; intros j N E i f; [destruct j; discriminate|]. inversion N as [|x l Na Nr]. subst. cbn [find_last]. destruct j as [|j]; cbn [nth_error] in E.
  - assert (a = k) as -> by congruence. rewrite (proj2 (Heq k k) eq_refl). rewrite find_absent by exact Na. lia.
  - destruct (eqb a k) eqn:Ea.
    + exfalso. apply Heq in Ea. subst. apply Na. apply nth_error_In in E. exact E.
    + rewrite (IH j Nr E). lia.
Qed.
Lemma index_ok keys k i : NoDup keys -> stands_for keys k i -> axis_index eqb keys k = i.
Proof. intros N [H|[H ->]]; unfold axis_index; [rewrite (find_present keys k i N H); reflexivity|apply find_absent; exact H]. Qed.
Lemma index_bound keys (k : tok) i : keys <> [] -> stands_for keys k i -> (i < length keys)%nat.
Proof. intros N [H|[H ->]]; [apply nth_error_Some; congruence|destruct keys; [congruence|cbn; lia]]. Qed.
Lemma words_ok (words rest : list tok) : axis_words (words ++ rest) (length words) = Ok words.
Proof.
  unfold axis_words. cut (forall pre, oeach (vget (pre ++ words ++ rest)) (seq (length pre) (length words)) = Ok words); [intros C; exact (C [])|].
  induction words as [|w ws IH]; intros pre; [reflexivity|]. cbn [length seq oeach]. unfold vget at 1. rewrite nth_error_app2 by lia. rewrite Nat.sub_diag. cbn [app nth_error obind].
  specialize (IH (pre ++ [w])). rewrite app_length in IH. cbn [length] in IH. replace (length pre + 1)%nat with (S (length pre)) in IH by lia.
  rewrite <- app_assoc in IH. cbn [app] in IH. rewrite IH. reflexivity.
Qed.
Lemma axis_read line words values : axis_line stod line words values -> axis_words line (length words) = Ok words /\ oeach stod words = Ok values /\ length words = length values.
Proof.
  intros ((rest & ->) & _ & F & _). split; [apply words_ok|]. split; [apply oeach_ok; exact F|]. revert F. clear. induction 1; cbn; congruence.
Qed.
Section Lines.
Variables X Y Z T : list tok.
Hypothesis (NX : NoDup X) (NY : NoDup Y) (NZ : NoDup Z) (NT : NoDup T).
Hypothesis (EX : X <> []) (EY : Y <> []) (EZ : Z <> []) (ET : T <> []).
Lemma lines_ok data ws : Forall2 (row_at stod X Y Z T) data ws -> forall tab, shape4 (length X) (length Y) (length Z) (length T) tab ->
  exists tab', data_lines stod eqb X Y Z T tab data = Ok tab' /\ shape4 (length X) (length Y) (length Z) (length T) tab' /\
    forall i j k t, cell4 vzero tab' i j k t = fold_left (fun acc w => if same_node (fst w) (i, j, k, t) then snd w else acc) ws (cell4 vzero tab i j k t).
Proof.
  induction 1 as [|row w data ws Hrow _ IH]; intros tab S.
  - exists tab. split; [reflexivity|]. split; [exact S|]. reflexivity.
  - cbn [data_lines]. destruct w as [[[[i j] k] t] u]. destruct Hrow as (e0 & e1 & e2 & e3 & (e4 & e5 & e6 & rest & -> & V4 & V5 & V6) & Q0 & Q1 & Q2 & Q3).
    cbn [fst snd] in *. unfold data_line. cbn [vget nth_error obind]. rewrite V4. cbn [obind]. rewrite V5. cbn [obind]. rewrite V6. cbn [obind].
    rewrite (index_ok X e0 i), (index_ok Y e1 j), (index_ok Z e2 k), (index_ok T e3 t) by assumption.
    destruct (vset4_spec vzero _ _ _ _ tab i j k t (V3 (vx u) (vy u) (vz u)) S) as (tab1 & E1 & S1 & C1); [eapply index_bound; eassumption..|].
    rewrite E1. cbn [obind]. destruct (IH tab1 S1) as (tab2 & E2 & S2 & C2). exists tab2. split; [exact E2|]. split; [exact S2|].
    intros i' j' k' t'. rewrite C2, C1. cbn [fold_left fst snd same_node]. replace (V3 (vx u) (vy u) (vz u)) with u by (destruct u; reflexivity). reflexivity.
Qed.
End Lines.
Lemma dim_ok line i e m : nth_error line i = Some e -> stoul e = Ok (Z.of_nat m) -> (Z.of_nat m < 2 ^ 32)%Z -> dim stoul line i = Ok m.
Proof. intros E S B. unfold dim, vget. rewrite E. cbn [obind]. rewrite S. cbn [obind]. rewrite Z.mod_small by lia. rewrite Nat2Z.id. reflexivity. Qed.
Lemma four_built d0 d1 d2 d3 dr l1 l2 l3 l4 l5 data X Y Z T x y z t ws dt n :
  stoul d0 = Ok (Z.of_nat (length X)) -> stoul d1 = Ok (Z.of_nat (length Y)) -> stoul d2 = Ok (Z.of_nat (length Z)) -> stoul d3 = Ok (Z.of_nat (length T)) ->
  (Z.of_nat (length X) < 2 ^ 32)%Z -> (Z.of_nat (length Y) < 2 ^ 32)%Z -> (Z.of_nat (length Z) < 2 ^ 32)%Z -> (Z.of_nat (length T) < 2 ^ 32)%Z ->
  axis_line stod l1 X x -> axis_line stod l2 Y y -> axis_line stod l3 Z z -> axis_line stod l4 T t -> (2 <= length t)%nat ->
  sampling t dt n -> dt <= DBL_MAX -> (Z.of_nat n < 2 ^ 32)%Z ->
  (length X * length Y * length Z * length T <= length data + 1)%nat -> Forall2 (row_at stod X Y Z T) data ws ->
  let lines := (d0 :: d1 :: d2 :: d3 :: dr) :: l1 :: l2 :: l3 :: l4 :: l5 :: data in
  exists vel, current_4d stod stoul eqb lines = Ok (CGrid (Axes x y z n dt) vel (cleared (length x) (length y) (length z) n)) /\
    shape4 (length x) (length y) (length z) n vel /\
    forall i j k r, (i < length x)%nat -> (j < length y)%nat -> (k < length z)%nat -> (r < n)%nat ->
      vinterp t (tabulate (length t) (fun it => latest ws (i, j, k, it))) (INR r * dt) (cell4 vzero vel i j k r).
Proof.
  intros D0 D1 D2 D3 B0 B1 B2 B3 A1 A2 A3 A4 Ht Hs Hd Hn Hl Hw lines.
  destruct (axis_read _ _ _ A1) as (W1 & R1 & L1). destruct (axis_read _ _ _ A2) as (W2 & R2 & L2). destruct (axis_read _ _ _ A3) as (W3 & R3 & L3). destruct (axis_read _ _ _ A4) as (W4 & R4 & L4).
  destruct A1 as (_ & N1 & _ & E1 & I1). destruct A2 as (_ & N2 & _ & E2 & I2). destruct A3 as (_ & N3 & _ & E3 & I3). destruct A4 as (_ & N4 & _ & E4 & I4).
  assert (P1 : (0 < length X)%nat) by (destruct X; cbn; [congruence|lia]). assert (P2 : (0 < length Y)%nat) by (destruct Y; cbn; [congruence|lia]).
  assert (P3 : (0 < length Z)%nat) by (destruct Z; cbn; [congruence|lia]).
  destruct (lines_ok X Y Z T N1 N2 N3 N4 E1 E2 E3 E4 data ws Hw (cleared (length X) (length Y) (length Z) (length T)) (cleared_shape _ _ _ _)) as (tab & ET & ST & CT).
  assert (CL : forall i j k t, cell4 vzero tab i j k t = latest ws (i, j, k, t)). { intros i j k r. rewrite CT. rewrite cleared_still. reflexivity. }
  pose proof (gap_pos _ _ I4 (proj1 Hs)) as Pd.
  destruct (oeach_seq (fun ix => oeach (fun iy => oeach (fun iz => c <- vget3 tab ix iy iz ;; time_loop t (map vx c) (map vy c) (map vz c) dt 0 n 1) (seq 0 (length Z))) (seq 0 (length Y)))
    (fun i l => shape3 (length y) (length z) n l /\ forall j k r, (j < length y)%nat -> (k < length z)%nat -> (r < n)%nat -> vinterp t (tabulate (length t) (fun it => latest ws (i, j, k, it))) (INR r * dt) (cell3 vzero l j k r)) [] (length X)) as (vel & EV & LV & HV).
  { intros i Hi.
    destruct (oeach_seq (fun iy => oeach (fun iz => c <- vget3 tab i iy iz ;; time_loop t (map vx c) (map vy c) (map vz c) dt 0 n 1) (seq 0 (length Z)))
      (fun j l => shape2 (length z) n l /\ forall k r, (k < length z)%nat -> (r < n)%nat -> vinterp t (tabulate (length t) (fun it => latest ws (i, j, k, it))) (INR r * dt) (nth r (nth k l []) vzero)) [] (length Y)) as (v2 & EV2 & LV2 & HV2).
    { intros j Hj.
      destruct (oeach_seq (fun iz => c <- vget3 tab i j iz ;; time_loop t (map vx c) (map vy c) (map vz c) dt 0 n 1)
        (fun k l => shape1 n l /\ forall r, (r < n)%nat -> vinterp t (tabulate (length t) (fun it => latest ws (i, j, k, it))) (INR r * dt) (nth r l vzero)) [] (length Z)) as (v3' & EV3 & LV3 & HV3).
      { intros k Hk. destruct ST as (SL1 & SF1). pose proof (forall_nth _ _ i [] SF1 ltac:(lia)) as (SL2 & SF2). pose proof (forall_nth _ _ j [] SF2 ltac:(lia)) as (SL3 & SF3).
        pose proof (forall_nth _ _ k [] SF3 ltac:(lia)) as SL4. unfold shape1 in SL4. unfold vget3, vget2.
        rewrite (vget_nth tab i []) by lia. cbn [obind]. rewrite (vget_nth _ j []) by lia. cbn [obind]. rewrite (vget_nth _ k []) by lia. cbn [obind].
        set (c := nth k (nth j (nth i tab []) []) []) in *.
        destruct (time_loop_v t c dt n I4 Ht ltac:(lia) Pd) as (l & El & Ll & Hl'). exists l. split; [exact El|]. split; [exact Ll|]. intros r Hr.
        replace (tabulate (length t) (fun it => latest ws (i, j, k, it))) with c; [apply Hl'; exact Hr|].
        apply (nth_ext _ _ vzero vzero); [rewrite tab_length; lia|]. intros q Hq. rewrite tab_nth by lia. rewrite <- CL. reflexivity. }
      exists v3'. split; [exact EV3|]. split; [split; [lia|]|].
      - apply Forall_forall. intros a Ha. apply (In_nth _ _ []) in Ha. destruct Ha as (k & Hk & <-). apply HV3. lia.
      - intros k r Hk Hr. apply HV3; [lia|exact Hr]. }
    exists v2. split; [exact EV2|]. split; [split; [lia|]|].
    - apply Forall_forall. intros a Ha. apply (In_nth _ _ []) in Ha. destruct Ha as (j & Hj & <-). apply HV2. lia.
    - intros j k r Hj Hk Hr. unfold cell3. apply HV2; lia. }
  exists vel. split; [|split].
  - unfold current_4d, lines. destruct data as [|dl data]; [exfalso; assert (H := Hl); cbn [length] in H; assert (2 <= length T)%nat by lia; nia|].
    set (dd := dl :: data) in *. replace (Nat.ltb (length (_ :: l1 :: l2 :: l3 :: l4 :: l5 :: dd)) 7) with false by (symmetry; apply Nat.ltb_ge; unfold dd; cbn [length]; lia).
    cbn [vget nth_error obind].
    rewrite (dim_ok _ 0 d0 (length X)), (dim_ok _ 1 d1 (length Y)), (dim_ok _ 2 d2 (length Z)), (dim_ok _ 3 d3 (length T)) by (reflexivity || assumption). cbn [obind].
    rewrite W1. cbn [obind]. rewrite R1. cbn [obind]. rewrite W2. cbn [obind]. rewrite R2. cbn [obind]. rewrite W3. cbn [obind]. rewrite R3. cbn [obind]. rewrite W4. cbn [obind]. rewrite R4. cbn [obind].
    set (p := (Z.of_nat (length X) * Z.of_nat (length Y) * Z.of_nat (length Z) * Z.of_nat (length T))%Z).
    assert (Hp : (p <= Z.of_nat (length dd) + 1)%Z). { unfold p. rewrite <- !Nat2Z.inj_mul. lia. }
    assert (Pp : (0 <= p)%Z) by (unfold p; lia).
    assert (Q1 : ((p mod 2 ^ 32 + 5) mod 2 ^ 32 <= p + 5)%Z).
    { assert (0 <= p mod 2 ^ 32 <= p)%Z by (split; [apply Z.mod_pos_bound; lia|apply Z.mod_le; lia]). transitivity (p mod 2 ^ 32 + 5)%Z; [apply Z.mod_le; lia|lia]. }
    match goal with |- context [Z.ltb ?a ?b] => destruct (Z.ltb_spec a b) as [G|_] end.
    { exfalso. cbn [length] in G. lia. }
    cbn [skipn]. rewrite ET. cbn [obind]. rewrite (time_axis_ok t dt n) by assumption. cbn [obind fst snd].
    unfold allocate. cbn [px py pz nt]. destruct (Nat.eqb_spec (length x) 0); [lia|]. destruct (Nat.eqb_spec (length y) 0); [lia|]. destruct (Nat.eqb_spec (length z) 0); [lia|].
    destruct (Nat.eqb_spec n 0); [destruct Hs as (_ & ? & _); lia|]. cbn [orb obind]. rewrite EV. cbn [obind]. rewrite L1, L2, L3. reflexivity.
  - split; [lia|]. apply Forall_forall. intros a Ha. apply (In_nth _ _ []) in Ha. destruct Ha as (i & Hi & <-). apply HV. lia.
  - intros i j k r Hi Hj Hk Hr. unfold cell4. apply HV; lia.
Qed.
End FourD.
