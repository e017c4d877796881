(** Proofs about the coupling step. *)
From Coq Require Import Reals List Arith Bool ZArith Lra Lia.
From Verif Require Import MErr MVec MInterp PInterp MStateOps MScheme PScheme PStepInv MStep SStep.
Import ListNotations.
Open Scope R_scope.

(** substep loop *)
Lemma Rltb_true a b : Rltb a b = true <-> a < b.
Proof. unfold Rltb. destruct (Rlt_dec a b); split; auto; try discriminate; lra. Qed.
Lemma Rltb_false a b : Rltb a b = false <-> b <= a.
Proof. unfold Rltb. destruct (Rlt_dec a b); split; auto; try discriminate; lra. Qed.
Lemma rsum0_app a b : rsum0 (a ++ b) = rsum0 a + rsum0 b.
Proof. unfold rsum0. rewrite fold_right_app. induction a as [|x a IH]; cbn [fold_right]; [lra|]. rewrite IH. lra. Qed.
Lemma loop_cut X (stp : X -> R -> outcome X) dtM n : 0 < dtM -> forall dt, (INR n * dtM < dt <= INR (S n) * dtM) ->
  exists l, length l = S n /\ rsum0 l = dt /\ Forall (fun d => 0 < d <= dtM) l /\ Forall (fun d => d = dtM) (removelast l) /\
  forall x fuel, (S n < fuel)%nat -> sub_loop R X Rltb Rminus 0 stp fuel dtM x dt = ofold stp l x.
Proof.
  intro HM. induction n as [|n IH]; intros dt Hd.
  - exists [dt]. cbn in Hd. split; [reflexivity|]. split; [cbn; lra|]. split; [constructor; [lra|constructor]|]. split; [constructor|].
    intros x fuel Hf. destruct fuel as [|[|fuel]]; try lia. cbn [sub_loop ofold]. rewrite (proj2 (Rltb_true 0 dt)) by lra.
    rewrite (proj2 (Rltb_false dtM dt)) by lra. destruct (stp x dt); cbn [obind]; try reflexivity.
    rewrite (proj2 (Rltb_false 0 (dt - dt))) by lra. reflexivity.
  - destruct (IH (dt - dtM)) as (l & HL & HS & HF & HR & HE); [rewrite !S_INR in *; lra|].
    exists (dtM :: l). split; [cbn; now rewrite HL|]. split; [change (rsum0 (dtM :: l)) with (dtM + rsum0 l); lra|]. split; [constructor; [lra|exact HF]|].
    split; [destruct l; [discriminate|]; constructor; [reflexivity|exact HR]|].
    assert (0 <= INR n) by apply pos_INR. assert (0 <= INR n * dtM) by nra.
    intros x fuel Hf. destruct fuel as [|fuel]; [lia|]. cbn [sub_loop ofold]. rewrite !S_INR in Hd. rewrite (proj2 (Rltb_true 0 dt)) by lra.
    rewrite (proj2 (Rltb_true dtM dt)) by lra. destruct (stp x dtM); cbn [obind]; try reflexivity. apply HE. lia.
Qed.
Lemma Rcomplements_nat q : exists n, q < INR n.
Proof. exists (Z.to_nat (up q)). destruct (archimed q) as [A _]. destruct (Z_le_dec 0 (up q)) as [H|H]; [rewrite INR_IZR_INZ, Z2Nat.id by lia; lra|].
  assert (H' : (up q <= 0)%Z) by lia. apply IZR_le in H'. pose proof (pos_INR (Z.to_nat (up q))). lra. Qed.
Lemma ceil_exists dtM dt : 0 < dtM -> 0 < dt -> exists n, INR n * dtM < dt <= INR (S n) * dtM.
Proof.
  intros HM Hd. destruct (Rcomplements_nat (dt / dtM)) as [N HN].
  assert (HN' : dt <= INR N * dtM). { apply (Rmult_lt_compat_r dtM) in HN; [|lra]. unfold Rdiv in HN. rewrite Rmult_assoc, Rinv_l in HN; lra. }
  clear HN. induction N as [|N IH]; [cbn in HN'; lra|]. destruct (Rle_dec dt (INR N * dtM)) as [H|H]; [now apply IH|]. exists N. split; [lra|exact HN'].
Qed.
Lemma loop_exact X (stp : X -> R -> outcome X) dtM dt : 0 < dtM -> 0 < dt ->
  exists l, cut dtM dt l /\ forall x fuel, (length l < fuel)%nat -> sub_loop R X Rltb Rminus 0 stp fuel dtM x dt = ofold stp l x.
Proof.
  intros HM Hd. destruct (ceil_exists dtM dt HM Hd) as [n Hn]. destruct (loop_cut X stp dtM n HM dt Hn) as (l & HL & HS & HF & HR & HE).
  exists l. split; [|rewrite HL; exact HE]. split; [exact HF|]. split; [exact HS|]. split; [exact HR|]. rewrite HL, !S_INR in *. lra.
Qed.
Lemma ofold_collect l l0 : ofold (fun l (d : R) => Ok (l ++ [d])) l l0 = Ok (l0 ++ l).
Proof. revert l0; induction l as [|d l IH]; intro l0; cbn; [now rewrite app_nil_r|]. rewrite IH, <- app_assoc. reflexivity. Qed.
Lemma substeps_exact dtM dt : 0 < dtM -> 0 < dt -> exists l, cut dtM dt l /\ forall fuel, (length l < fuel)%nat -> substeps fuel dtM dt = Ok l.
Proof.
  intros HM Hd. destruct (loop_exact (list R) (fun l d => Ok (l ++ [d])) dtM dt HM Hd) as (l & HC & HE). exists l. split; [exact HC|].
  intros fuel Hf. unfold substeps. rewrite HE by exact Hf. apply ofold_collect.
Qed.
(** same answer with any sufficient fuel, in particular the result is unique *)
Lemma loop_inv X (stp : X -> R -> outcome X) dtM fuel dt x x' : sub_loop R X Rltb Rminus 0 stp fuel dtM x dt = Ok x' ->
  exists l, ofold stp l x = Ok x' /\ (0 < dtM -> Forall (fun d => 0 < d <= dtM) l) /\ (0 <= dt -> rsum0 l = dt).
Proof.
  revert dt x; induction fuel as [|fuel IH]; intros dt x H; [discriminate|]. cbn [sub_loop] in H.
  destruct (Rltb 0 dt) eqn:E; [|injection H as <-; exists []; split; [reflexivity|]; split; [constructor|]; intro; apply Rltb_false in E; cbn; lra].
  apply Rltb_true in E. destruct (stp x (if Rltb dtM dt then dtM else dt)) as [y| | |] eqn:Es; cbn [obind] in H; try discriminate.
  destruct (Rltb dtM dt) eqn:El; [apply Rltb_true in El|apply Rltb_false in El]; apply IH in H as (l & H1 & H2 & H3).
  - exists (dtM :: l). split; [cbn; now rewrite Es|]. split; [intro HM; constructor; [lra|auto]|]. intros _. change (rsum0 (dtM :: l)) with (dtM + rsum0 l). rewrite H3 by lra. lra.
  - exists (dt :: l). split; [cbn; now rewrite Es|]. split; [intro HM; constructor; [lra|auto]|]. intros _. change (rsum0 (dt :: l)) with (dt + rsum0 l). rewrite H3 by lra. lra.
Qed.
Lemma loop_stuck X (stp : X -> R -> outcome X) dtM dt : dtM <= 0 -> 0 < dt -> (forall x d, exists x', stp x d = Ok x') ->
  forall fuel x, sub_loop R X Rltb Rminus 0 stp fuel dtM x dt = Diverges.
Proof.
  intros HM Hd HO fuel. revert dt Hd; induction fuel as [|fuel IH]; intros dt Hd x; [reflexivity|]. cbn [sub_loop].
  rewrite (proj2 (Rltb_true 0 dt) Hd), (proj2 (Rltb_true dtM dt)) by lra. destruct (HO x dtM) as (x' & ->). cbn [obind]. apply IH. lra.
Qed.

(** coupled degrees of freedom *)
Lemma vget_skip (x : list R) i : vget x i = match skipn i x with a :: _ => Ok a | [] => UB end.
Proof. unfold vget. revert i; induction x as [|a x IH]; intros [|i]; cbn; auto. Qed.
Lemma skip_split (x : list R) i n : (i + n <= length x)%nat -> exists a r, skipn i x = a ++ r /\ length a = n /\ skipn (i + n) x = r.
Proof.
  intro H. exists (firstn n (skipn i x)), (skipn n (skipn i x)). split; [symmetry; apply firstn_skipn|]. split; [rewrite firstn_length, skipn_length; lia|].
  rewrite Nat.add_comm. clear. revert i; induction x as [|a x IH]; intros [|i]; cbn; rewrite ?skipn_nil, ?Nat.add_0_r; auto. rewrite Nat.add_succ_r. cbn. apply IH.
Qed.
Lemma skipn_skipn' (x : list R) i n : skipn n (skipn i x) = skipn (i + n) x.
Proof. revert i; induction x as [|a x IH]; intros [|i]; cbn; rewrite ?skipn_nil; auto. Qed.
Lemma rd3_ok x i : (i + 3 <= length x)%nat -> exists v, rd3 x i = Ok v /\ lst3 v = firstn 3 (skipn i x).
Proof.
  intro H. destruct (skip_split x i 3 H) as (a & r & E & L & _). destruct a as [|a [|b [|c [|]]]]; try discriminate.
  exists (V3 a b c). unfold rd3. rewrite !vget_skip, <- !skipn_skipn', E. cbn. split; reflexivity.
Qed.
Lemma firstn_add {A} (l : list A) n m : firstn (n + m) l = firstn n l ++ firstn m (skipn n l).
Proof. revert l; induction n as [|n IH]; intro l; [reflexivity|]. destruct l; cbn; [now rewrite firstn_nil|]. now rewrite IH. Qed.
Lemma rd6_ok x i : (i + 6 <= length x)%nat -> exists v, rd6 x i = Ok v /\ lst6 v = firstn 6 (skipn i x).
Proof.
  intro H. destruct (rd3_ok x i) as (a & E1 & F1); [lia|]. destruct (rd3_ok x (i + 3)) as (b & E2 & F2); [lia|].
  exists (V6 a b). unfold rd6. rewrite E1, E2. cbn [obind]. split; [reflexivity|]. unfold lst6. cbn [v6hd v6tl]. rewrite F1, F2.
  change 6%nat with (3 + 3)%nat. now rewrite firstn_add, skipn_skipn'.
Qed.
Lemma rd3_short x i : (i < length x + 3)%nat -> (length x < i + 3)%nat -> rd3 x i = UB.
Proof.
  intros _ H. unfold rd3, vget. destruct (nth_error x i) eqn:E0; [cbn [obind]|reflexivity]. destruct (nth_error x (i + 1)) eqn:E1; [cbn [obind]|reflexivity].
  destruct (nth_error x (i + 2)) eqn:E2; [|reflexivity]. exfalso. assert (nth_error x (i + 2) <> None) by congruence. apply nth_error_Some in H0. lia.
Qed.
Definition sets (acc : v6 -> v6 -> v6) (b b' : cobj) : Prop :=
  full b' = full b /\ c_pos b' = c_pos b /\ c_vel b' = c_vel b /\ c_acc b' = c_acc b.
Lemma init_full b r rd a : full b = true -> let b' := initiate b r rd a in full b' = true /\ entries b' (r_ves b') = lst6 r /\ entries b' (rd_ves b') = lst6 rd.
Proof. intro E. unfold initiate, entries. rewrite E. now repeat split. Qed.
Lemma init_pin b r rd a : full b = false -> let b' := initiate b (V6 r vzero) (V6 rd vzero) a in full b' = false /\ entries b' (r_ves b') = lst3 r /\ entries b' (rd_ves b') = lst3 rd.
Proof. intro E. unfold initiate, entries. rewrite E. now repeat split. Qed.
Lemma take_objs_ok acc bs x xd ix : (ix + list_sum (map dof bs) <= length x)%nat -> (ix + list_sum (map dof bs) <= length xd)%nat ->
  exists bs', take_objs acc bs x xd ix = Ok (bs', (ix + list_sum (map dof bs))%nat) /\ map full bs' = map full bs /\
    flat_map (fun b => entries b (r_ves b)) bs' = firstn (list_sum (map dof bs)) (skipn ix x) /\
    flat_map (fun b => entries b (rd_ves b)) bs' = firstn (list_sum (map dof bs)) (skipn ix xd).
Proof.
  revert ix; induction bs as [|b bs IH]; intros ix H1 H2; [exists []; cbn; rewrite Nat.add_0_r; now repeat split|].
  cbn [map] in *. change (list_sum (dof b :: map dof bs)) with (dof b + list_sum (map dof bs))%nat in *.
  destruct (IH (ix + dof b)%nat) as (bs' & E & F & G1 & G2); [lia|lia|]. cbn [take_objs].
  unfold dof in *. destruct (full b) eqn:Eb.
  - destruct (rd6_ok x ix) as (r & Er & Fr); [lia|]. destruct (rd6_ok xd ix) as (rd & Ed & Fd); [lia|]. rewrite Er, Ed. cbn [obind fst snd]. rewrite E. cbn [obind fst snd].
    eexists; split; [rewrite Nat.add_assoc; reflexivity|]. destruct (init_full b r rd (acc rd (rd_ves b)) Eb) as (I1 & I2 & I3). cbn [map flat_map]. rewrite I1, I2, I3.
    rewrite F, G1, G2, Fr, Fd, !firstn_add, !skipn_skipn'. now repeat split.
  - destruct (rd3_ok x ix) as (r & Er & Fr); [lia|]. destruct (rd3_ok xd ix) as (rd & Ed & Fd); [lia|]. rewrite Er, Ed. cbn [obind fst snd]. rewrite E. cbn [obind fst snd].
    eexists; split; [rewrite Nat.add_assoc; reflexivity|]. destruct (init_pin b r rd (acc (V6 rd vzero) (rd_ves b)) Eb) as (I1 & I2 & I3). cbn [map flat_map]. rewrite I1, I2, I3.
    rewrite F, G1, G2, Fr, Fd, !firstn_add, !skipn_skipn'. now repeat split.
Qed.
Lemma take_pts_ok ps x xd ix : (ix + 3 * length ps <= length x)%nat -> (ix + 3 * length ps <= length xd)%nat ->
  exists ps', take_pts ps x xd ix = Ok (ps', (ix + 3 * length ps)%nat) /\ length ps' = length ps /\
    flat_map (fun p => lst3 (p_rves p)) ps' = firstn (3 * length ps) (skipn ix x) /\
    flat_map (fun p => lst3 (p_rdves p)) ps' = firstn (3 * length ps) (skipn ix xd).
Proof.
  revert ix; induction ps as [|p ps IH]; intros ix H1 H2; [exists []; cbn; rewrite Nat.add_0_r; now repeat split|].
  cbn [length] in *. destruct (IH (ix + 3)%nat) as (ps' & E & F & G1 & G2); [lia|lia|]. cbn [take_pts].
  destruct (rd3_ok x ix) as (r & Er & Fr); [lia|]. destruct (rd3_ok xd ix) as (rd & Ed & Fd); [lia|]. rewrite Er, Ed. cbn [obind fst snd]. rewrite E. cbn [obind fst snd].
  replace (3 * S (length ps))%nat with (3 + 3 * length ps)%nat by lia. eexists; split; [rewrite Nat.add_assoc; reflexivity|].
  cbn [length flat_map initiate_p p_rves p_rdves]. rewrite F, G1, G2, Fr, Fd, !firstn_add, !skipn_skipn'. now repeat split.
Qed.
Lemma take_objs_full acc bs x xd ix bs' ix' : take_objs acc bs x xd ix = Ok (bs', ix') ->
  (list_sum (map dof bs) <> 0%nat -> (ix + list_sum (map dof bs) <= length x)%nat) /\ ix' = (ix + list_sum (map dof bs))%nat.
Proof.
  revert ix bs'; induction bs as [|b bs IH]; intros ix bs' H; [injection H as <- <-; cbn; split; [congruence|lia]|].
  cbn [take_objs] in H. destruct (if full b then _ else _) as [[r rd]| | |] eqn:Er; cbn [obind] in H; try discriminate.
  destruct (take_objs acc bs x xd (ix + dof b)) as [[q i]| | |] eqn:Eq; cbn [obind] in H; try discriminate. injection H as <- <-.
  apply IH in Eq as [A B]. change (list_sum (map dof (b :: bs))) with (dof b + list_sum (map dof bs))%nat. cbn [snd]. split; [intros _|rewrite B; lia].
  destruct (Nat.eq_dec (list_sum (map dof bs)) 0) as [Z|Z]; [|specialize (A Z); lia]. rewrite Z. unfold dof. destruct (full b).
  - assert (nth_error x (ix + 3 + 2) <> None); [|apply nth_error_Some in H; lia]. unfold rd6, rd3, vget in Er. intro C. rewrite C in Er.
    repeat match type of Er with context [match nth_error ?l ?i with _ => _ end] => destruct (nth_error l i); cbn in Er; try discriminate end.
  - assert (nth_error x (ix + 2) <> None); [|apply nth_error_Some in H; lia]. unfold rd3, vget in Er. intro C. rewrite C in Er.
    repeat match type of Er with context [match nth_error ?l ?i with _ => _ end] => destruct (nth_error l i); cbn in Er; try discriminate end.
Qed.
Lemma take_pts_full ps x xd ix ps' ix' : take_pts ps x xd ix = Ok (ps', ix') -> (ps <> [] -> (ix + 3 * length ps <= length x)%nat).
Proof.
  revert ix ps' ix'; induction ps as [|p ps IH]; intros ix ps' ix' H; [congruence|]. intros _.
  cbn [take_pts] in H. destruct (rd3 x ix) as [r| | |] eqn:Er; cbn [obind] in H; try discriminate. destruct (rd3 xd ix) as [rd| | |] eqn:Ed; cbn [obind] in H; try discriminate.
  destruct (take_pts ps x xd (ix + 3)) as [[q i]| | |] eqn:Eq; cbn [obind] in H; try discriminate. pose proof (IH _ _ _ Eq) as Eq'. clear IH. cbn [length].
  destruct ps as [|p' ps]; [|assert (NE : p' :: ps <> []) by discriminate; specialize (Eq' NE); clear - Eq'; cbn [length] in *; lia]. cbn [length].
  assert (nth_error x (ix + 2) <> None); [|apply nth_error_Some in H0; lia]. unfold rd3, vget in Er. intro C. rewrite C in Er.
  repeat match type of Er with context [match nth_error ?l ?i with _ => _ end] => destruct (nth_error l i); cbn in Er; try discriminate end.
Qed.
Lemma entries_len b v : length (entries b v) = dof b. Proof. unfold entries, dof. now destruct (full b). Qed.
Lemma put_objs_len bs fs : length fs = length bs -> length (put_objs bs fs) = list_sum (map dof bs).
Proof.
  revert fs; induction bs as [|b bs IH]; intros [|g fs] H; try discriminate; [reflexivity|]. unfold put_objs in *. cbn [combine flat_map map].
  change (list_sum (dof b :: map dof bs)) with (dof b + list_sum (map dof bs))%nat. rewrite app_length, IH by (now injection H). f_equal. cbn [fst snd]. unfold dof. now destruct (full b).
Qed.
Lemma put_pts_len fs : length (put_pts fs) = (3 * length fs)%nat.
Proof. induction fs as [|g fs IH]; [reflexivity|]. unfold put_pts in *. cbn [flat_map length]. rewrite app_length, IH. cbn [lst3 length]. lia. Qed.
Lemma NCoupled_pinned bodies rods points : NCoupledDOF bodies rods points =
  (list_sum (map dof bodies) + list_sum (map dof rods) + 3 * length points + 3 * length (filter (fun b => negb (full b)) bodies))%nat.
Proof.
  unfold NCoupledDOF. assert (H : (6 * length bodies = list_sum (map dof bodies) + 3 * length (filter (fun b => negb (full b)) bodies))%nat).
  { induction bodies as [|b bs IH]; [reflexivity|]. cbn [map length filter]. change (list_sum (dof b :: map dof bs)) with (dof b + list_sum (map dof bs))%nat.
    unfold dof at 1. destruct (full b); cbn [negb length]; lia. }
  lia.
Qed.

(** kinematics of coupled objects *)
Lemma fairlead_idem l b : fairlead l (fairlead l b) = fairlead l b.
Proof. unfold fairlead. destruct (full b) eqn:E; reflexivity. Qed.
Lemma fairlead_moved l b : moved_to l (fairlead l b).
Proof.
  unfold moved_to, fairlead, entries. destruct (full b) eqn:E; cbn; split; try reflexivity.
Qed.

(** pay out *)
Lemma update0_idem p : update_length 0 (update_length 0 p) = update_length 0 p.
Proof. unfold update_length. destruct (Req_EM_T (u_vel p) 0); [destruct (Req_EM_T (u_vel p) 0); [reflexivity|lra]|]. destruct (Req_EM_T 0 0); [|lra]. cbn. destruct (Req_EM_T (u_vel p) 0); [lra|]. reflexivity. Qed.
Definition samebase (p p0 : pline) : Prop := u_vel p = u_vel p0 /\ u_len0 p = u_len0 p0 /\ length (u_seg p) = length (u_seg p0) /\ (u_vel p0 = 0 -> p = p0).
Lemma samebase_refl p : samebase p p. Proof. now repeat split. Qed.
Lemma samebase_update l p p0 : 0 < l -> samebase p p0 -> samebase (update_length l p) p0.
Proof.
  intros Hl (A & B & C & Dd). unfold update_length. destruct (Req_EM_T (u_vel p) 0); [now repeat split|]. destruct (Req_EM_T l 0); [lra|].
  repeat split; cbn; try assumption; [now rewrite map_length|]. intro Z. congruence.
Qed.
Lemma Forall2_map_l {A B} (g : A -> A) (Rr : A -> B -> Prop) l l' : (forall a b, Rr a b -> Rr (g a) b) -> Forall2 Rr l l' -> Forall2 Rr (map g l) l'.
Proof. intros H F. induction F; cbn; constructor; auto. Qed.
Lemma paid_one dt p q q' : 0 < dt -> samebase q' (update_length 0 p) -> q' = update_length dt q -> paid dt p q'.
Proof.
  intros Hd (A & B & C & Dd) E. unfold update_length in A, B, C, Dd. destruct (Req_EM_T (u_vel p) 0) as [Z|Z].
  - rewrite (Dd Z). unfold paid. rewrite Z. repeat split; auto. lra.
  - destruct (Req_EM_T 0 0); [|lra]. cbn in *. unfold paid. unfold update_length in E. destruct (Req_EM_T (u_vel q) 0) as [Y|Y]; [subst q'; congruence|].
    destruct (Req_EM_T dt 0); [lra|]. subst q'. cbn in *. repeat split; auto; [rewrite B, A; lra|].
    intros _. unfold even. cbn. rewrite map_length. rewrite Forall_map. apply Forall_forall. reflexivity.
Qed.

Section Md.
Variables (S D X : Type) (o : sops S D).
Variable updX : sys X -> R -> R -> S -> outcome X.
Variable calX : sys X -> D -> outcome (X * D).
Variable limX : sys X -> R -> R -> R.
Variable mskX : sys X -> R -> outcome X.
Variable conv : D -> D -> bool.
Variable detX : nat -> sys X -> outcome X.
Variable frcX : sys X -> list v6 * list v6 * list v3.
Notation tstep := (ts_step S D X o updX calX limX mskX conv).
Notation mstep := (md_step S D X o updX calX limX mskX conv detX frcX).
Notation TT := (MScheme.tt S D (sys X)). Notation TL := (MScheme.tl S D (sys X)). Notation ENV := (env S D (sys X)).
Notation bod := (e_bod X). Notation rods := (e_rod X). Notation pts := (e_pts X). Notation lin := (e_lin X).

(** what the coupling prescribed *)
Definition ves (e : sys X) := (map (fun b => (full b, r_ves b, rd_ves b, rdd_ves b)) (bod e), map (fun b => (full b, r_ves b, rd_ves b, rdd_ves b)) (rods e),
  map (fun p => (p_rves p, p_rdves p)) (pts e)).
Lemma ves_fair l b : (fun b => (full b, r_ves b, rd_ves b, rdd_ves b)) (fairlead l b) = (fun b => (full b, r_ves b, rd_ves b, rdd_ves b)) b.
Proof. unfold fairlead. destruct (full b) eqn:E; cbn; now rewrite ?E. Qed.
Lemma ves_upd e t l x e' : upd_sys S X updX e t l x = Ok e' -> ves e' = ves e /\
  bod e' = map (fairlead l) (bod e) /\ rods e' = map (fairlead l) (rods e) /\ pts e' = map (fairlead_p l) (pts e) /\ lin e' = map (update_length l) (lin e).
Proof.
  unfold upd_sys. intro H. destruct (updX _ t l x); cbn [obind] in H; try discriminate. injection H as <-. cbn. unfold ves. cbn. split; [|now repeat split].
  rewrite !map_map. f_equal. f_equal; apply map_ext; intro; apply ves_fair.
Qed.
Lemma cal_sys_same e d e' d' : cal_sys D X calX e d = Ok (e', d') -> ves e' = ves e /\ lin e' = lin e.
Proof. unfold cal_sys. intro H. destruct (calX e d) as [[a b]| | |]; cbn in H; try discriminate. injection H as <- <-. now split. Qed.
Lemma msk_sys_same e d e' : msk_sys X mskX e d = Ok e' -> ves e' = ves e /\ lin e' = lin e.
Proof. unfold msk_sys. intro H. destruct (mskX e d) as [a| | |]; cbn in H; try discriminate. injection H as <-. now split. Qed.

(** the state after a sequence of substeps *)
Definition track (e0 : sys X) (L0 : list pline) (s : tsch S D (sys X)) : Prop :=
  ves (ENV s) = ves e0 /\ Forall2 samebase (lin (ENV s)) L0 /\
  map (fairlead (TL s)) (bod (ENV s)) = bod (ENV s) /\ map (fairlead (TL s)) (rods (ENV s)) = rods (ENV s) /\
  map (fairlead_p (TL s)) (pts (ENV s)) = pts (ENV s) /\ exists L, lin (ENV s) = map (update_length (TL s)) L.
Lemma map_idem {A} (g : A -> A) l : (forall a, g (g a) = g a) -> map g (map g l) = map g l.
Proof. intro H. rewrite map_map. apply map_ext. exact H. Qed.
Lemma tstep_track c e0 L0 s dt s' : ahead c -> 0 < dt -> 0 <= TL s -> ves (ENV s) = ves e0 -> Forall2 samebase (lin (ENV s)) L0 ->
  (TL s = 0 -> lin (ENV s) = map (update_length 0) (lin (ENV s))) -> tstep c s dt = Ok s' ->
  TL s' = TL s + dt /\ TT s' = TT s + advance c dt /\ track e0 L0 s'.
Proof.
  intros Hc Hd HT Hv HB H0 E. pose proof E as E'. apply step_time in E as (Et & El & e & x & _ & Eu). split; [exact El|]. split; [exact Et|].
  assert (Hinv : ves (ENV s') = ves e0 /\ Forall2 samebase (lin (ENV s')) L0).
  { destruct (Req_dec (TL s) 0) as [Z|Z].
    - refine (step_inv S D (sys X) o _ _ _ _ _ 0 (fun e => ves e = ves e0 /\ lin e = lin (ENV s)) (fun e => ves e = ves e0 /\ Forall2 samebase (lin e) L0)
        _ _ _ _ _ _ c s dt s' Hc Hd _ E').
      + intros a [A B]. rewrite B. now split.
      + intros a t y a' [A B] U. apply ves_upd in U as (U1 & _ & _ & _ & U2). rewrite U1, U2, B, <- H0 by exact Z. now split.
      + intros a t l y a' Hl [A B] U. apply ves_upd in U as (U1 & _ & _ & _ & U2). rewrite U1, U2. split; [exact A|]. apply Forall2_map_l; [|exact B]. intros; now apply samebase_update.
      + intros a dd a' d' [A B] U. apply cal_sys_same in U as [-> ->]. now split.
      + intros a dd a' d' [A B] U. apply cal_sys_same in U as [-> ->]. now split.
      + intros a dd a' [A B] U. apply msk_sys_same in U as [-> ->]. now split.
      + split; [exact Z|]. now split.
    - refine (step_inv S D (sys X) o _ _ _ _ _ (TL s) (fun e => ves e = ves e0 /\ Forall2 samebase (lin e) L0) (fun e => ves e = ves e0 /\ Forall2 samebase (lin e) L0)
        _ _ _ _ _ _ c s dt s' Hc Hd _ E').
      + auto.
      + intros a t y a' [A B] U. apply ves_upd in U as (U1 & _ & _ & _ & U2). rewrite U1, U2. split; [exact A|]. apply Forall2_map_l; [|exact B]. intros; apply samebase_update; [lra|assumption].
      + intros a t l y a' Hl [A B] U. apply ves_upd in U as (U1 & _ & _ & _ & U2). rewrite U1, U2. split; [exact A|]. apply Forall2_map_l; [|exact B]. intros; apply samebase_update; [lra|assumption].
      + intros a dd a' d' [A B] U. apply cal_sys_same in U as [-> ->]. now split.
      + intros a dd a' d' [A B] U. apply cal_sys_same in U as [-> ->]. now split.
      + intros a dd a' [A B] U. apply msk_sys_same in U as [-> ->]. now split.
      + split; [reflexivity|]. now split. }
  destruct Hinv as [I1 I2]. apply ves_upd in Eu as (_ & U1 & U2 & U3 & U4).
  split; [exact I1|]. split; [exact I2|]. rewrite U1, U2, U3, U4. rewrite !(map_idem (fairlead _)) by (intro; apply fairlead_idem). rewrite (map_idem (fairlead_p _)) by reflexivity.
  repeat split. eexists; reflexivity.
Qed.
Lemma fold_track c e0 L0 l s s' : ahead c -> Forall (fun d => 0 < d) l -> 0 <= TL s -> ves (ENV s) = ves e0 -> Forall2 samebase (lin (ENV s)) L0 ->
  (TL s = 0 -> lin (ENV s) = map (update_length 0) (lin (ENV s))) -> ofold (tstep c) l s = Ok s' -> l <> [] ->
  TL s' = TL s + rsum0 l /\ (match c with Wilson _ _ => True | _ => TT s' = TT s + rsum0 l end) /\ track e0 L0 s'.
Proof.
  intro Hc. revert s; induction l as [|d l IH]; intros s HF HT Hv HB H0 E Hn; [congruence|]. inversion HF as [|? ? H1 H2]; subst. cbn [ofold] in E.
  destruct (tstep c s d) as [s1| | |] eqn:E1; cbn [obind] in E; try discriminate.
  destruct (tstep_track c e0 L0 s d s1 Hc H1 HT Hv HB H0 E1) as (A & B & C). change (rsum0 (d :: l)) with (d + rsum0 l).
  destruct l as [|d' l].
  - injection E as <-. cbn. split; [rewrite A; lra|]. split; [|exact C]. destruct c; try exact I; rewrite B; cbn; lra.
  - destruct C as (C1 & C2 & C3). destruct (IH s1 H2) as (A' & B' & C'); try assumption; try lra; try discriminate.
    split; [rewrite A', A; lra|]. split; [|exact C']. destruct c; try exact I; rewrite B', B; cbn [advance]; lra.
Qed.
Lemma fail_same i t fs e fs' e' : fail_loop X detX i t fs e = Ok (fs', e') ->
  bod e' = bod e /\ rods e' = rods e /\ pts e' = pts e /\ lin e' = lin e /\ length fs' = length fs /\
  (forall j, match nth_error fs j with None => True | Some g => nth_error fs' j = Some (Failure (f_time g) (f_done g || negb (Rltb (f_time g) t))) end).
Proof.
  revert i e fs' e'; induction fs as [|g fs IH]; intros i e fs' e' H; [injection H as <- <-; repeat split; intros [|j]; exact I|].
  cbn [fail_loop] in H. destruct (f_done g || Rltb (f_time g) t) eqn:Eg.
  - destruct (fail_loop X detX (Datatypes.S i) t fs e) as [[q z]| | |] eqn:Eq; cbn in H; try discriminate. injection H as <- <-. apply IH in Eq as (A & B & C & Dd & F & G).
    repeat split; try assumption; [cbn; now rewrite F|]. intros [|j]; [|apply G]. cbn. f_equal. destruct g as [tm []]; cbn in *; [reflexivity|]. now rewrite Eg.
  - destruct (detX i e) as [x| | |]; cbn [obind] in H; try discriminate.
    destruct (fail_loop X detX (Datatypes.S i) t fs (set_rest X e x)) as [[q z]| | |] eqn:Eq; cbn in H; try discriminate. injection H as <- <-. apply IH in Eq as (A & B & C & Dd & F & G).
    cbn in A, B, C, Dd. repeat split; try assumption; [cbn; now rewrite F|]. intros [|j]; [|apply G]. cbn. apply orb_false_elim in Eg as [-> ->]. reflexivity.
Qed.
Lemma couple_ok e x xd dt : (total_dof e <= length x)%nat -> (total_dof e <= length xd)%nat ->
  exists e', couple X e x xd dt = Ok e' /\ lin e' = lin e /\ map full (bod e') = map full (bod e) /\ map full (rods e') = map full (rods e) /\ length (pts e') = length (pts e) /\
    layout e' r_ves p_rves = firstn (total_dof e) x /\ layout e' rd_ves p_rdves = firstn (total_dof e) xd.
Proof.
  intros H1 H2. unfold total_dof in *. unfold couple.
  destruct (take_objs_ok (fun rd old => v6scale (/ dt) (v6sub rd old)) (bod e) x xd 0) as (b & Eb & Fb & Gb & Hb); [lia|lia|]. rewrite Eb. cbn [obind fst snd].
  destruct (take_objs_ok (fun rd old => v6scale (/ dt) (v6sub rd old)) (rods e) x xd (0 + list_sum (map dof (bod e)))) as (r & Er & Fr & Gr & Hr); [lia|lia|]. rewrite Er. cbn [obind fst snd].
  destruct (take_pts_ok (pts e) x xd (0 + list_sum (map dof (bod e)) + list_sum (map dof (rods e)))) as (p & Ep & Fp & Gp & Hp); [lia|lia|]. rewrite Ep. cbn [obind fst snd].
  eexists; split; [reflexivity|]. unfold layout. cbn [e_bod e_rod e_pts e_lin]. generalize dependent (3 * length (pts e))%nat. intros n3 H1 H2 Ep Gp Hp. rewrite Fb, Fr, Fp, Gb, Gr, Gp, Hb, Hr, Hp. rewrite !Nat.add_0_l. repeat split; cbn [skipn]; rewrite ?firstn_add, ?skipn_skipn', <- ?app_assoc; reflexivity.
Qed.
Lemma couple_lin e x xd dt e' : couple X e x xd dt = Ok e' -> lin e' = lin e /\ (total_dof e <= length x)%nat.
Proof.
  unfold couple. intro H. peel H b Eb. peel H r Er. peel H p Ep. injection H as <-. split; [reflexivity|]. unfold total_dof.
  destruct b as [b ib], r as [r ir], p as [p ip]. cbn [fst snd] in *. apply take_objs_full in Eb as [A1 B1]. apply take_objs_full in Er as [A2 B2]. pose proof (take_pts_full _ _ _ _ _ _ Ep) as Ep'. subst.
  destruct (pts e) as [|q qs] eqn:Eq; [|assert (NE : q :: qs <> []) by discriminate; specialize (Ep' NE); cbn [length] in *; lia]. cbn [length].
  destruct (Nat.eq_dec (list_sum (map dof (rods e))) 0) as [Z|Z]; [|specialize (A2 Z); lia].
  destruct (Nat.eq_dec (list_sum (map dof (bod e))) 0) as [Y|Y]; [|specialize (A1 Y); lia]. lia.
Qed.

(** everything a successful step does *)
Lemma mstep_all fuel m x xd dt m' fo : ahead (m_scheme _ _ _ m) -> 0 < m_dtM _ _ _ m -> 0 < dt -> mstep fuel m x xd dt = Ok (m', fo) ->
  exists e1 l, couple X (ENV (m_ts _ _ _ m)) x xd dt = Ok e1 /\ Forall (fun d => 0 < d <= m_dtM _ _ _ m) l /\ rsum0 l = dt /\
  let e' := ENV (m_ts _ _ _ m') in
  ves e' = ves e1 /\ Forall (moved_to dt) (bod e') /\ Forall (moved_to dt) (rods e') /\ Forall (moved_to_p dt) (pts e') /\
  Forall2 (paid dt) (lin (ENV (m_ts _ _ _ m))) (lin e') /\
  (match m_scheme _ _ _ m with Wilson _ _ => True | _ => TT (m_ts _ _ _ m') = TT (m_ts _ _ _ m) + dt end) /\
  m_scheme _ _ _ m' = m_scheme _ _ _ m /\ m_dtM _ _ _ m' = m_dtM _ _ _ m /\ m_dtOut _ _ _ m' = m_dtOut _ _ _ m /\
  length (m_fail _ _ _ m') = length (m_fail _ _ _ m) /\
  (forall j g, nth_error (m_fail _ _ _ m) j = Some g -> nth_error (m_fail _ _ _ m') j = Some (Failure (f_time g) (f_done g || negb (Rltb (f_time g) (TT (m_ts _ _ _ m')))))) /\
  m_rows _ _ _ m' = m_rows _ _ _ m ++ (if row_due (m_dtOut _ _ _ m) (TT (m_ts _ _ _ m')) dt then [TT (m_ts _ _ _ m')] else []).
Proof.
  intros Hc HM Hd H. unfold md_step in H. destruct (Rle_dec dt 0); [lra|]. peel H e1 Ee. peel H s Es. peel H qq Ef. destruct qq as [fl ef].
  injection H as <- _. apply loop_inv in Es as (l & El & Fl & Sl). specialize (Fl HM). specialize (Sl (Rlt_le _ _ Hd)).
  exists e1, l. split; [reflexivity|]. split; [exact Fl|]. split; [exact Sl|].
  pose proof (couple_lin _ _ _ _ _ Ee) as [Hl1 _].
  set (s0 := next S D X (set_env S D (sys X) (m_ts S D X m) e1)) in El.
  assert (HL : lin (ENV s0) = map (update_length 0) (lin e1)) by reflexivity.
  destruct (fold_track (m_scheme _ _ _ m) e1 (map (update_length 0) (lin e1)) l s0 s Hc) as (A & B & C1 & C2 & C3 & C4 & C5 & L & C6).
  - revert Fl. apply Forall_impl. intros; lra.
  - cbn. lra.
  - reflexivity.
  - rewrite HL. clear. induction (map (update_length 0) (lin e1)); constructor; [apply samebase_refl|assumption].
  - intros _. rewrite HL. symmetry. apply map_idem. apply update0_idem.
  - exact El.
  - intros ->. cbn in Sl. lra.
  - apply fail_same in Ef as (F1 & F2 & F3 & F4 & F5 & F6). cbn [m_ts ENV set_env env fst snd] in *.
    assert (TLs : TL s = dt). { rewrite A, Sl. cbn. lra. }
    rewrite TLs in *.
    assert (V : ves ef = ves e1). { rewrite <- C1. unfold ves. now rewrite F1, F2, F3. }
    split; [exact V|]. rewrite F1, F2, F3, F4.
    split; [rewrite <- C3, Forall_map; apply Forall_forall; intros; apply fairlead_moved|].
    split; [rewrite <- C4, Forall_map; apply Forall_forall; intros; apply fairlead_moved|].
    split; [rewrite <- C5, Forall_map; apply Forall_forall; intros; split; reflexivity|].
    split.
    { rewrite <- Hl1, C6. rewrite C6 in C2. clear - C2 Hd. revert L C2. induction (lin e1) as [|p ps IH]; intros [|q L] C2; cbn in C2; inversion C2; subst; cbn; constructor.
      - eapply paid_one; eauto.
      - apply IH. assumption. }
    split; [destruct (m_scheme S D X m); try exact I; cbn [MScheme.tt set_env]; rewrite B, Sl; reflexivity|].
    repeat (split; [reflexivity|]). split; [exact F5|]. split; [intros j g Hg; specialize (F6 j); rewrite Hg in F6; exact F6|].
    cbn [m_rows MScheme.tt set_env]. destruct (row_due _ _ dt); [reflexivity|now rewrite app_nil_r].
Qed.
Lemma mstep_idle fuel m x xd dt : dt <= 0 -> mstep fuel m x xd dt = Ok (m, get_forces X frcX (ENV (m_ts _ _ _ m))).
Proof. intro H. unfold md_step. destruct (Rle_dec dt 0); [reflexivity|lra]. Qed.
Lemma forces_len e : (let '(fb, fr, fp) := frcX e in length fb = length (bod e) /\ length fr = length (rods e) /\ length fp = length (pts e)) ->
  length (get_forces X frcX e) = total_dof e.
Proof.
  unfold get_forces, total_dof. destruct (frcX e) as [[fb fr] fp]. intros (A & B & C). rewrite !app_length, put_pts_len, !put_objs_len by assumption. rewrite C. lia.
Qed.

(** a sequence of coupling steps *)
Fixpoint md_run (fuel : nat) (m : md S D X) (calls : list (list R * list R * R)) : outcome (md S D X) :=
  match calls with [] => Ok m | (x, xd, dt) :: calls' => r <- mstep fuel m x xd dt ;; md_run fuel (fst r) calls' end.
Definition dt_of (c : list R * list R * R) := snd c.
Lemma run_paid fuel calls m m' : ahead (m_scheme _ _ _ m) -> 0 < m_dtM _ _ _ m -> Forall (fun c => 0 < dt_of c) calls -> md_run fuel m calls = Ok m' ->
  Forall2 (paid (rsum0 (map dt_of calls))) (lin (ENV (m_ts _ _ _ m))) (lin (ENV (m_ts _ _ _ m'))).
Proof.
  revert m; induction calls as [|[[x xd] dt] calls IH]; intros m Hc HM HF H.
  - injection H as <-. cbn. induction (lin (ENV (m_ts _ _ _ m))); constructor; [|assumption]. repeat split; auto. cbn. lra.
  - inversion HF; subst. cbn [md_run] in H. peel H r Er. destruct r as [m1 fo]. cbn [fst dt_of snd] in *.
    destruct (mstep_all fuel m x xd dt m1 fo Hc HM H2 Er) as (e1 & l & _ & _ & _ & _ & _ & _ & _ & P1 & _ & S1 & S2 & _).
    specialize (IH m1). rewrite S1, S2 in IH. specialize (IH Hc HM H3 H). cbn [map]. change (rsum0 (dt_of (x, xd, dt) :: map dt_of calls)) with (dt + rsum0 (map dt_of calls)).
    revert P1 IH. generalize (lin (ENV (m_ts S D X m'))) (lin (ENV (m_ts S D X m1))) (lin (ENV (m_ts S D X m))). clear. intros c b a P1. revert c. induction P1 as [|p q a b Pq P1 IHp]; intros c P2; inversion P2; subst; constructor; [|auto].
    destruct Pq as (A1 & A2 & A3 & A4), H1 as (B1 & B2 & B3 & B4). unfold paid. rewrite B1, B2, B3, A1, A2, A3. repeat split; auto. lra.
Qed.
(** without steps beyond, a failure is executed in the first step or never *)
Lemma run_failures fuel calls m m' : ahead (m_scheme _ _ _ m) -> (match m_scheme _ _ _ m with Wilson _ _ => False | _ => True end) -> 0 < m_dtM _ _ _ m -> Forall (fun c => 0 < dt_of c) calls ->
  md_run fuel m calls = Ok m' -> forall j g, nth_error (m_fail _ _ _ m) j = Some g -> exists g', nth_error (m_fail _ _ _ m') j = Some g' /\ f_time g' = f_time g /\
  (f_done g' = true <-> f_done g = true \/ exists c r, calls = c :: r /\ TT (m_ts _ _ _ m) + dt_of c <= f_time g).
Proof.
  revert m; induction calls as [|[[x xd] dt] calls IH]; intros m Hc HW HM HF H j g Hg.
  - injection H as <-. exists g. split; [exact Hg|]. split; [reflexivity|]. split; [now left|]. intros [A|(c & r & A & _)]; [exact A|discriminate].
  - inversion HF; subst. cbn [md_run] in H. peel H r Er. destruct r as [m1 fo]. cbn [fst dt_of snd] in *.
    destruct (mstep_all fuel m x xd dt m1 fo Hc HM H2 Er) as (e1 & l & _ & _ & _ & _ & _ & _ & _ & _ & T1 & S1 & S2 & _ & _ & F1 & _).
    specialize (F1 j g Hg). specialize (IH m1). rewrite S1, S2 in IH. destruct (IH Hc HW HM H3 H j _ F1) as (g' & G1 & G2 & G3). cbn in G2, G3.
    exists g'. split; [exact G1|]. split; [exact G2|]. rewrite G3, orb_true_iff, negb_true_iff, Rltb_false.
    assert (TT (m_ts S D X m1) = TT (m_ts S D X m) + dt) as T by (destruct (m_scheme S D X m); try contradiction; exact T1). rewrite T.
    split.
    + intros [[A|A]|(c & r & A & B)]; [now left|right; exists (x, xd, dt), calls; split; [reflexivity|exact A]|].
      right. exists (x, xd, dt), calls. split; [reflexivity|]. cbn. subst calls. inversion H3; subst. lra.
    + intros [A|(c & r & A & B)]; [now left; left|]. injection A as <- <-. cbn in B. left. right. exact B.
Qed.
End Md.

(** output rows *)
Lemma row_due_spec dtOut t dt : 0 < dtOut -> (row_due dtOut t dt = true <-> interval_end dtOut t dt).
Proof.
  intro H. unfold row_due, interval_end, rfloor. destruct (Rgt_dec dtOut 0); [|lra].
  set (q := (t - dt) / dtOut). assert (Hq : t - dt = q * dtOut) by (unfold q; field; lra).
  destruct (base_Int_part q) as [B1 B2]. destruct (Rlt_dec t _) as [L|L]; split; intro K; try discriminate; try reflexivity.
  - exfalso. destruct K as (k & K1 & K2). rewrite Hq in K1. apply Rmult_lt_reg_r in K1; [|lra].
    assert (K3 : IZR k < IZR (Int_part q) + 1). { apply (Rmult_lt_reg_r dtOut); lra. }
    assert (K4 : (k < Int_part q + 1)%Z). { apply lt_IZR. rewrite plus_IZR. lra. }
    assert (K5 : (k <= Int_part q)%Z) by lia. apply IZR_le in K5. lra.
  - exists (Int_part q + 1)%Z. rewrite plus_IZR. split; [|lra]. rewrite Hq. apply Rmult_lt_compat_r; lra.
Qed.
Lemma row_each dtOut t dt : 0 < dtOut -> dtOut <= dt -> row_due dtOut t dt = true.
Proof.
  intros H Hd. apply row_due_spec; [exact H|]. unfold interval_end. exists (Int_part (t / dtOut)).
  destruct (base_Int_part (t / dtOut)) as [B1 B2]. assert (Ht : t = t / dtOut * dtOut) by (field; lra). set (q := t / dtOut) in *. 
  split; [|rewrite Ht; apply Rmult_le_compat_r; lra]. assert (q < IZR (Int_part q) + 1) by lra. apply (Rmult_lt_compat_r dtOut) in H0; [|exact H]. lra.
Qed.
Lemma row_none dtOut : 0 < dtOut -> row_due dtOut 0 0 = false.
Proof.
  intro H. destruct (row_due dtOut 0 0) eqn:E; [|reflexivity]. apply row_due_spec in E; [|exact H]. destruct E as (k & A & B). lra.
Qed.
Lemma time_at_S t0 dts i d : nth_error dts i = Some d -> time_at t0 dts (S i) = time_at t0 dts i + d.
Proof.
  unfold time_at, rsum0. revert i; induction dts as [|x dts IH]; intros [|i] H; try discriminate; [injection H as ->; cbn [firstn fold_right]; lra|].
  cbn [nth_error] in H. specialize (IH i H). cbn [firstn fold_right] in *. destruct dts as [|y dts]; [destruct i; discriminate|]. cbn [fold_right] in *. lra.
Qed.
Lemma time_at_mono t0 dts i j : Forall (fun d => 0 < d) dts -> (i <= j)%nat -> time_at t0 dts i <= time_at t0 dts j.
Proof.
  intros HF H. induction H as [|j H IH]; [lra|]. destruct (nth_error dts j) as [d|] eqn:E.
  - rewrite (time_at_S _ _ _ _ E). rewrite Forall_forall in HF. assert (0 < d) by (eapply HF, nth_error_In, E). lra.
  - unfold time_at in *. apply nth_error_None in E. rewrite (firstn_all2 dts (n := S j)) by lia. rewrite (firstn_all2 dts (n := j)) in IH by lia. exact IH.
Qed.
Lemma time_at_cons t0 d dts k : time_at t0 (d :: dts) (S k) = time_at (t0 + d) dts k.
Proof. unfold time_at, rsum0. cbn [firstn fold_right]. lra. Qed.
Lemma one_interval t0 dts q : Forall (fun d => 0 < d) dts -> t0 < q <= t0 + rsum0 dts ->
  exists i, (i < length dts)%nat /\ time_at t0 dts i < q <= time_at t0 dts (S i) /\
  forall j, time_at t0 dts j < q <= time_at t0 dts (S j) -> j = i.
Proof.
  intros HF Hq. assert (HE : exists i, (i < length dts)%nat /\ time_at t0 dts i < q <= time_at t0 dts (S i)).
  { revert t0 Hq. induction HF as [|d dts Hd HF IH]; intros t0 Hq; [cbn in Hq; lra|]. change (rsum0 (d :: dts)) with (d + rsum0 dts) in Hq.
    destruct (Rle_dec q (t0 + d)) as [L|L].
    - exists 0%nat. unfold time_at, rsum0. cbn [firstn fold_right length]. split; [lia|]. lra.
    - destruct (IH (t0 + d)) as (i & A & B); [lra|]. exists (S i). cbn [length]. split; [lia|]. rewrite !time_at_cons. exact B. }
  destruct HE as (i & A & B). exists i. split; [exact A|]. split; [exact B|]. intros j C.
  destruct (Nat.lt_trichotomy i j) as [L|[L|L]]; [|congruence|]; exfalso.
  - pose proof (time_at_mono t0 dts (S i) j HF ltac:(lia)). lra.
  - pose proof (time_at_mono t0 dts (S j) i HF ltac:(lia)). lra.
Qed.

(** lemmas in the form of the theorems *)
Lemma even_sum p : even p -> u_seg p <> [] -> rsum0 (u_seg p) = u_len p.
Proof.
  unfold even. intros H N. assert (G : forall l c, Forall (fun s => s = c) l -> rsum0 l = INR (length l) * c).
  { intros l c F. induction F as [|a l Ha F IH]; [cbn; lra|]. change (rsum0 (a :: l)) with (a + rsum0 l). rewrite IH, Ha. cbn [length]. rewrite S_INR. lra. }
  rewrite (G _ _ H). assert (INR (length (u_seg p)) <> 0). { apply not_0_INR. destruct (u_seg p); [congruence|discriminate]. } field. assumption.
Qed.
Lemma set_length_even p len : even (set_length p len) /\ u_len (set_length p len) = len.
Proof. split; [|reflexivity]. unfold even, set_length. cbn. rewrite map_length, Forall_map. apply Forall_forall. reflexivity. Qed.
Lemma done_once X detX i t fs e fs' e' : fail_loop X detX i t fs e = Ok (fs', e') -> Forall (fun g => f_done g = true) fs -> fs' = fs /\ e' = e.
Proof.
  revert i e fs' e'; induction fs as [|g fs IH]; intros i e fs' e' H F; [injection H as <- <-; now split|]. inversion F; subst. cbn [fail_loop] in H. rewrite H2 in H. cbn [orb] in H.
  destruct (fail_loop X detX (S i) t fs e) as [[q z]| | |] eqn:E; cbn in H; try discriminate. injection H as <- <-. destruct (IH _ _ _ _ E H3) as [-> ->]. now split.
Qed.
Lemma flat_entries_ves fo (g : bool * v6 * v6 * v6 -> v6) l : (forall b, fo b = g (full b, r_ves b, rd_ves b, rdd_ves b)) ->
  flat_map (fun b => entries b (fo b)) l =
  flat_map (fun z : bool * v6 * v6 * v6 => if fst (fst (fst z)) then lst6 (g z) else lst3 (v6hd (g z))) (map (fun b => (full b, r_ves b, rd_ves b, rdd_ves b)) l).
Proof. intro H. induction l as [|b l IH]; [reflexivity|]. cbn [flat_map map]. rewrite IH. unfold entries at 1. cbn [fst]. now rewrite H. Qed.
Lemma flat_pts_ves fo (g : v3 * v3 -> v3) l : (forall p, fo p = g (p_rves p, p_rdves p)) -> flat_map (fun p => lst3 (fo p)) l = flat_map (fun z => lst3 (g z)) (map (fun p => (p_rves p, p_rdves p)) l).
Proof. intro H. induction l as [|b l IH]; [reflexivity|]. cbn [flat_map map]. now rewrite IH, H. Qed.
Lemma layout_ves X (e e' : sys X) : ves X e' = ves X e -> layout e' r_ves p_rves = layout e r_ves p_rves /\ layout e' rd_ves p_rdves = layout e rd_ves p_rdves.
Proof.
  unfold ves, layout. intro H. injection H as H3 H2 H1.
  split.
  - rewrite !(flat_entries_ves r_ves (fun z => snd (fst (fst z)))), !(flat_pts_ves p_rves fst) by reflexivity. now rewrite H1, H2, H3.
  - rewrite !(flat_entries_ves rd_ves (fun z => snd (fst z))), !(flat_pts_ves p_rdves snd) by reflexivity. now rewrite H1, H2, H3.
Qed.
Lemma layout_of_ves X (e e' : sys X) x xd dt e1 : length x = total_dof e -> length xd = length x -> couple X e x xd dt = Ok e1 -> ves X e' = ves X e1 ->
  layout e' r_ves p_rves = x /\ layout e' rd_ves p_rdves = xd.
Proof.
  intros Lx Ld C V. destruct (couple_ok X e x xd dt) as (e2 & C' & _ & _ & _ & _ & A & B); [lia|lia|]. rewrite C in C'. injection C' as <-.
  destruct (layout_ves X e1 e' V) as [-> ->]. rewrite A, B. rewrite !firstn_all2 by lia. now split.
Qed.
Lemma inside_the_step S D X o updX calX limX mskX conv c l s s' :
  ahead c -> Forall (fun d => 0 < d) l -> l <> [] ->
  ofold (ts_step S D X o updX calX limX mskX conv c) l (next S D X s) = Ok s' ->
  let e' := env S D (sys X) s' in
  (layout e' r_ves p_rves = layout (env S D (sys X) s) r_ves p_rves /\ layout e' rd_ves p_rdves = layout (env S D (sys X) s) rd_ves p_rdves) /\
  Forall (moved_to (rsum0 l)) (e_bod X e') /\ Forall (moved_to (rsum0 l)) (e_rod X e') /\ Forall (moved_to_p (rsum0 l)) (e_pts X e').
Proof.
  intros Hc HF Hn E e'. set (s0 := next S D X s) in *.
  destruct (fold_track S D X o updX calX limX mskX conv c (env _ _ _ s) (map (update_length 0) (e_lin X (env _ _ _ s))) l s0 s' Hc HF) as (A & _ & C1 & _ & C3 & C4 & C5 & _).
  - cbn. lra.
  - reflexivity.
  - cbn. induction (map (update_length 0) (e_lin X (env S D (sys X) s))); constructor; [apply samebase_refl|assumption].
  - intros _. cbn. symmetry. apply map_idem. apply update0_idem.
  - exact E.
  - exact Hn.
  - assert (A' : MScheme.tl S D (sys X) s' = rsum0 l) by (rewrite A; cbn; lra). rewrite A' in *. fold e' in C1, C3, C4, C5.
    split; [exact (layout_ves X _ _ C1)|].
    split; [rewrite <- C3, Forall_map; apply Forall_forall; intros; apply fairlead_moved|].
    split; [rewrite <- C4, Forall_map; apply Forall_forall; intros; apply fairlead_moved|].
    rewrite <- C5, Forall_map; apply Forall_forall; intros; split; reflexivity.
Qed.
Lemma step_rows S D X o updX calX limX mskX conv detX frcX fuel m x xd dt m' fo :
  ahead (m_scheme S D X m) -> 0 < m_dtM S D X m -> 0 < dt -> 0 < m_dtOut S D X m ->
  md_step S D X o updX calX limX mskX conv detX frcX fuel m x xd dt = Ok (m', fo) ->
  let t := MScheme.tt S D (sys X) (m_ts S D X m') in
  (interval_end (m_dtOut S D X m) t dt /\ m_rows S D X m' = m_rows S D X m ++ [t]) \/ (~ interval_end (m_dtOut S D X m) t dt /\ m_rows S D X m' = m_rows S D X m).
Proof.
  intros Hc HM Hd HO E t. destruct (mstep_all S D X o updX calX limX mskX conv detX frcX fuel m x xd dt m' fo Hc HM Hd E) as (_ & _ & _ & _ & _ & _ & _ & _ & _ & _ & _ & _ & _ & _ & _ & _ & RW).
  fold t in RW. rewrite RW. destruct (row_due (m_dtOut S D X m) t dt) eqn:Er.
  - left. split; [now apply row_due_spec|reflexivity].
  - right. split; [|now rewrite app_nil_r]. intro K. apply row_due_spec in K; [congruence|exact HO].
Qed.
