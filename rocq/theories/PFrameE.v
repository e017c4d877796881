(** Lines described from the other end. *)
From Coq Require Import Reals List Arith ZArith Bool Lra Lia Psatz.
From Verif Require Import MErr MVec MStateOps MMat MInterp MLine MRod MBody SMat SLine SFrame PMat PLine.
Import ListNotations.
Open Scope R_scope.

(** bending: what node i gives to its neighbours *)
Definition part (L : line) (i : nat) : option (v3 * v3) :=
  let K := lKurv L i in
  let a EI := vscale (K * EI / llstr L (i - 1)) (cross (lqs L (i - 1)) (lpvec L i)) in
  let b EI := vscale (K * EI / llstr L i) (cross (lqs L i) (lpvec L i)) in
  if equalRealNos K 0 then Some (vzero, vzero)
  else if Nat.eqb i 0 then (if lcantA L then obnd (lEIat L K) (fun EI => Some (vzero, b EI)) else Some (vzero, vzero))
  else if Nat.eqb i (lN L) then (if lcantB L then obnd (lEIat L K) (fun EI => Some (a EI, vzero)) else Some (vzero, vzero))
  else obnd (lEIat L K) (fun EI => Some (a EI, b EI)).
Definition share (i : nat) (ab : v3 * v3) (j : nat) : v3 :=
  vadd (if Nat.eqb (j + 1) i then fst ab else vzero) (vadd (if Nat.eqb j i then vscale (-1) (vadd (fst ab) (snd ab)) else vzero) (if Nat.eqb j (i + 1) then snd ab else vzero)).
Definition part_or (L : line) (i : nat) : v3 * v3 := match part L i with Some p => p | None => (vzero, vzero) end.
Lemma share_zero i j : share i (vzero, vzero) j = vzero.
Proof. unfold share; cbn [fst snd]. destruct (Nat.eqb _ _), (Nat.eqb _ _), (Nat.eqb _ _); vring. Qed.
Lemma bend1_part L i Bs : (0 < lN L)%nat -> (i <= lN L)%nat -> match part L i with None => bend1 L i Bs = None | Some ab => exists Bs', bend1 L i Bs = Some Bs' /\ forall j, Bs' j = vadd (Bs j) (share i ab j) end.
Proof.
  intros HN Hi. unfold part, bend1. cbv zeta. destruct (equalRealNos _ _); [exists Bs; split; [reflexivity|intro j; rewrite share_zero; generalize (Bs j); vring]|].
  destruct (Nat.eqb_spec i 0) as [->|E0].
  - destruct (lcantA L). 2:{ exists Bs. split; [reflexivity|intro j; rewrite share_zero; generalize (Bs j); vring]. }
    destruct (lEIat L _); cbn [obnd]; [|reflexivity]. eexists. split; [reflexivity|]. intro j. unfold bump, share. cbn [fst snd]. set (w := vscale _ (cross _ _)). destruct (Nat.eqb_spec j 0), (Nat.eqb_spec j (0 + 1)), (Nat.eqb_spec (j + 1) 0); try lia; generalize (Bs j) w; vring.
  - destruct (Nat.eqb_spec i (lN L)) as [EN|EN].
    + destruct (lcantB L). 2:{ exists Bs. split; [reflexivity|intro j; rewrite share_zero; generalize (Bs j); vring]. }
      destruct (lEIat L _); cbn [obnd]; [|reflexivity]. eexists. split; [reflexivity|]. intro j. unfold bump, share. cbn [fst snd]. set (w := vscale _ (cross _ _)). destruct (Nat.eqb_spec j i), (Nat.eqb_spec j (i - 1)), (Nat.eqb_spec (j + 1) i), (Nat.eqb_spec j (i + 1)); try lia; generalize (Bs j) w; vring.
    + destruct (lEIat L _); cbn [obnd]; [|reflexivity]. eexists. split; [reflexivity|]. intro j. unfold bump, share. cbn [fst snd]. set (w := vscale (_ / llstr L (i - 1)) (cross _ _)). set (u := vscale (_ / llstr L i) _).
      destruct (Nat.eqb_spec j i), (Nat.eqb_spec j (i - 1)), (Nat.eqb_spec (j + 1) i), (Nat.eqb_spec j (i + 1)); try lia; generalize (Bs j) w u; vring.
Qed.
Definition some {A} (o : option A) : bool := match o with Some _ => true | None => false end.
Lemma bend_part L n : (0 < lN L)%nat -> (n <= lN L + 1)%nat ->
  if forallb (fun i => some (part L i)) (seq 0 n) then exists Bs, bend L n = Some Bs /\ forall j, Bs j = vsum n (fun i => share i (part_or L i) j) else bend L n = None.
Proof.
  intros HN. induction n as [|n IH]; intro Hn; [cbn; eexists; split; [reflexivity|reflexivity]|]. rewrite seq_S, forallb_app. cbn [forallb Nat.add]. specialize (IH ltac:(lia)). cbn [bend vsum].
  destruct (forallb _ (seq 0 n)); cbn [andb]; [|now rewrite IH]. destruct IH as (Bs & -> & HB). cbn [obnd]. pose proof (bend1_part L n Bs HN ltac:(lia)) as P. unfold part_or at 1.
  destruct (part L n) as [ab|] eqn:EP; cbn [some andb]; [|exact P]. destruct P as (Bs' & -> & H). exists Bs'. split; [reflexivity|]. intro j. rewrite H, HB. unfold part_or. now rewrite EP.
Qed.
Lemma vsum_front n f : vsum (S n) f = vadd (f 0%nat) (vsum n (fun i => f (S i))).
Proof. induction n as [|n IH]; [cbn; generalize (f 0%nat); vring|]. change (vsum (S (S n)) f) with (vadd (vsum (S n) f) (f (S n))). rewrite IH. cbn [vsum]. generalize (f 0%nat) (f (S n)) (vsum n (fun i => f (S i))). vring. Qed.
Lemma vsum_rev n f : vsum (S n) f = vsum (S n) (fun i => f (n - i)%nat).
Proof.
  revert f. induction n as [|n IH]; intro f; [reflexivity|]. rewrite vsum_front. change (vsum (S (S n)) (fun i => f (S n - i)%nat)) with (vadd (vsum (S n) (fun i => f (S n - i)%nat)) (f (S n - S n)%nat)).
  rewrite Nat.sub_diag, (IH (fun i => f (S i))). rewrite (vsum_ext (S n) (fun i => f (S (n - i))) (fun i => f (S n - i)%nat)) by (intros i Hi; f_equal; lia). apply vadd_comm.
Qed.
Lemma neg_neg v : vscale (-1) (vscale (-1) v) = v. Proof. revert v; vring. Qed.
Lemma neg_sub a b : vsub a b = vscale (-1) (vsub b a). Proof. revert a b; vring. Qed.
Lemma neg_zero : vscale (-1) vzero = vzero. Proof. vring. Qed.
Lemma neg_norm v : norm (vscale (-1) v) = norm v. Proof. unfold norm. f_equal. unfold dot, vscale; cbn; ring. Qed.
Lemma unit_rev a b : unitvector b a = (vscale (-1) (fst (unitvector a b)), snd (unitvector a b)).
Proof. unfold unitvector. cbn [fst snd]. rewrite (neg_sub a b), neg_norm. destruct (equalRealNos _ _); [reflexivity|]. f_equal. generalize (vsub b a) (/ norm (vsub b a)). vring. Qed.
Lemma cross_neg a b : cross (vscale (-1) a) (vscale (-1) b) = cross a b. Proof. revert a b; vring. Qed.
Lemma cross_swap a b : cross (vscale (-1) a) (vscale (-1) b) = vscale (-1) (cross b a). Proof. revert a b; vring. Qed.
Lemma curv_rev l a b : getCurvature l (vscale (-1) b) (vscale (-1) a) = getCurvature l a b.
Proof. unfold getCurvature. replace (dot (vscale (-1) b) (vscale (-1) a)) with (dot a b) by (unfold dot, vscale; cbn; ring). reflexivity. Qed.
(** submerged fractions, off the surface *)
Lemma sub_rev d a b h : vz a <> h -> vz b <> h -> calcSubSeg d b a h = calcSubSeg d a b h.
Proof.
  intros HA HB. unfold calcSubSeg. cbv zeta. destruct (Rle_dec (vz b - h) 0) as [b1|b1], (Rle_dec (vz a - h) 0) as [a1|a1].
  - destruct (Rlt_dec (vz a - h) 0), (Rlt_dec (vz b - h) 0); try lra.
  - destruct (Rlt_dec (vz a - h) 0); [lra|]. destruct (Rlt_dec 0 (vz b - h)); [lra|]. destruct (Req_EM_T (vz b - h) (- (vz a - h))), (Req_EM_T (vz a - h) (- (vz b - h))); try lra. destruct (Rlt_dec (vz b - h) 0); [reflexivity|lra].
  - destruct (Rlt_dec (vz b - h) 0); [lra|]. destruct (Rlt_dec 0 (vz a - h)); [lra|]. destruct (Req_EM_T (vz b - h) (- (vz a - h))), (Req_EM_T (vz a - h) (- (vz b - h))); try lra. destruct (Rlt_dec (vz a - h) 0); [reflexivity|lra].
  - destruct (Rlt_dec 0 (vz a - h)), (Rlt_dec 0 (vz b - h)); try lra.
Qed.

Section R.
Variable L : line.
Hypothesis HN : (0 < lN L)%nat.
Notation N := (lN L). Notation L' := (reversed L).
Ltac ix := repeat match goal with |- context [(?a - ?b)%nat] => progress (replace (a - b)%nat with a by lia) end.
Lemma at_S i : (i < N)%nat -> unitvector (lr L (N - i)) (lr L (N - S i)) = (vscale (-1) (lqs L (N - 1 - i)), llstr L (N - 1 - i)).
Proof. intro H. rewrite unit_rev. unfold lqs, llstr. replace (S (N - 1 - i)) with (N - i)%nat by lia. replace (N - S i)%nat with (N - 1 - i)%nat by lia. reflexivity. Qed.
Lemma lqs_rev i : (i < N)%nat -> lqs L' i = vscale (-1) (lqs L (N - 1 - i)). Proof. intro H. unfold lqs at 1. cbn [lr reversed lN]. now rewrite at_S. Qed.
Lemma llstr_rev i : (i < N)%nat -> llstr L' i = llstr L (N - 1 - i). Proof. intro H. unfold llstr at 1. cbn [lr reversed lN]. now rewrite at_S. Qed.
Lemma lldstr_rev i : (i < N)%nat -> lldstr L' i = lldstr L (N - 1 - i).
Proof. intro H. unfold lldstr. rewrite lqs_rev by assumption. cbn [lrd reversed]. replace (S (N - 1 - i)) with (N - i)%nat by lia. replace (N - S i)%nat with (N - 1 - i)%nat by lia. unfold dot, vscale, vsub; cbn; ring. Qed.
Lemma lq_rev i : (i <= N)%nat -> lq L' i = vscale (-1) (lq L (N - i)).
Proof.
  intro Hi. unfold lq. change (lisEI L') with (lisEI L). cbn [lr reversed lN lcantA lcantB lqA lqB]. destruct (Nat.eqb_spec i 0) as [->|E0].
  - rewrite Nat.sub_0_r. destruct (Nat.eqb_spec N 0); [lia|]. rewrite Nat.eqb_refl. destruct (orb _ _); [|reflexivity]. now rewrite unit_rev.
  - destruct (Nat.eqb_spec i N) as [->|EN].
    + rewrite Nat.sub_diag. cbn [Nat.eqb]. destruct (orb _ _); [|reflexivity]. replace (N - (N - 1))%nat with 1%nat by lia. now rewrite unit_rev.
    + destruct (Nat.eqb_spec (N - i) 0); [lia|]. destruct (Nat.eqb_spec (N - i) N); [lia|]. replace (N - (i - 1))%nat with (N - i + 1)%nat by lia. replace (N - (i + 1))%nat with (N - i - 1)%nat by lia. now rewrite unit_rev.
Qed.
Lemma lKurv_rev i : (i <= N)%nat -> lKurv L' i = lKurv L (N - i).
Proof.
  intro Hi. unfold lKurv. cbn [lN reversed lcantA lcantB]. destruct (Nat.eqb_spec i 0) as [->|E0].
  - rewrite Nat.sub_0_r. destruct (Nat.eqb_spec N 0); [lia|]. rewrite Nat.eqb_refl. destruct (lcantB L); [|reflexivity]. rewrite llstr_rev, lq_rev, lqs_rev by lia. rewrite !Nat.sub_0_r. apply curv_rev.
  - destruct (Nat.eqb_spec i N) as [->|EN].
    + rewrite Nat.sub_diag. cbn [Nat.eqb]. destruct (lcantA L); [|reflexivity]. rewrite llstr_rev, lq_rev, lqs_rev by lia. rewrite !Nat.sub_diag. apply curv_rev.
    + destruct (Nat.eqb_spec (N - i) 0); [lia|]. destruct (Nat.eqb_spec (N - i) N); [lia|]. rewrite !llstr_rev, !lqs_rev by lia. replace (N - 1 - (i - 1))%nat with (N - i)%nat by lia. replace (N - i - 1)%nat with (N - 1 - i)%nat by lia. rewrite Rplus_comm. apply curv_rev.
Qed.
Lemma lpvec_rev i : (i <= N)%nat -> lpvec L' i = vscale (-1) (lpvec L (N - i)).
Proof.
  intro Hi. unfold lpvec. rewrite lKurv_rev by assumption. destruct (equalRealNos _ _); [now rewrite neg_zero|]. cbv zeta. cbn [lN reversed].
  set (p := if Nat.eqb i 0 then _ else _). set (p0 := if Nat.eqb (N - i) 0 then _ else _). assert (E : p = vscale (-1) p0).
  { unfold p, p0. destruct (Nat.eqb_spec i 0) as [->|E0].
    - rewrite Nat.sub_0_r. destruct (Nat.eqb_spec N 0); [lia|]. rewrite Nat.eqb_refl. rewrite lq_rev, lqs_rev by lia. rewrite !Nat.sub_0_r. apply cross_swap.
    - destruct (Nat.eqb_spec i N) as [->|EN].
      + rewrite Nat.sub_diag. cbn [Nat.eqb]. rewrite lq_rev, lqs_rev by lia. rewrite !Nat.sub_diag. apply cross_swap.
      + destruct (Nat.eqb_spec (N - i) 0); [lia|]. destruct (Nat.eqb_spec (N - i) N); [lia|]. rewrite !lqs_rev by lia. replace (N - 1 - (i - 1))%nat with (N - i)%nat by lia. replace (N - i - 1)%nat with (N - 1 - i)%nat by lia. apply cross_swap. }
  rewrite E, neg_norm. destruct (equalRealNos _ _); [reflexivity|]. generalize (/ norm p0) p0. vring.
Qed.
Lemma lT_rev i : (i < N)%nat -> lT L' i = option_map (vscale (-1)) (lT L (N - 1 - i)).
Proof. intro H. unfold lT. rewrite llstr_rev, lqs_rev by assumption. change (getNonlinearE L') with (getNonlinearE L). cbn [lsx ll lE larea reversed]. destruct (if negb _ then _ else _); [|reflexivity]. cbn [obnd option_map]. destruct (Rlt_dec _ _); [|now rewrite neg_zero]. f_equal. generalize (lqs L (N - 1 - i)). intro v. destruct v; unfold vscale; cbn; f_equal; ring. Qed.
Lemma lTd_rev i : (i < N)%nat -> lTd L' i = option_map (vscale (-1)) (lTd L (N - 1 - i)).
Proof. intro H. unfold lTd. rewrite lldstr_rev, lqs_rev by assumption. change (getNonlinearC L') with (getNonlinearC L). cbn [ldx ll lc larea reversed]. destruct (if negb _ then _ else _); [|reflexivity]. cbn [obnd option_map]. f_equal. generalize (lqs L (N - 1 - i)). intro v. destruct v; unfold vscale; cbn; f_equal; ring. Qed.
Lemma all_some_iff f n : all_some f n = true <-> forall i, (i < n)%nat -> f i <> None.
Proof.
  induction n as [|n IH]; cbn [all_some]; [split; [lia|reflexivity]|]. rewrite andb_true_iff, IH. split.
  - intros [H1 H2] i Hi. destruct (Nat.eq_dec i n) as [->|]; [destruct (f n); [discriminate|discriminate H2]|apply H1; lia].
  - intro H. split; [intros i Hi; apply H; lia|]. specialize (H n ltac:(lia)). now destruct (f n).
Qed.
Lemma all_rev f f' : (forall i, (i < N)%nat -> f' i = option_map (vscale (-1)) (f (N - 1 - i)%nat)) -> all_some f' N = all_some f N.
Proof.
  intro H. apply eq_true_iff_eq. rewrite !all_some_iff. split; intros G i Hi.
  - specialize (G (N - 1 - i)%nat ltac:(lia)). rewrite H in G by lia. replace (N - 1 - (N - 1 - i))%nat with i in G by lia. destruct (f i); [discriminate|contradiction].
  - rewrite H by assumption. specialize (G (N - 1 - i)%nat ltac:(lia)). destruct (f _); [discriminate|contradiction].
Qed.
Lemma fz_rev f f' i : f' i = option_map (vscale (-1)) (f (N - 1 - i)%nat) -> force_or_zero f' i = vscale (-1) (force_or_zero f (N - 1 - i)).
Proof. intro H. unfold force_or_zero. rewrite H. destruct (f _); cbn; [reflexivity|now rewrite neg_zero]. Qed.
Lemma part_rev i : (i <= N)%nat -> part L' i = option_map (fun ab => (snd ab, fst ab)) (part L (N - i)).
Proof.
  intro Hi. unfold part. cbv zeta. rewrite lKurv_rev by assumption. change (lEIat L') with (lEIat L). cbn [lN lcantA lcantB reversed]. destruct (equalRealNos _ _); [reflexivity|].
  assert (A : forall k, (0 < i)%nat -> vscale (k / llstr L' (i - 1)) (cross (lqs L' (i - 1)) (lpvec L' i)) = vscale (k / llstr L (N - i)) (cross (lqs L (N - i)) (lpvec L (N - i)))).
  { intros k Hp. rewrite llstr_rev, lqs_rev, lpvec_rev, cross_neg by lia. replace (N - 1 - (i - 1))%nat with (N - i)%nat by lia. reflexivity. }
  assert (B : forall k, (i < N)%nat -> vscale (k / llstr L' i) (cross (lqs L' i) (lpvec L' i)) = vscale (k / llstr L (N - i - 1)) (cross (lqs L (N - i - 1)) (lpvec L (N - i)))).
  { intros k Hp. rewrite llstr_rev, lqs_rev, lpvec_rev, cross_neg by lia. replace (N - 1 - i)%nat with (N - i - 1)%nat by lia. reflexivity. }
  destruct (Nat.eqb_spec i 0) as [E0|E0].
  - destruct (Nat.eqb_spec (N - i) 0); [lia|]. destruct (Nat.eqb_spec (N - i) N); [|lia]. destruct (lcantB L); [|reflexivity]. destruct (lEIat L _); [|reflexivity]. cbn [obnd option_map fst snd]. now rewrite B by lia.
  - destruct (Nat.eqb_spec i N) as [EN|EN].
    + destruct (Nat.eqb_spec (N - i) 0); [|lia]. destruct (lcantA L); [|reflexivity]. destruct (lEIat L _); [|reflexivity]. cbn [obnd option_map fst snd]. now rewrite A by lia.
    + destruct (Nat.eqb_spec (N - i) 0); [lia|]. destruct (Nat.eqb_spec (N - i) N); [lia|]. destruct (lEIat L _); [|reflexivity]. cbn [obnd option_map fst snd]. now rewrite A, B by lia.
Qed.
Lemma share_rev i ab j : (i <= N)%nat -> (j <= N)%nat -> share i (snd ab, fst ab) j = share (N - i) ab (N - j).
Proof.
  intros Hi Hj. unfold share. cbn [fst snd]. destruct ab as [a b]. cbn [fst snd].
  destruct (Nat.eqb_spec (j + 1) i), (Nat.eqb_spec j i), (Nat.eqb_spec j (i + 1)), (Nat.eqb_spec (N - j + 1) (N - i)), (Nat.eqb_spec (N - j) (N - i)), (Nat.eqb_spec (N - j) (N - i + 1)); try lia; revert a b; vring.
Qed.
Lemma forallb_rev (P Q : nat -> bool) : (forall i, (i <= N)%nat -> P i = Q (N - i)%nat) -> forallb P (seq 0 (N + 1)) = forallb Q (seq 0 (N + 1)).
Proof.
  intro H. apply eq_true_iff_eq. rewrite !forallb_forall. split; intros G x Hx; apply in_seq in Hx.
  - specialize (G (N - x)%nat ltac:(apply in_seq; lia)). rewrite H in G by lia. now replace (N - (N - x))%nat with x in G by lia.
  - rewrite H by lia. apply G. apply in_seq. lia.
Qed.
Lemma lBs_rev : match lBs L, lBs L' with Some B, Some B' => forall j, (j <= N)%nat -> B' j = B (N - j)%nat | None, None => True | _, _ => False end.
Proof.
  unfold lBs. change (lisEI L') with (lisEI L). cbn [lN reversed]. destruct (lisEI L); [|reflexivity].
  pose proof (bend_part L (N + 1) HN ltac:(lia)) as A. pose proof (bend_part L' (N + 1) HN ltac:(cbn; lia)) as B.
  rewrite (forallb_rev (fun i => some (part L' i)) (fun i => some (part L i))) in B by (intros i Hi; rewrite part_rev by assumption; now destruct (part L (N - i))).
  destruct (forallb _ _); [|now rewrite A, B]. destruct A as (Bs & -> & A). destruct B as (Bs' & -> & B). intros j Hj. rewrite A, B. replace (N + 1)%nat with (S N) by lia. rewrite (vsum_rev N (fun i => share i (part_or L i) (N - j))). apply vsum_ext. intros i Hi.
  assert (E : part_or L' i = (snd (part_or L (N - i)), fst (part_or L (N - i)))) by (unfold part_or; rewrite part_rev by lia; now destruct (part L (N - i)) as [[]|]). rewrite E. apply share_rev; lia.
Qed.

Variable e : envc.
Variable k : wkin.
Notation k' := (reversed_water N k).
Hypothesis HS : forall i, (i < N)%nat -> vz (lr L i) <> 0.5 * (wzeta k i + wzeta k (S i)) /\ vz (lr L (S i)) <> 0.5 * (wzeta k i + wzeta k (S i)).
Lemma lF_rev i : (i < N)%nat -> lF L' k' i = lF L k (N - 1 - i).
Proof.
  intro H. unfold lF. cbn [lr ldia reversed wzeta reversed_water]. replace (N - S i)%nat with (N - 1 - i)%nat by lia. replace (S (N - 1 - i)) with (N - i)%nat by lia. rewrite (Rplus_comm (wzeta k (N - i)%nat)).
  destruct (HS (N - 1 - i)%nat ltac:(lia)) as (A & B). replace (S (N - 1 - i)) with (N - i)%nat in A, B by lia. now apply sub_rev.
Qed.
Lemma at_rev f f' i : (i <= N)%nat -> (forall j, (j < N)%nat -> f' j = f (N - 1 - j)%nat) -> at_node L' f' i = at_node L f (N - i).
Proof.
  intros Hi H. unfold at_node. cbn [lN reversed]. destruct (Nat.eqb_spec i 0) as [->|E0].
  - rewrite Nat.sub_0_r. destruct (Nat.eqb_spec N 0); [lia|]. rewrite Nat.eqb_refl, H by lia. f_equal. lia.
  - destruct (Nat.eqb_spec i N) as [->|EN].
    + rewrite Nat.sub_diag. cbn [Nat.eqb]. rewrite H by lia. f_equal. lia.
    + destruct (Nat.eqb_spec (N - i) 0); [lia|]. destruct (Nat.eqb_spec (N - i) N); [lia|]. rewrite !H by lia. replace (N - 1 - (i - 1))%nat with (N - i)%nat by lia. replace (N - i - 1)%nat with (N - 1 - i)%nat by lia. ring.
Qed.
Lemma along_rev q v : along (vscale (-1) q) v = along q v. Proof. unfold along, dot, vscale. cbn. f_equal; ring. Qed.
Lemma across_rev q v : across (vscale (-1) q) v = across q v. Proof. unfold across. now rewrite along_rev. Qed.
Lemma ext_rev i : (i <= N)%nat -> lW L' e k' i = lW L e k (N - i) /\ lDp L' e k' i = lDp L e k (N - i) /\ lDq L' e k' i = lDq L e k (N - i) /\ lAp L' e k' i = lAp L e k (N - i) /\ lAq L' e k' i = lAq L e k (N - i) /\ lB L' e k' i = lB L e k (N - i) /\ lPb L' e k' i = lPb L e k (N - i).
Proof.
  intro Hi. unfold lW, lDp, lDq, lAp, lAq, lB, lPb. cbv zeta. rewrite !lq_rev, !lpvec_rev, !lKurv_rev by assumption. rewrite !along_rev, !across_rev, cross_neg.
  rewrite (at_rev (ll L) (ll L')) by (assumption || reflexivity). rewrite (at_rev (fun j => ll L j * (lrho L - lF L k j * rho_w e))) by (try assumption; intros j Hj; rewrite lF_rev by assumption; reflexivity).
  rewrite (at_rev (fun j => lF L k j * ll L j)) by (try assumption; intros j Hj; rewrite lF_rev by assumption; reflexivity). rewrite (at_rev (fun j => lF L k j * lV L j)) by (try assumption; intros j Hj; rewrite lF_rev by assumption; reflexivity).
  repeat split.
Qed.
Lemma lM_rev i : (i <= N)%nat -> lM L' e k' i = lM L e k (N - i).
Proof.
  intro Hi. unfold lM. rewrite lq_rev by assumption. assert (O : forall q, outer (vscale (-1) q) = outer q) by (intro q; unfold outer, vscale; cbn; f_equal; f_equal; ring). rewrite O.
  replace (lmi L' i) with (lmi L (N - i)) by (unfold lmi; rewrite (at_rev (ll L) (ll L')) by (assumption || reflexivity); reflexivity).
  replace (lvi L' k' i) with (lvi L k (N - i)) by (unfold lvi; rewrite (at_rev (fun j => lF L k j * lV L j)) by (try assumption; intros j Hj; rewrite lF_rev by assumption; reflexivity); reflexivity). reflexivity.
Qed.
Lemma line_rev : match line_forces L e k, line_forces L' e k' with Some F, Some F' => forall i, (i <= N)%nat -> F' i = F (N - i)%nat | None, None => True | _, _ => False end.
Proof.
  unfold line_forces. cbn [lN reversed]. rewrite (all_rev (lT L) (lT L') lT_rev), (all_rev (lTd L) (lTd L') lTd_rev). destruct (andb _ _); [|exact I].
  pose proof lBs_rev as B. destruct (lBs L) as [Bs|], (lBs L') as [Bs'|]; cbn [obnd]; try contradiction; [|exact I]. intros i Hi. unfold lFnet. destruct (ext_rev i Hi) as (-> & -> & -> & -> & -> & -> & ->). rewrite (B i Hi). f_equal. cbn [lN reversed].
  assert (T : forall j, (j < N)%nat -> force_or_zero (lT L') j = vscale (-1) (force_or_zero (lT L) (N - 1 - j))) by (intros; apply fz_rev, lT_rev; assumption).
  assert (D : forall j, (j < N)%nat -> force_or_zero (lTd L') j = vscale (-1) (force_or_zero (lTd L) (N - 1 - j))) by (intros; apply fz_rev, lTd_rev; assumption).
  destruct (Nat.eqb_spec i 0) as [->|E0].
  - rewrite Nat.sub_0_r. destruct (Nat.eqb_spec N 0); [lia|]. rewrite Nat.eqb_refl, T, D by lia. rewrite Nat.sub_0_r. generalize (force_or_zero (lT L) (N - 1)) (force_or_zero (lTd L) (N - 1)). vring.
  - destruct (Nat.eqb_spec i N) as [->|EN].
    + rewrite Nat.sub_diag. cbn [Nat.eqb]. rewrite T, D by lia. rewrite Nat.sub_diag. generalize (force_or_zero (lT L) 0) (force_or_zero (lTd L) 0). vring.
    + destruct (Nat.eqb_spec (N - i) 0); [lia|]. destruct (Nat.eqb_spec (N - i) N); [lia|]. rewrite !T, !D by lia. replace (N - 1 - (i - 1))%nat with (N - i)%nat by lia. replace (N - i - 1)%nat with (N - 1 - i)%nat by lia.
      generalize (force_or_zero (lT L) (N - i)) (force_or_zero (lT L) (N - 1 - i)) (force_or_zero (lTd L) (N - i)) (force_or_zero (lTd L) (N - 1 - i)). vring.
Qed.
End R.
