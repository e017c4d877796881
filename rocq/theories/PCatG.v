(** Proofs about the initial shape of lines. *)
From Coq Require Import Reals ZArith List Arith Bool Lra Lia.
From Verif Require Import MErr MVec MStateOps MCat SCat PCat PCatB PCatC PCatD PCatE PCatF.
Import ListNotations.
Open Scope R_scope.

Lemma snodes_mul l n : snodes l n = INR n * l.
Proof. induction n as [|n IH]; [cbn; ring|]. cbn [snodes]. rewrite IH, S_INR. ring. Qed.
Lemma node_places_length U N : length (node_places U N) = S N.
Proof. unfold node_places. rewrite app_length, map_length, seq_length. cbn. lia. Qed.
Lemma node_places_nth U N i : (0 < N)%nat -> (i <= N)%nat -> nth i (node_places U N) 0 = INR i * U / INR N.
Proof.
  intros HN Hi. assert (P : 0 < INR N) by (apply lt_0_INR; exact HN). unfold node_places. destruct (Nat.eq_dec i N) as [->|Ni].
  - rewrite app_nth2 by (rewrite map_length, seq_length; lia). rewrite map_length, seq_length, Nat.sub_diag. cbn [nth]. field. lra.
  - rewrite app_nth1 by (rewrite map_length, seq_length; lia). rewrite (nth_indep _ 0 (snodes (seg_length U N) 0)) by (rewrite map_length, seq_length; lia).
    rewrite map_nth, seq_nth by lia. rewrite snodes_mul. unfold seg_length. cbn [plus]. field. lra.
Qed.
Lemma node_places_flip U N i : (0 < N)%nat -> (i <= N)%nat -> nth i (map (fun a => U - a) (rev (node_places U N))) 0 = INR i * U / INR N.
Proof.
  intros HN Hi. assert (P : 0 < INR N) by (apply lt_0_INR; exact HN). rewrite (nth_indep _ 0 ((fun a => U - a) 0)) by (rewrite map_length, rev_length, node_places_length; lia).
  rewrite (map_nth (fun a => U - a)). rewrite rev_nth by (rewrite node_places_length; lia). rewrite node_places_length. replace (S N - S i)%nat with (N - i)%nat by lia.
  rewrite node_places_nth by lia. rewrite minus_INR by lia. field. lra.
Qed.
Lemma node_places_in U N : (0 < N)%nat -> 0 <= U -> forall a, In a (node_places U N) -> 0 <= a <= U.
Proof.
  intros HN HU a Ha. destruct (In_nth _ _ 0 Ha) as (i & Hi & <-). rewrite node_places_length in Hi. rewrite node_places_nth by lia.
  assert (P : 0 < INR N) by (apply lt_0_INR; exact HN). assert (Q : 0 <= INR i <= INR N) by (split; [apply pos_INR|apply le_INR; lia]).
  split; [apply div_nn; [nra|exact P]|]. apply Rmult_le_reg_r with (INR N); [exact P|]. unfold Rdiv. rewrite Rmult_assoc, Rinv_l by lra. nra.
Qed.
Lemma map_seq_nth {A} (f : nat -> A) n i d : (i < n)%nat -> nth i (map f (seq 0 n)) d = f i.
Proof. intros H. rewrite (nth_indep _ d (f 0%nat)) by (rewrite map_length, seq_length; exact H). rewrite map_nth, seq_nth by exact H. reflexivity. Qed.

(** the sea bed under an end, as far as the routine looks *)
Definition touches (depth : R -> R -> R) (r : v3) : bool := if Rle_dec (vz r) (depth (vx r) (vy r) * (1 - 1 / 100000)) then true else false.
Definition bedCB depth r0 rN := if orb (touches depth r0) (touches depth rN) then 0 else -1.
Definition weight (A rho rho_w g : R) := ((rho - rho_w) * A) * g.
Definition span (r0 rN : v3) := sqrt (vx (vsub rN r0) * vx (vsub rN r0) + vy (vsub rN r0) * vy (vsub rN r0)).
Definition shape_of depth r0 rN N U E A rho rho_w g := catenary (span r0 rN) (vz (vsub rN r0)) U (E * A) (weight A rho rho_w g) (bedCB depth r0 rN) (1 / 100000) (node_places U N).
Section Shape.
Variables (depth : R -> R -> R) (r0 rN : v3) (N : nat) (U0 E A rho rho_w g : R).
Let U := real_length U0 (vsub rN r0).
Definition straight_nodes := map (fun i => if Nat.eqb i 0 then r0 else if Nat.eqb i N then rN else straight r0 (vsub rN r0) N i) (seq 0 (S N)).
Lemma shape_cases : initial_shape depth r0 rN N U0 E A rho rho_w g =
  if Rlt_dec (vz r0) (depth (vx r0) (vy r0)) then Throw ExInvalidValue else
  if Rlt_dec 0 (span r0 rN) then
    obind (shape_of depth r0 rN N U E A rho rho_w g) (fun res => match res with
    | Some c => Ok (map (fun i => if Nat.eqb i 0 then r0 else if Nat.eqb i N then rN else
                  let '(x, z, _) := nth i (cnodes c) (0, 0, 0) in vadd r0 (V3 (x * ((vx rN - vx r0) / span r0 rN)) (x * ((vy rN - vy r0) / span r0 rN)) z)) (seq 0 (S N)))
    | None => Ok straight_nodes end)
  else Ok straight_nodes.
Proof. reflexivity. Qed.
Lemma shape_no_ub : forall s x z L a w c, catenary x z L a w c (1 / 100000) s <> UB /\ catenary x z L a w c (1 / 100000) s <> Diverges /\ (forall e, catenary x z L a w c (1 / 100000) s <> Throw e).
Proof.
  intros. unfold catenary. rewrite max_iter. change (orb (100000 <=? 0)%Z (2 ^ 32 <=? 100000)%Z) with false. cbv beta iota zeta.
  destruct (too_long x _ L a w c); [repeat split; discriminate|]. 
  match goal with |- match ?m with _ => _ end <> _ /\ _ => destruct m as [[[h v] I]|] end; [|repeat split; discriminate].
  destruct (nodes _ L s); [|repeat split; discriminate]. destruct (anchor _ _ _ _ _ _). repeat split; discriminate.
Qed.
Lemma shape_total : (vz r0 < depth (vx r0) (vy r0) /\ initial_shape depth r0 rN N U0 E A rho rho_w g = Throw ExInvalidValue) \/
  (depth (vx r0) (vy r0) <= vz r0 /\ exists ps, initial_shape depth r0 rN N U0 E A rho rho_w g = Ok ps).
Proof.
  rewrite shape_cases. destruct (Rlt_dec (vz r0) (depth (vx r0) (vy r0))) as [B|B]; [left; split; [exact B|reflexivity]|right]. split; [lra|].
  destruct (Rlt_dec 0 (span r0 rN)); [|eexists; reflexivity]. unfold shape_of.
  pose proof (shape_no_ub (node_places U N) (span r0 rN) (vz (vsub rN r0)) U (E * A) (weight A rho rho_w g) (bedCB depth r0 rN)) as (Q1 & Q2 & Q3).
  destruct (catenary _ _ _ _ _ _ _ _) as [[c|]|e| |]; cbn [obind]; [eexists; reflexivity|eexists; reflexivity|congruence|congruence|congruence].
Qed.
Lemma shape_ends ps : (0 < N)%nat -> initial_shape depth r0 rN N U0 E A rho rho_w g = Ok ps -> length ps = S N /\ nth 0 ps (V3 0 0 0) = r0 /\ nth N ps (V3 0 0 0) = rN.
Proof.
  intros HN H. rewrite shape_cases in H. destruct (Rlt_dec (vz r0) (depth (vx r0) (vy r0))); [discriminate|].
  assert (G : forall f : nat -> v3, ps = map (fun i => if Nat.eqb i 0 then r0 else if Nat.eqb i N then rN else f i) (seq 0 (S N)) -> length ps = S N /\ nth 0 ps (V3 0 0 0) = r0 /\ nth N ps (V3 0 0 0) = rN).
  { intros f ->. split; [rewrite map_length, seq_length; reflexivity|]. rewrite !map_seq_nth by lia. split; [reflexivity|]. rewrite Nat.eqb_refl. destruct (Nat.eqb N 0) eqn:Q; [apply Nat.eqb_eq in Q; lia|reflexivity]. }
  destruct (Rlt_dec 0 (span r0 rN)); [|apply (G (straight r0 (vsub rN r0) N)); unfold straight_nodes in H; congruence].
  destruct (shape_of _ _ _ _ _ _ _ _ _ _) as [[c|]|e| |]; cbn [obind] in H; try discriminate.
  - apply (G (fun i => let '(x, z, _) := nth i (cnodes c) (0, 0, 0) in vadd r0 (V3 (x * ((vx rN - vx r0) / span r0 rN)) (x * ((vy rN - vy r0) / span r0 rN)) z))). congruence.
  - apply (G (straight r0 (vsub rN r0) N)). unfold straight_nodes in H. congruence.
Qed.
Lemma straight_nth i : (0 < N)%nat -> (i <= N)%nat -> nth i straight_nodes (V3 0 0 0) = vadd r0 (vscale (INR i / INR N) (vsub rN r0)).
Proof.
  intros HN Hi. assert (P : 0 < INR N) by (apply lt_0_INR; exact HN). unfold straight_nodes. rewrite map_seq_nth by lia. destruct (Nat.eqb i 0) eqn:Q0.
  - apply Nat.eqb_eq in Q0. subst i. destruct r0 as [a b c], rN as [x y z]. unfold vadd, vscale, vsub. cbn [vx vy vz INR]. f_equal; field; lra.
  - destruct (Nat.eqb i N) eqn:Q1; [|reflexivity]. apply Nat.eqb_eq in Q1. subst i. destruct r0 as [a b c], rN as [x y z]. unfold vadd, vscale, vsub. cbn [vx vy vz]. f_equal; field; lra.
Qed.
Lemma span_sqr : span r0 rN * span r0 rN = (vx rN - vx r0) * (vx rN - vx r0) + (vy rN - vy r0) * (vy rN - vy r0).
Proof. unfold span. rewrite sqrt_sqrt; [destruct r0, rN; reflexivity|]. set (a := vx (vsub rN r0)). set (b := vy (vsub rN r0)). pose proof (Rle_0_sqr a) as P. pose proof (Rle_0_sqr b) as Q. unfold Rsqr in *. lra. Qed.
(** the line of the routine, or straight *)
Lemma shape_split ps : (0 < N)%nat -> 0 < E * A -> 0 <= U -> initial_shape depth r0 rN N U0 E A rho rho_w g = Ok ps ->
  (ps = straight_nodes /\ (span r0 rN <= 0 \/ shape_of depth r0 rN N U E A rho rho_w g = Ok None)) \/
  (0 < span r0 rN /\ exists c, shape_of depth r0 rN N U E A rho rho_w g = Ok (Some c) /\
   exists X Z h v kinks, let low := if Rlt_dec (vz rN) (vz r0) then U else 0 in
    (length kinks <= 2)%nat /\ static_line U (E * A) (weight A rho rho_w g) (bedCB depth r0 rN) X Z h v (Z low) kinks /\
    (if Rlt_dec (vz rN) (vz r0) then X U = Rmax (span r0 rN) (1 / 100000) /\ Z U = - Rmax (vz r0 - vz rN) (1 / 100000) else X 0 = 0 /\ Z 0 = 0) /\
    forall i, (0 < i < N)%nat -> let s := INR i * U / INR N in
      nth i ps (V3 0 0 0) = vadd r0 (V3 (X s * ((vx rN - vx r0) / span r0 rN)) (X s * ((vy rN - vy r0) / span r0 rN)) (Z s))).
Proof.
  intros HN HEA HU H. rewrite shape_cases in H. destruct (Rlt_dec (vz r0) (depth (vx r0) (vy r0))); [discriminate|].
  destruct (Rlt_dec 0 (span r0 rN)) as [Hs|Hs]; [|left; split; [congruence|left; lra]].
  destruct (shape_of depth r0 rN N U E A rho rho_w g) as [[c|]|e| |] eqn:Ec; cbn [obind] in H; try discriminate; [|left; split; [congruence|right; reflexivity]].
  right. split; [exact Hs|]. exists c. split; [reflexivity|]. unfold shape_of in Ec.
  destruct (catenary_static _ _ _ _ _ _ _ _ _ Ec HEA ltac:(lra) HU) as (X & Z & h & v & kinks & S). cbv zeta in S.
  assert (Ez : vz (vsub rN r0) = vz rN - vz r0) by (destruct r0, rN; reflexivity).
  exists X, Z, h, v, kinks. cbv zeta. destruct S as (S1 & S2 & S3 & S4 & _).
  assert (Low : (if Rlt_dec (vz rN) (vz r0) then U else 0) = if Rlt_dec (vz (vsub rN r0)) 0 then U else 0) by (rewrite Ez; destruct (Rlt_dec (vz rN) (vz r0)); destruct (Rlt_dec (vz rN - vz r0) 0); lra).
  rewrite Low. split; [exact S1|]. split; [exact S2|]. split.
  { rewrite Ez in S4. destruct (Rlt_dec (vz rN) (vz r0)); destruct (Rlt_dec (vz rN - vz r0) 0); try lra. replace (vz r0 - vz rN) with (- (vz rN - vz r0)) by ring. exact S4. }
  intros i Hi. assert (ps = map (fun i => if Nat.eqb i 0 then r0 else if Nat.eqb i N then rN else
                  let '(x, z, _) := nth i (cnodes c) (0, 0, 0) in vadd r0 (V3 (x * ((vx rN - vx r0) / span r0 rN)) (x * ((vy rN - vy r0) / span r0 rN)) z)) (seq 0 (S N))) as -> by congruence.
  rewrite map_seq_nth by lia. destruct (Nat.eqb i 0) eqn:Q0; [apply Nat.eqb_eq in Q0; lia|]. destruct (Nat.eqb i N) eqn:Q1; [apply Nat.eqb_eq in Q1; lia|].
  assert (Nn : nth i (cnodes c) (0, 0, 0) = (X (INR i * U / INR N), Z (INR i * U / INR N), tension h v (INR i * U / INR N))).
  { rewrite S3. set (f := fun a => (X a, Z a, tension h v a)).
    assert (Pl : nth i (if Rlt_dec (vz (vsub rN r0)) 0 then map (fun a => U - a) (rev (node_places U N)) else node_places U N) 0 = INR i * U / INR N) by (destruct (Rlt_dec (vz (vsub rN r0)) 0); [apply node_places_flip; lia|apply node_places_nth; lia]).
    rewrite (nth_indep _ (0, 0, 0) (f 0)). 2: { rewrite map_length. destruct (Rlt_dec (vz (vsub rN r0)) 0); rewrite ?map_length, ?rev_length, node_places_length; lia. }
    rewrite (map_nth f), Pl. reflexivity. }
  rewrite Nn. reflexivity.
Qed.
Lemma shape_hangs : (0 < N)%nat -> 0 < E * A -> 0 < U -> weight A rho rho_w g <> 0 -> touches depth r0 = false -> touches depth rN = false -> exists c, shape_of depth r0 rN N U E A rho rho_w g = Ok (Some c).
Proof.
  intros HN HEA HU HW T0 TN. unfold shape_of, bedCB. rewrite T0, TN. cbn [orb]. apply catenary_hangs; try assumption; [lra|]. apply node_places_in; [exact HN|lra].
Qed.
End Shape.

(* ------------------------------ the damping ------------------------------ *)
Lemma damping_is zeta U E rho A N : (0 < N)%nat -> 0 < U -> 0 < E -> 0 < rho -> 0 < A -> 0 < zeta ->
  damping_ratio (rho * A * seg_length U N) (internal_damping (- zeta) U E rho A N * A / seg_length U N) (E * A / seg_length U N) = zeta.
Proof.
  intros HN HU HE Hr HA Hz. assert (P : 0 < INR N) by (apply lt_0_INR; exact HN). unfold damping_ratio, internal_damping, seg_length. destruct (Rlt_dec (- zeta) 0); [|lra].
  set (q := sqrt (E * rho)). assert (Hq : 0 < q) by (apply sqrt_lt_R0; nra).
  replace (4 * (E * A / (U / INR N)) * (rho * A * (U / INR N))) with (Rsqr (2 * A) * (E * rho)) by (unfold Rsqr; field; lra).
  rewrite sqrt_mult by (unfold Rsqr; nra). rewrite sqrt_Rsqr by lra. fold q. field. repeat split; lra.
Qed.
