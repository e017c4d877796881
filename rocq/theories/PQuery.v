(** Queries of a line: proofs. *)
From Coq Require Import ZArith List Arith Bool Reals Lra Lia.
From Verif Require Import MErr MStateOps MVec MInterp MLine MApi MQuery SQuery PLine PLineB.
Import ListNotations.
Open Scope R_scope.

Lemma norm_pos a : 0 <= norm a.
Proof. apply sqrt_pos. Qed.
Lemma norm_sqr a : norm a * norm a = dot a a.
Proof. unfold norm. apply sqrt_sqrt. apply dot_pos. Qed.
Lemma norm_add a b : norm (vadd a b) <= norm a + norm b.
Proof.
  pose proof (norm_pos a) as A. pose proof (norm_pos b) as B. pose proof (norm_pos (vadd a b)) as C. pose proof (norm_sqr a) as A2. pose proof (norm_sqr b) as B2. pose proof (norm_sqr (vadd a b)) as C2.
  assert (D : dot (vadd a b) (vadd a b) = dot a a + 2 * dot a b + dot b b) by (destruct a, b; unfold dot; cbn; ring).
  assert (E : dot a b <= norm a * norm b).
  { pose proof (cauchy a b) as K. rewrite <- A2, <- B2 in K. destruct (Rle_lt_dec (dot a b) (norm a * norm b)) as [H|H]; [exact H|]. exfalso. assert (0 <= norm a * norm b) by (apply Rmult_le_pos; assumption). nra. }
  destruct (Rle_lt_dec (norm (vadd a b)) (norm a + norm b)) as [H|H]; [exact H|]. exfalso. nra.
Qed.

Lemma node_answers q L i : (i <= ld_N L)%nat -> exists v, line_node q L i = Ok v /\ answers (MoorDyn_GetLineNode q (Some L) i) v.
Proof. intro H. unfold MoorDyn_GetLineNode, line_node. destruct (Nat.ltb_spec (ld_N L) i); [lia|]. eexists. split; reflexivity. Qed.
Lemma answers_node q L i v : answers (MoorDyn_GetLineNode q (Some L) i) v -> line_node q L i = Ok v.
Proof. unfold answers, MoorDyn_GetLineNode, line_node. destruct (Nat.ltb (ld_N L) i); [intro H; discriminate H|]. cbn. intro H. injection H as ->. reflexivity. Qed.
Lemma max_ten_ok L n : (n <= ld_N L)%nat -> exists m, max_ten L n = Ok m /\ 0 <= m /\ (forall i v, (i < n)%nat -> line_node QTen L i = Ok v -> norm v <= m) /\
  (m = 0 \/ exists i v, (i < n)%nat /\ line_node QTen L i = Ok v /\ m = norm v).
Proof.
  induction n as [|n IH]; intro H; [exists 0; split; [reflexivity|]; split; [lra|]; split; [intros; lia|left; reflexivity]|].
  destruct IH as (m & E & P & U & A); [lia|]. destruct (node_answers QTen L n ltac:(lia)) as (v & V & _). cbn [max_ten]. rewrite E. cbn [obind]. rewrite V. cbn [obind]. cbv zeta.
  pose proof (norm_pos v). destruct (Rlt_dec m (norm v)) as [G|G]; eexists; (split; [reflexivity|]); (split; [lra|]); split.
  - intros i w Hi Hw. destruct (Nat.eq_dec i n) as [->|N]; [rewrite V in Hw; injection Hw as <-; lra|]. specialize (U i w ltac:(lia) Hw). lra.
  - right. exists n, v. repeat split; [lia|exact V].
  - intros i w Hi Hw. destruct (Nat.eq_dec i n) as [->|N]; [rewrite V in Hw; injection Hw as <-; lra|]. exact (U i w ltac:(lia) Hw).
  - destruct A as [A|(i & w & Hi & Hw & A)]; [left; exact A|right; exists i, w; repeat split; [lia|exact Hw|exact A]].
Qed.
Lemma max_nodes L : (1 <= ld_N L)%nat -> exists m, answers (MoorDyn_GetLineMaxTen (Some L)) m /\ largest_up_to L (ld_N L - 1) m.
Proof.
  intro H. destruct (max_ten_ok L (ld_N L) (le_n _)) as (m & E & P & U & A). exists m. split; [unfold answers, MoorDyn_GetLineMaxTen; rewrite E; reflexivity|]. split.
  - intros i v Hi Hv. apply (U i v); [lia|]. apply answers_node. exact Hv.
  - destruct A as [A|(i & v & Hi & Hv & A)].
    + destruct (node_answers QTen L 0 ltac:(lia)) as (v & V & W). exists 0%nat, v. split; [lia|]. split; [exact W|]. pose proof (U 0%nat v ltac:(lia) V). pose proof (norm_pos v). lra.
    + destruct (node_answers QTen L i ltac:(lia)) as (w & V & W). assert (w = v) by congruence. subst w. exists i, v. split; [lia|]. split; [exact W|exact A].
Qed.
Lemma half_sum a b c d : vscale 0.5 (vadd (vadd (vadd a b) c) d) = vscale 0.5 (vadd (vadd a c) (vadd b d)).
Proof. destruct a, b, c, d. unfold vscale, vadd. cbn. f_equal; ring. Qed.
Lemma inner_below L i : (2 <= ld_N L)%nat -> (i < ld_N L)%nat -> (forall j, (j < ld_N L - 1)%nat -> norm (segment_tension L j) < norm (segment_tension L (ld_N L - 1))) ->
  forall v, line_node QTen L i = Ok v -> norm v < norm (segment_tension L (ld_N L - 1)).
Proof.
  intros N Hi M v. unfold line_node. destruct (Nat.ltb_spec (ld_N L) i); [lia|]. destruct (Nat.eqb_spec i 0) as [->|Z]; [intro E; injection E as <-; apply (M 0%nat); lia|].
  destruct (Nat.eqb_spec i (ld_N L)); [lia|]. intro E. injection E as <-. rewrite half_sum. change (vadd (ld_T L i) (ld_Td L i)) with (segment_tension L i). change (vadd (ld_T L (i - 1)) (ld_Td L (i - 1))) with (segment_tension L (i - 1)).
  rewrite norm_scale by lra. pose proof (norm_add (segment_tension L i) (segment_tension L (i - 1))) as T. pose proof (M (i - 1)%nat ltac:(lia)) as P.
  assert (Q : norm (segment_tension L i) <= norm (segment_tension L (ld_N L - 1))) by (destruct (Nat.eq_dec i (ld_N L - 1)) as [->|K]; [lra|left; apply M; lia]). lra.
Qed.
Lemma max_misses L : (2 <= ld_N L)%nat -> (forall j, (j < ld_N L - 1)%nat -> norm (segment_tension L j) < norm (segment_tension L (ld_N L - 1))) ->
  exists m f, answers (MoorDyn_GetLineMaxTen (Some L)) m /\ answers (MoorDyn_GetLineFairTen (Some L)) f /\ largest_up_to L (ld_N L) f /\ m < f.
Proof.
  intros N M. destruct (max_nodes L ltac:(lia)) as (m & E & U & i & v & Hi & Hv & ->). exists (norm v), (norm (segment_tension L (ld_N L - 1))).
  assert (F : line_node QTen L (ld_N L) = Ok (segment_tension L (ld_N L - 1))).
  { unfold line_node. destruct (Nat.ltb_spec (ld_N L) (ld_N L)); [lia|]. destruct (Nat.eqb_spec (ld_N L) 0); [lia|]. rewrite Nat.eqb_refl. reflexivity. }
  assert (B : norm v < norm (segment_tension L (ld_N L - 1))) by (apply (inner_below L i N ltac:(lia) M); apply answers_node; exact Hv).
  split; [exact E|]. split; [unfold answers, MoorDyn_GetLineFairTen; rewrite F; reflexivity|]. split; [|exact B]. split.
  - intros j w Hj Hw. apply answers_node in Hw. destruct (Nat.eq_dec j (ld_N L)) as [->|K]; [rewrite F in Hw; injection Hw as <-; lra|]. left. apply (inner_below L j N ltac:(lia) M w Hw).
  - exists (ld_N L), (segment_tension L (ld_N L - 1)). split; [lia|]. split; [|reflexivity]. unfold answers, MoorDyn_GetLineNode. rewrite F. reflexivity.
Qed.

Lemma seabed_query n L e k T Td Bs i : (i <= lN L)%nat -> exists f b,
  answers (MoorDyn_GetLineNode QSeabedForce (Some (data_of n L e k T Td Bs)) i) f /\ answers (MoorDyn_GetLineNode QBendStiff (Some (data_of n L e k T Td Bs)) i) b /\
  f = vadd (lB L e k i) b /\ (f = lB L e k i <-> b = vzero).
Proof.
  intro H. unfold MoorDyn_GetLineNode, line_node. cbn [data_of ld_N ld_B ld_Bs]. destruct (Nat.ltb_spec (lN L) i); [lia|]. do 2 eexists. split; [reflexivity|]. split; [reflexivity|]. split; [reflexivity|].
  destruct (lB L e k i) as [x y z], (Bs i) as [a b c]. unfold vadd, vzero. cbn. split; intro E; injection E as E1 E2 E3; f_equal; lra.
Qed.
Lemma net_query n L e k T Td Bs i : (i <= lN L)%nat -> exists net w d fk sb,
  let D := data_of n L e k T Td Bs in
  answers (MoorDyn_GetLineNode QForce (Some D) i) net /\ answers (MoorDyn_GetLineNode QWeight (Some D) i) w /\ answers (MoorDyn_GetLineNode QDrag (Some D) i) d /\
  answers (MoorDyn_GetLineNode QFroudeKrilov (Some D) i) fk /\ answers (MoorDyn_GetLineNode QSeabedForce (Some D) i) sb /\
  net = vadd (pulls D i) (vadd (vadd (vadd (vadd w d) fk) sb) (lPb L e k i)).
Proof.
  intro H. cbv zeta. unfold MoorDyn_GetLineNode, line_node. cbn [data_of ld_N ld_Fnet ld_W ld_Dp ld_Dq ld_Ap ld_Aq ld_B ld_Bs]. destruct (Nat.ltb_spec (lN L) i); [lia|].
  do 5 eexists. repeat (split; [reflexivity|]). unfold lFnet, pulls, segment_tension. cbn [data_of ld_N ld_T ld_Td].
  destruct (lW L e k i), (lDp L e k i), (lDq L e k i), (lAp L e k i), (lAq L e k i), (lB L e k i), (Bs i), (lPb L e k i).
  destruct (Nat.eqb_spec i 0) as [->|Z]; [|destruct (Nat.eqb_spec i (lN L)) as [->|K]].
  - destruct (T 0%nat), (Td 0%nat). unfold vadd, vsub, vscale. cbn. f_equal; ring.
  - destruct (T (lN L - 1)%nat), (Td (lN L - 1)%nat). unfold vadd, vsub, vscale. cbn. f_equal; ring.
  - destruct (T i), (Td i), (T (i - 1)%nat), (Td (i - 1)%nat). unfold vadd, vsub, vscale. cbn. f_equal; ring.
Qed.
