(** Proofs about the line forces of MLine.v *)
From Coq Require Import Reals List Lra Lia Psatz Arith.
From Verif Require Import MErr MVec MStateOps MMat MInterp MLine SMat SLine PMat PEuler.
Import ListNotations.
Open Scope R_scope.

Ltac vring := intros; repeat match goal with x : v3 |- _ => destruct x end;
  cbv beta iota zeta delta [vadd vsub vscale vzero cross dot vx vy vz vopp]; try (apply v3eq; cbn [vx vy vz]); try ring.

Lemma vadd_0_l : forall a, vadd vzero a = a. Proof. vring. Qed.
Lemma vadd_0_r : forall a, vadd a vzero = a. Proof. vring. Qed.
Lemma vadd_comm : forall a b, vadd a b = vadd b a. Proof. vring. Qed.
Lemma vadd_assoc : forall a b c, vadd (vadd a b) c = vadd a (vadd b c). Proof. vring. Qed.
Lemma vsub_self : forall a, vsub a a = vzero. Proof. vring. Qed.
Lemma vsum_ext : forall n f g, (forall i, (i < n)%nat -> f i = g i) -> vsum n f = vsum n g.
Proof. induction n; intros f g H; cbn; [reflexivity|]. rewrite (IHn f g), H; auto. Qed.
Lemma nsum_ext : forall n f g, (forall i, (i < n)%nat -> f i = g i) -> nsum n f = nsum n g.
Proof. induction n; intros f g H; cbn; [reflexivity|]. rewrite (IHn f g), H; auto. Qed.
Lemma vsum_add : forall n f g, vsum n (fun i => vadd (f i) (g i)) = vadd (vsum n f) (vsum n g).
Proof. induction n; intros; cbn; [vring|]. rewrite IHn. generalize (vsum n f) (vsum n g) (f n) (g n). vring. Qed.
Lemma vsum_zero : forall n f, (forall i, (i < n)%nat -> f i = vzero) -> vsum n f = vzero.
Proof. induction n; intros f H; cbn; [reflexivity|]. rewrite IHn, H; auto. vring. Qed.
Lemma nsum_nonneg : forall n f, (forall i, (i < n)%nat -> 0 <= f i) -> 0 <= nsum n f.
Proof. induction n; intros f H; cbn; [lra|]. pose proof (IHn f). pose proof (H n ltac:(lia)). assert (0 <= nsum n f) by auto. lra. Qed.
Lemma nsum_scale : forall n f k, nsum n (fun i => k * f i) = k * nsum n f.
Proof. induction n; intros; cbn; [ring|]. rewrite IHn. ring. Qed.
Lemma nsum_add : forall n f g, nsum n (fun i => f i + g i) = nsum n f + nsum n g.
Proof. induction n; intros; cbn; [ring|]. rewrite IHn. ring. Qed.

(* summation by parts: node terms made of the two adjacent segments *)
Lemma abel_v : forall N (c d t : nat -> v3), (0 < N)%nat ->
  t 0%nat = c 0%nat -> t N = vscale (-1) (d (N - 1)%nat) ->
  (forall i, (0 < i < N)%nat -> t i = vsub (c i) (d (i - 1)%nat)) ->
  vsum (N + 1) t = vsum N (fun i => vsub (c i) (d i)).
Proof.
  intros N c d t HN H0 HNt Hi.
  assert (G : forall M, (M < N)%nat -> vsum (S M) t = vadd (vsum M (fun i => vsub (c i) (d i))) (c M)).
  { induction M as [|M IH]; intros HM.
    - cbn [vsum]. rewrite H0. reflexivity.
    - change (vsum (S (S M)) t) with (vadd (vsum (S M) t) (t (S M))). rewrite IH by lia. rewrite Hi by lia.
      replace (S M - 1)%nat with M by lia. cbn [vsum].
      generalize (vsum M (fun i => vsub (c i) (d i))) (c M) (d M) (c (S M)). vring. }
  destruct N as [|M]; [lia|]. replace (S M + 1)%nat with (S (S M)) by lia.
  change (vsum (S (S M)) t) with (vadd (vsum (S M) t) (t (S M))). rewrite (G M) by lia. rewrite HNt.
  replace (S M - 1)%nat with M by lia. cbn [vsum]. generalize (vsum M (fun i => vsub (c i) (d i))) (c M) (d M). vring.
Qed.
Lemma abel_r : forall N (c d t : nat -> R), (0 < N)%nat ->
  t 0%nat = c 0%nat -> t N = - (d (N - 1)%nat) ->
  (forall i, (0 < i < N)%nat -> t i = c i - d (i - 1)%nat) ->
  nsum (N + 1) t = nsum N (fun i => c i - d i).
Proof.
  intros N c d t HN H0 HNt Hi.
  assert (G : forall M, (M < N)%nat -> nsum (S M) t = nsum M (fun i => c i - d i) + c M).
  { induction M as [|M IH]; intros HM.
    - cbn [nsum]. rewrite H0. reflexivity.
    - change (nsum (S (S M)) t) with (nsum (S M) t + t (S M)). rewrite IH by lia. rewrite Hi by lia.
      replace (S M - 1)%nat with M by lia. cbn [nsum]. ring. }
  destruct N as [|M]; [lia|]. replace (S M + 1)%nat with (S (S M)) by lia.
  change (nsum (S (S M)) t) with (nsum (S M) t + t (S M)). rewrite (G M) by lia. rewrite HNt.
  replace (S M - 1)%nat with M by lia. cbn [nsum]. ring.
Qed.

(* quantities shared by two segments add up to twice the line *)
Lemma at_node_sum : forall L f, (0 < lN L)%nat -> nsum (lN L + 1) (at_node L f) = 2 * nsum (lN L) f.
Proof.
  intros L f HN. rewrite (abel_r (lN L) f (fun i => - f i)).
  - rewrite <- nsum_scale. apply nsum_ext. intros. ring.
  - exact HN.
  - reflexivity.
  - unfold at_node. destruct (Nat.eqb_spec (lN L) 0); [lia|]. rewrite Nat.eqb_refl. ring.
  - intros i Hi. unfold at_node. destruct (Nat.eqb_spec i 0); [lia|]. destruct (Nat.eqb_spec i (lN L)); [lia|]. ring.
Qed.
Lemma at_node_nonneg : forall L f i, (0 < lN L)%nat -> (i <= lN L)%nat -> (forall j, (j < lN L)%nat -> 0 <= f j) -> 0 <= at_node L f i.
Proof.
  intros L f i HN Hi H. unfold at_node. destruct (Nat.eqb_spec i 0); [apply H; lia|].
  destruct (Nat.eqb_spec i (lN L)); [apply H; lia|]. pose proof (H i ltac:(lia)). pose proof (H (i - 1)%nat ltac:(lia)). lra.
Qed.

(* ----- masses and weights ----- *)
Lemma masses_sum : forall L, (0 < lN L)%nat -> larea L = PI / 4 * ldia L * ldia L ->
  nsum (lN L + 1) (lmi L) = lrho L * larea L * nsum (lN L) (ll L).
Proof.
  intros L HN HA. unfold lmi.
  rewrite (nsum_ext _ _ (fun i => (PI / 8 * ldia L * ldia L * lrho L) * at_node L (ll L) i)) by (intros; ring).
  rewrite nsum_scale, at_node_sum by exact HN. rewrite HA. field.
Qed.
Lemma weight_sum : forall L e k, (0 < lN L)%nat ->
  nsum (lN L + 1) (fun i => vz (lW L e k i))
  = - gr e * (lrho L * larea L * nsum (lN L) (ll L) - rho_w e * (larea L * nsum (lN L) (fun i => lF L k i * ll L i))).
Proof.
  intros L e k HN. unfold lW. cbn [vz].
  rewrite (nsum_ext _ _ (fun i => (0.5 * larea L * - gr e) * at_node L (fun j => ll L j * (lrho L - lF L k j * rho_w e)) i)) by (intros; ring).
  rewrite nsum_scale, at_node_sum by exact HN.
  rewrite (nsum_ext (lN L) (fun j => ll L j * (lrho L - lF L k j * rho_w e)) (fun j => lrho L * ll L j + (- rho_w e) * (lF L k j * ll L j))) by (intros; ring).
  rewrite nsum_add, !nsum_scale. lra.
Qed.

(* ----- bending forces ----- *)
Lemma bump_sum : forall n a i v, (i < n)%nat -> vsum n (bump a i v) = vadd (vsum n a) v.
Proof.
  induction n; intros a i v H; [lia|]. cbn [vsum].
  destruct (Nat.eq_dec i n) as [->|E].
  - rewrite (vsum_ext n (bump a n v) a).
    + unfold bump. rewrite Nat.eqb_refl. symmetry. apply vadd_assoc.
    + intros j Hj. unfold bump. destruct (Nat.eqb_spec j n); [lia | reflexivity].
  - rewrite IHn by lia. unfold bump at 1. destruct (Nat.eqb_spec n i); [lia|].
    generalize (vsum n a) (a n). vring.
Qed.
Lemma bump_moment : forall n (r a : nat -> v3) i v, (i < n)%nat ->
  vsum n (fun j => cross (r j) (bump a i v j)) = vadd (vsum n (fun j => cross (r j) (a j))) (cross (r i) v).
Proof.
  induction n; intros r a i v H; [lia|]. cbn [vsum].
  destruct (Nat.eq_dec i n) as [->|E].
  - rewrite (vsum_ext n _ (fun j => cross (r j) (a j))).
    + unfold bump. rewrite Nat.eqb_refl. generalize (vsum n (fun j => cross (r j) (a j))) (r n) (a n). vring.
    + intros j Hj. unfold bump. destruct (Nat.eqb_spec j n); [lia | reflexivity].
  - rewrite IHn by lia. unfold bump. destruct (Nat.eqb_spec n i); [lia|].
    generalize (vsum n (fun j => cross (r j) (a j))) (cross (r n) (a n)) (cross (r i) v). vring.
Qed.
Lemma obnd_some : forall A B (o : option A) (k : A -> option B) b, obnd o k = Some b -> exists a, o = Some a /\ k a = Some b.
Proof. intros A B [a|] k b H; cbn in H; [eauto | discriminate]. Qed.
Lemma bend1_sum : forall L i Bs Bs', (0 < lN L)%nat -> (i <= lN L)%nat -> bend1 L i Bs = Some Bs' ->
  vsum (lN L + 1) Bs = vzero -> vsum (lN L + 1) Bs' = vzero.
Proof.
  intros L i Bs Bs' HN Hi H H0. unfold bend1 in H. cbv zeta in H.
  destruct (equalRealNos _ _); [inversion H; subst; exact H0|].
  destruct (Nat.eqb_spec i 0) as [E|E].
  { destruct (lcantA L); [| inversion H; subst; exact H0].
    apply obnd_some in H. destruct H as [EI [_ H]]. injection H as <-.
    rewrite !bump_sum by lia. rewrite H0.
    match goal with |- context [vscale (-1) ?v] => generalize v end. vring. }
  destruct (Nat.eqb_spec i (lN L)) as [E'|E'].
  { destruct (lcantB L); [| inversion H; subst; exact H0].
    apply obnd_some in H. destruct H as [EI [_ H]]. injection H as <-.
    rewrite !bump_sum by lia. rewrite H0.
    match goal with |- context [vscale (-1) ?v] => generalize v end. vring. }
  apply obnd_some in H. destruct H as [EI [_ H]]. injection H as <-.
  rewrite !bump_sum by lia. rewrite H0.
  match goal with |- context [vsub (vscale (-1) ?v) ?w] => generalize v w end. vring.
Qed.
Lemma bend_sum : forall L n Bs, (0 < lN L)%nat -> (n <= lN L + 1)%nat -> bend L n = Some Bs -> vsum (lN L + 1) Bs = vzero.
Proof.
  induction n as [|n IH]; intros Bs HN Hn H; cbn in H.
  - injection H as <-. apply vsum_zero. reflexivity.
  - apply obnd_some in H. destruct H as [B0 [E H]]. exact (bend1_sum L n B0 Bs HN ltac:(lia) H (IH B0 HN ltac:(lia) E)).
Qed.
Lemma lBs_sum : forall L Bs, (0 < lN L)%nat -> lBs L = Some Bs -> vsum (lN L + 1) Bs = vzero.
Proof.
  intros L Bs HN H. unfold lBs in H. destruct (lisEI L).
  - exact (bend_sum L (lN L + 1) Bs HN (le_n _) H).
  - injection H as <-. apply vsum_zero. reflexivity.
Qed.

(* ----- the internal forces of a line ----- *)
Lemma internal_eq : forall L e k T Td Bs i,
  internal L e k (lFnet L e k T Td Bs) i
  = vadd (if Nat.eqb i 0 then vadd (T 0%nat) (Td 0%nat)
          else if Nat.eqb i (lN L) then vscale (-1) (vadd (T (i - 1)%nat) (Td (i - 1)%nat))
          else vsub (vadd (T i) (Td i)) (vadd (T (i - 1)%nat) (Td (i - 1)%nat))) (Bs i).
Proof.
  intros. unfold internal, external, lFnet.
  generalize (lW L e k i) (lDp L e k i) (lDq L e k i) (lAp L e k i) (lAq L e k i) (lB L e k i) (lPb L e k i) (Bs i).
  destruct (Nat.eqb i 0); [generalize (T 0%nat) (Td 0%nat); vring|].
  destruct (Nat.eqb i (lN L)); [generalize (T (i - 1)%nat) (Td (i - 1)%nat); vring|].
  generalize (T i) (Td i) (T (i - 1)%nat) (Td (i - 1)%nat). vring.
Qed.
Lemma forces_some : forall L e k F, line_forces L e k = Some F ->
  exists Bs, lBs L = Some Bs /\ F = lFnet L e k (force_or_zero (lT L)) (force_or_zero (lTd L)) Bs
    /\ (forall i, (i < lN L)%nat -> lT L i = Some (force_or_zero (lT L) i))
    /\ (forall i, (i < lN L)%nat -> lTd L i = Some (force_or_zero (lTd L) i)).
Proof.
  intros L e k F H. unfold line_forces in H.
  destruct (all_some (lT L) (lN L)) eqn:E1; [| discriminate]. destruct (all_some (lTd L) (lN L)) eqn:E2; [| discriminate].
  cbn [andb] in H. apply obnd_some in H. destruct H as [Bs [E H]]. injection H as <-.
  assert (G : forall f n, all_some f n = true -> forall i, (i < n)%nat -> f i = Some (force_or_zero f i)).
  { induction n; intros Hn i Hi; [lia|]. cbn in Hn. apply Bool.andb_true_iff in Hn. destruct Hn as [Ha Hb].
    destruct (Nat.eq_dec i n) as [->|]; [| apply IHn; auto; lia].
    unfold force_or_zero. destruct (f n); [reflexivity | discriminate]. }
  exists Bs. split; [exact E|]. split; [reflexivity|]. split; apply G; assumption.
Qed.
Lemma internal_sum : forall L e k F, (0 < lN L)%nat -> line_forces L e k = Some F ->
  vsum (lN L + 1) (internal L e k F) = vzero.
Proof.
  intros L e k F HN H. apply forces_some in H. destruct H as [Bs [HB [-> _]]].
  rewrite (vsum_ext _ _ _ (fun i _ => internal_eq L e k _ _ Bs i)).
  rewrite vsum_add, (lBs_sum L Bs HN HB).
  set (T := force_or_zero (lT L)). set (Td := force_or_zero (lTd L)).
  rewrite (abel_v (lN L) (fun i => vadd (T i) (Td i)) (fun i => vadd (T i) (Td i))).
  - rewrite vsum_zero; [vring|]. intros. apply vsub_self.
  - exact HN.
  - reflexivity.
  - destruct (Nat.eqb_spec (lN L) 0); [lia|]. rewrite Nat.eqb_refl. reflexivity.
  - intros i Hi. destruct (Nat.eqb_spec i 0); [lia|]. destruct (Nat.eqb_spec i (lN L)); [lia|]. reflexivity.
Qed.
Lemma total_force : forall L e k F, (0 < lN L)%nat -> line_forces L e k = Some F ->
  vsum (lN L + 1) F = vsum (lN L + 1) (external L e k).
Proof.
  intros L e k F HN H. pose proof (internal_sum L e k F HN H) as HS.
  rewrite (vsum_ext _ F (fun i => vadd (external L e k i) (internal L e k F i))).
  - rewrite vsum_add, HS. apply vadd_0_r.
  - intros. unfold internal. generalize (F i) (external L e k i). vring.
Qed.

(* ----- directions ----- *)
Lemma dot_pos : forall a, 0 <= dot a a.
Proof. intros []. unfold dot. cbn. nra. Qed.
Lemma norm_pos : forall a, 0 <= norm a. Proof. intros. apply sqrt_pos. Qed.
Lemma norm_sq : forall a, norm a * norm a = dot a a.
Proof. intros. apply sqrt_sqrt, dot_pos. Qed.
Lemma tol_pos : 0 < tol. Proof. unfold tol. apply Rdiv_lt_0_compat; [lra | apply pow_lt; lra]. Qed.
Lemma tol_small : tol < 1.
Proof. unfold tol. apply Rmult_lt_reg_r with (2 ^ 52); [apply pow_lt; lra|]. unfold Rdiv. rewrite Rmult_assoc, Rinv_l by (apply pow_nonzero; lra). lra. Qed.
Lemma eq0_spec : forall x, 0 <= x -> equalRealNos x 0 = true <-> x <= tol.
Proof.
  intros x Hx. unfold equalRealNos.
  replace (100 * eps64 / 2) with tol by (unfold tol, eps64; field; apply pow_nonzero; lra).
  replace (x - 0) with x by ring. replace (x + 0) with x by ring. rewrite (Rabs_right x) by lra.
  pose proof tol_pos. pose proof tol_small. unfold Rmax.
  destruct (Rle_dec x 1); destruct (Rle_dec _ _); split; intros; try reflexivity; try discriminate; try nra.
Qed.
Lemma eq0_false : forall x, tol < x -> equalRealNos x 0 = false.
Proof.
  intros x H. pose proof tol_pos. destruct (equalRealNos x 0) eqn:E; [| reflexivity].
  apply eq0_spec in E; lra.
Qed.
Lemma norm_scale : forall k a, 0 <= k -> norm (vscale k a) = k * norm a.
Proof.
  intros k a Hk. unfold norm. replace (dot (vscale k a) (vscale k a)) with ((k * k) * dot a a) by (unfold dot, vscale; cbn; ring).
  rewrite sqrt_mult_alt by nra. rewrite sqrt_square by exact Hk. reflexivity.
Qed.
(* the direction is a non negative multiple of the difference, and unit when not tiny *)
Lemma unit_dir : forall a b, exists s, 0 <= s /\ fst (unitvector a b) = vscale s (vsub b a).
Proof.
  intros. unfold unitvector. cbn [fst]. destruct (equalRealNos _ _).
  - exists 1. split; [lra|]. generalize (vsub b a). vring.
  - exists (/ norm (vsub b a)). split; [| reflexivity].
    destruct (Req_dec (norm (vsub b a)) 0) as [E|E]; [rewrite E, Rinv_0; lra|].
    left. apply Rinv_0_lt_compat. pose proof (norm_pos (vsub b a)). lra.
Qed.
Lemma unit_len : forall a b, snd (unitvector a b) = norm (vsub b a).
Proof. reflexivity. Qed.
Lemma unit_is_unit : forall a b, tol < norm (vsub b a) -> dot (fst (unitvector a b)) (fst (unitvector a b)) = 1
  /\ vsub b a = vscale (norm (vsub b a)) (fst (unitvector a b)).
Proof.
  intros a b H. unfold unitvector. cbn [fst]. rewrite eq0_false by exact H. pose proof tol_pos.
  set (u := vsub b a) in *. assert (N := norm_sq u). split.
  - replace (dot (vscale (/ norm u) u) (vscale (/ norm u) u)) with (/ norm u * / norm u * dot u u) by (unfold dot, vscale; cbn; ring).
    rewrite <- N. field. lra.
  - replace (vscale (norm u) (vscale (/ norm u) u)) with (vscale (norm u * / norm u) u) by (generalize (norm u) (/ norm u); vring).
    rewrite Rinv_r by lra. vring.
Qed.
Lemma unit_le1 : forall a b, dot (fst (unitvector a b)) (fst (unitvector a b)) <= 1.
Proof.
  intros a b. pose proof tol_pos. pose proof tol_small.
  destruct (Rlt_dec tol (norm (vsub b a))) as [Hl|Hl].
  - rewrite (proj1 (unit_is_unit a b Hl)). lra.
  - unfold unitvector. cbn [fst]. pose proof (norm_pos (vsub b a)).
    assert (E : equalRealNos (norm (vsub b a)) 0 = true) by (apply eq0_spec; lra). rewrite E.
    rewrite <- norm_sq. nra.
Qed.

(* ----- moments ----- *)
Lemma lT_dir : forall L i t, lT L i = Some t -> exists s, t = vscale s (vsub (lr L (S i)) (lr L i)).
Proof.
  intros L i t H. unfold lT in H. apply obnd_some in H. destruct H as [E [_ H]]. injection H as <-.
  destruct (Rlt_dec _ _).
  - unfold lqs. destruct (unit_dir (lr L i) (lr L (S i))) as [s [_ ->]].
    match goal with |- exists x, vscale ?k _ = _ => exists (k * s); generalize k end. generalize (vsub (lr L (S i)) (lr L i)). vring.
  - exists 0. generalize (vsub (lr L (S i)) (lr L i)). vring.
Qed.
Lemma lTd_dir : forall L i t, lTd L i = Some t -> exists s, t = vscale s (vsub (lr L (S i)) (lr L i)).
Proof.
  intros L i t H. unfold lTd in H. apply obnd_some in H. destruct H as [c [_ H]]. injection H as <-.
  unfold lqs. destruct (unit_dir (lr L i) (lr L (S i))) as [s [_ ->]].
  match goal with |- exists x, vscale ?k _ = _ => exists (k * s); generalize k end. generalize (vsub (lr L (S i)) (lr L i)). vring.
Qed.
Lemma cross_double : forall q p, dot q q = 1 -> dot q p = 0 -> cross q (cross q p) = vscale (-1) p.
Proof.
  intros [a b c] [x y z] H1 H2. unfold dot in *. cbn in *. unfold cross, vscale. cbn.
  apply v3eq; cbn [vx vy vz].
  - transitivity (a * (a * x + b * y + c * z) - x * (a * a + b * b + c * c)); [ring|]. rewrite H1, H2. ring.
  - transitivity (b * (a * x + b * y + c * z) - y * (a * a + b * b + c * c)); [ring|]. rewrite H1, H2. ring.
  - transitivity (c * (a * x + b * y + c * z) - z * (a * a + b * b + c * c)); [ring|]. rewrite H1, H2. ring.
Qed.
Lemma pvec_perp : forall L i, (0 < i < lN L)%nat -> dot (lqs L (i - 1)) (lpvec L i) = 0 /\ dot (lqs L i) (lpvec L i) = 0.
Proof.
  intros L i Hi. unfold lpvec. destruct (equalRealNos _ _); [unfold vzero, dot; cbn; split; ring|].
  destruct (Nat.eqb_spec i 0); [lia|]. destruct (Nat.eqb_spec i (lN L)); [lia|].
  destruct (equalRealNos _ _); generalize (lqs L (i - 1)%nat) (lqs L i); intros [] []; unfold dot, cross, vscale; cbn; split; ring.
Qed.
Lemma bend1_moment : forall L i Bs Bs', long L -> lcantA L = false -> lcantB L = false -> (0 < lN L)%nat -> (i <= lN L)%nat ->
  bend1 L i Bs = Some Bs' ->
  vsum (lN L + 1) (fun j => cross (lr L j) (Bs j)) = vzero -> vsum (lN L + 1) (fun j => cross (lr L j) (Bs' j)) = vzero.
Proof.
  intros L i Bs Bs' HL HA HB HN Hi H H0. unfold bend1 in H. cbv zeta in H. rewrite HA, HB in H.
  destruct (equalRealNos _ _); [inversion H; subst; exact H0|].
  destruct (Nat.eqb_spec i 0) as [E|E]; [inversion H; subst; exact H0|].
  destruct (Nat.eqb_spec i (lN L)) as [E'|E']; [inversion H; subst; exact H0|].
  apply obnd_some in H. destruct H as [EI [_ H]]. injection H as <-.
  rewrite !bump_moment by lia. rewrite H0.
  destruct (pvec_perp L i ltac:(lia)) as [P1 P2].
  assert (L1 := HL (i - 1)%nat ltac:(lia)). assert (L2 := HL i ltac:(lia)).
  replace (S (i - 1)) with i in L1 by lia.
  destruct (unit_is_unit _ _ L1) as [U1 D1]. destruct (unit_is_unit _ _ L2) as [U2 D2].
  assert (Q1 : fst (unitvector (lr L (i - 1)) (lr L i)) = lqs L (i - 1)) by (unfold lqs; replace (S (i - 1)) with i by lia; reflexivity).
  assert (S1 : llstr L (i - 1) = norm (vsub (lr L i) (lr L (i - 1)))) by (unfold llstr; replace (S (i - 1)) with i by lia; reflexivity).
  rewrite Q1 in U1, D1. change (fst (unitvector (lr L i) (lr L (S i)))) with (lqs L i) in U2, D2.
  change (llstr L i) with (norm (vsub (lr L (S i)) (lr L i))). rewrite S1.
  pose proof tol_pos.
  replace (i + 1)%nat with (S i) by lia.
  set (n1 := norm (vsub (lr L i) (lr L (i - 1)))) in *. set (n2 := norm (vsub (lr L (S i)) (lr L i))) in *.
  set (ke := lKurv L i * EI). set (p := lpvec L i) in *.
  set (q1 := lqs L (i - 1)) in *. set (q2 := lqs L i) in *.
  assert (C1 := cross_double q1 p U1 P1). assert (C2 := cross_double q2 p U2 P2).
  replace (lr L (i - 1)) with (vsub (lr L i) (vscale n1 q1)) by (rewrite <- D1; generalize (lr L i) (lr L (i - 1)%nat); vring).
  replace (lr L (S i)) with (vadd (lr L i) (vscale n2 q2)) by (rewrite <- D2; generalize (lr L i) (lr L (S i)); vring).
  transitivity (vadd (vscale (- (n1 * (ke / n1))) (cross q1 (cross q1 p))) (vscale (n2 * (ke / n2)) (cross q2 (cross q2 p)))).
  - generalize (lr L i) q1 q2 p n1 n2 (ke / n1) (ke / n2). vring.
  - rewrite C1, C2. replace (n1 * (ke / n1)) with ke by (field; lra). replace (n2 * (ke / n2)) with ke by (field; lra).
    generalize p. vring.
Qed.
Lemma bend_moment : forall L n Bs, long L -> lcantA L = false -> lcantB L = false -> (0 < lN L)%nat -> (n <= lN L + 1)%nat ->
  bend L n = Some Bs -> vsum (lN L + 1) (fun j => cross (lr L j) (Bs j)) = vzero.
Proof.
  induction n as [|n IH]; intros Bs HL HA HB HN Hn H; cbn in H.
  - injection H as <-. apply vsum_zero. intros. generalize (lr L i). vring.
  - apply obnd_some in H. destruct H as [B0 [E H]].
    eapply bend1_moment; [exact HL | exact HA | exact HB | exact HN | | exact H |]; [lia|]. apply IH; auto. lia.
Qed.
Lemma internal_moment : forall L e k F, (0 < lN L)%nat -> line_forces L e k = Some F ->
  lisEI L = false \/ (long L /\ lcantA L = false /\ lcantB L = false) ->
  vsum (lN L + 1) (fun i => cross (lr L i) (internal L e k F i)) = vzero.
Proof.
  intros L e k F HN H HC. apply forces_some in H. destruct H as [Bs [HB [-> [HT HTd]]]].
  set (T := force_or_zero (lT L)) in *. set (Td := force_or_zero (lTd L)) in *.
  set (t := fun i => if Nat.eqb i 0 then vadd (T 0%nat) (Td 0%nat)
          else if Nat.eqb i (lN L) then vscale (-1) (vadd (T (i - 1)%nat) (Td (i - 1)%nat))
          else vsub (vadd (T i) (Td i)) (vadd (T (i - 1)%nat) (Td (i - 1)%nat))).
  rewrite (vsum_ext _ _ (fun i => vadd (cross (lr L i) (t i)) (cross (lr L i) (Bs i)))).
  2:{ intros i Hi. rewrite internal_eq. fold (t i). generalize (lr L i) (t i) (Bs i). vring. }
  rewrite vsum_add.
  assert (HBm : vsum (lN L + 1) (fun i => cross (lr L i) (Bs i)) = vzero).
  { unfold lBs in HB. destruct (lisEI L) eqn:EE.
    - destruct HC as [HC|[H1 [H2 H3]]]; [discriminate|]. eapply bend_moment; eauto.
    - injection HB as <-. apply vsum_zero. intros. generalize (lr L i). vring. }
  rewrite HBm, vadd_0_r.
  rewrite (abel_v (lN L) (fun i => cross (lr L i) (vadd (T i) (Td i))) (fun i => cross (lr L (S i)) (vadd (T i) (Td i)))).
  - apply vsum_zero. intros i Hi.
    destruct (lT_dir L i _ (HT i Hi)) as [s1 E1]. destruct (lTd_dir L i _ (HTd i Hi)) as [s2 E2].
    rewrite E1, E2. generalize (lr L i) (lr L (S i)). vring.
  - exact HN.
  - unfold t. reflexivity.
  - unfold t. destruct (Nat.eqb_spec (lN L) 0); [lia|]. rewrite Nat.eqb_refl.
    replace (S (lN L - 1)) with (lN L) by lia. generalize (lr L (lN L)) (vadd (T (lN L - 1)%nat) (Td (lN L - 1)%nat)). vring.
  - intros i Hi. unfold t. destruct (Nat.eqb_spec i 0); [lia|]. destruct (Nat.eqb_spec i (lN L)); [lia|].
    replace (S (i - 1)) with i by lia. generalize (lr L i) (vadd (T i) (Td i)) (vadd (T (i - 1)%nat) (Td (i - 1)%nat)). vring.
Qed.
