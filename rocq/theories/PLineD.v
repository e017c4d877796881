(** Proofs about damping curves. *)
From Coq Require Import Reals List Arith Lra Lia.
From Verif Require Import MErr MVec MStateOps MMat MInterp MLine SInterp SLine SLineD PInterp PMat PLine PLineB PLineE.
Import ListNotations.
Open Scope R_scope.

Lemma find_cell : forall xs x, increasing xs -> (2 <= length xs)%nat -> nth 0 xs 0 < x < nth (length xs - 1) xs 0 -> exists k, (S k < length xs)%nat /\ nth k xs 0 <= x <= nth (S k) xs 0.
Proof.
  intros xs x HI HL H.
  assert (G : forall n, (n < length xs)%nat -> x <= nth n xs 0 -> exists k, (S k < length xs)%nat /\ nth k xs 0 <= x <= nth (S k) xs 0).
  { induction n as [|n IH]; intros Hn Hx; [lra|]. destruct (Rle_dec (nth n xs 0) x) as [h|h]; [exists n; split; [exact Hn|lra]|]. apply IH; [lia|lra]. }
  apply (G (length xs - 1)%nat); [lia|lra].
Qed.
Lemma neg_sign : forall a p, a < 0 -> 0 <= a * p -> p <= 0. Proof. intros. nra. Qed.
Lemma pos_sign : forall a p, 0 < a -> 0 <= a * p -> 0 <= p. Proof. intros. nra. Qed.
Lemma passive_value : forall xs ys x Y, passive xs ys -> interp xs ys x = Ok Y -> 0 <= x * Y.
Proof.
  intros xs ys x Y (HI & HL & H0 & (k0 & Hk & Zx & Zy) & HP) E.
  assert (N0 : xs <> []) by (intro C; subst; cbn in H0; lra).
  destruct (interp_spec xs ys x HI N0 HL) as (Y' & E' & (L1 & L2 & L3)). rewrite E in E'. injection E' as <-.
  assert (K0 : (0 < k0)%nat) by (destruct k0; [lra|lia]).
  assert (PL := HP (length xs - 1)%nat ltac:(lia)). assert (P0 := HP 0%nat ltac:(lia)).
  destruct (Rle_dec x (nth 0 xs 0)) as [A|A]; [rewrite (L1 A); nra|].
  destruct (Rle_dec (nth (length xs - 1) xs 0) x) as [B|B].
  - rewrite (L2 B). assert (0 <= nth (length xs - 1) xs 0). { destruct (Nat.eq_dec k0 (length xs - 1)) as [e|e]; [rewrite <- e; lra|]. pose proof (HI k0 (length xs - 1)%nat ltac:(lia)). lra. }
    destruct (Req_dec (nth (length xs - 1) xs 0) 0) as [z|z]; [|nra].
    assert (k0 = length xs - 1)%nat. { destruct (Nat.eq_dec k0 (length xs - 1)) as [e|e]; [exact e|]. pose proof (HI k0 (length xs - 1)%nat ltac:(lia)). lra. }
    subst k0. rewrite Zy. lra.
  - destruct (find_cell xs x HI ltac:(lia) ltac:(lra)) as (k & Hk1 & Hx). pose proof (L3 k Hk1 Hx) as Q. pose proof (HI k (S k) ltac:(lia)) as D.
    pose proof (HP k ltac:(lia)) as Pk. pose proof (HP (S k) Hk1) as PS.
    assert (C : nth (S k) xs 0 <= 0 \/ 0 <= nth k xs 0).
    { destruct (le_lt_dec (S k) k0) as [c|c]; [left|right].
      - destruct (Nat.eq_dec (S k) k0) as [->|e]; [lra|]. pose proof (HI (S k) k0 ltac:(lia)). lra.
      - destruct (Nat.eq_dec k k0) as [->|e]; [lra|]. pose proof (HI k0 k ltac:(lia)). lra. }
    assert (Zk : nth k xs 0 = 0 -> nth k ys 0 = 0).
    { intro z. assert (k = k0) as ->; [|exact Zy]. destruct (Nat.lt_trichotomy k k0) as [c|[c|c]]; [|exact c|]; [pose proof (HI k k0 ltac:(lia))|pose proof (HI k0 k ltac:(lia))]; lra. }
    assert (ZS : nth (S k) xs 0 = 0 -> nth (S k) ys 0 = 0).
    { intro z. assert (S k = k0) as ->; [|exact Zy]. destruct (Nat.lt_trichotomy (S k) k0) as [c|[c|c]]; [|exact c|]; [pose proof (HI (S k) k0 ltac:(lia))|pose proof (HI k0 (S k) ltac:(lia))]; lra. }
    set (a := nth k xs 0) in *. set (b := nth (S k) xs 0) in *. set (p := nth k ys 0) in *. set (q := nth (S k) ys 0) in *.
    assert (V : Y * (b - a) = p * (b - x) + q * (x - a)) by lra.
    assert (G : 0 <= x * Y * (b - a)).
    { replace (x * Y * (b - a)) with (x * (p * (b - x) + q * (x - a))) by (rewrite <- V; ring). destruct C as [C|C].
      - assert (p <= 0) by (apply (neg_sign a); [lra|exact Pk]). assert (q <= 0) by (destruct (Req_dec b 0) as [z|z]; [rewrite (ZS z); lra|apply (neg_sign b); [lra|exact PS]]).
        assert (p * (b - x) <= 0) by nra. assert (q * (x - a) <= 0) by nra. assert (x <= 0) by lra. nra.
      - assert (0 <= q) by (apply (pos_sign b); [lra|exact PS]). assert (0 <= p) by (destruct (Req_dec a 0) as [z|z]; [rewrite (Zk z); lra|apply (pos_sign a); [lra|exact Pk]]).
        assert (0 <= p * (b - x)) by nra. assert (0 <= q * (x - a)) by nra. assert (0 <= x) by lra. nra. }
    apply (pos_sign (b - a)); [lra|]. rewrite Rmult_comm. exact G.
Qed.

Lemma damping_any : forall L e k F, (0 < lN L)%nat -> line_forces L e k = Some F ->
  exists F0, line_forces (undamped L) e k = Some F0 /\ (forall i, (i < lN L)%nat -> lTd L i <> None) /\
    power L F = power L F0 + nsum (lN L) (fun i => dot (force_or_zero (lTd L) i) (vsub (lrd L i) (lrd L (S i)))).
Proof.
  intros L e k F HN H. apply forces_some in H. destruct H as [Bs [HB [-> [HT HTd]]]].
  assert (EU : line_forces (undamped L) e k = Some (lFnet L e k (force_or_zero (lT L)) (force_or_zero (lTd (undamped L))) Bs)).
  { unfold line_forces. rewrite undamped_Bs, HB. change (lN (undamped L)) with (lN L).
    rewrite (all_some_ext (lT (undamped L)) (lT L)) by reflexivity.
    assert (A1 : all_some (lT L) (lN L) = true).
    { clear -HT. revert HT. generalize (lN L). induction n; intros HT; cbn; [reflexivity|].
      rewrite IHn by (intros; apply HT; lia). rewrite (HT n) by lia. reflexivity. }
    assert (A2 : all_some (lTd (undamped L)) (lN L) = true).
    { generalize (lN L). induction n; cbn [all_some]; [reflexivity|]. rewrite IHn, undamped_Td. reflexivity. }
    rewrite A1, A2. reflexivity. }
  eexists. split; [exact EU|]. split; [intros i Hi C; rewrite (HTd i Hi) in C; discriminate|].
  unfold power.
  set (Td := force_or_zero (lTd L)) in *. set (T := force_or_zero (lT L)) in *.
  set (t := fun i => dot (if Nat.eqb i 0 then Td 0%nat else if Nat.eqb i (lN L) then vscale (-1) (Td (i - 1)%nat) else vsub (Td i) (Td (i - 1)%nat)) (lrd L i)).
  rewrite (nsum_ext _ _ (fun i => dot (lFnet L e k T (force_or_zero (lTd (undamped L))) Bs i) (lrd L i) + t i)).
  2:{ intros i Hi. unfold t, lFnet. cbv zeta.
      assert (Z : forall j, force_or_zero (lTd (undamped L)) j = vzero) by (intros; unfold force_or_zero; rewrite undamped_Td; reflexivity).
      rewrite !Z.
      generalize (lrd L i) (lW L e k i) (lDp L e k i) (lDq L e k i) (lAp L e k i) (lAq L e k i) (lB L e k i) (lPb L e k i) (Bs i).
      destruct (Nat.eqb i 0); [generalize (T 0%nat) (Td 0%nat); vring|].
      destruct (Nat.eqb i (lN L)); [generalize (T (i - 1)%nat) (Td (i - 1)%nat); vring|].
      generalize (T i) (Td i) (T (i - 1)%nat) (Td (i - 1)%nat). vring. }
  rewrite nsum_add. f_equal.
  rewrite (abel_r (lN L) (fun i => dot (Td i) (lrd L i)) (fun i => dot (Td i) (lrd L (S i)))).
  - apply nsum_ext. intros i Hi. generalize (Td i) (lrd L i) (lrd L (S i)). vring.
  - exact HN.
  - unfold t. reflexivity.
  - unfold t. destruct (Nat.eqb_spec (lN L) 0); [lia|]. rewrite Nat.eqb_refl. replace (S (lN L - 1)) with (lN L) by lia.
    generalize (Td (lN L - 1)%nat) (lrd L (lN L)). vring.
  - intros i Hi. unfold t. destruct (Nat.eqb_spec i 0); [lia|]. destruct (Nat.eqb_spec i (lN L)); [lia|].
    replace (S (i - 1)) with i by lia. generalize (Td i) (Td (i - 1)%nat) (lrd L i). vring.
Qed.
(** the power of the damping of a segment *)
Lemma damp_curve_power : forall L i Td x0 xs, ldx L = x0 :: xs -> x0 < 0 -> lTd L i = Some Td ->
  exists Y, interp (ldx L) (ldy L) (lldstr L i / ll L i) = Ok Y /\ lldstr L i / ll L i <> 0 /\ dot Td (vsub (lrd L i) (lrd L (S i))) = - (larea L * (Y * lldstr L i)).
Proof.
  intros L i Td x0 xs EX Hx E. unfold lTd in E. rewrite EX in E. cbn [length Nat.eqb negb] in E. unfold getNonlinearC in E. rewrite EX in E. cbv zeta in E. rewrite <- EX in E.
  destruct (Rlt_dec x0 0); [|lra]. destruct (interp (ldx L) (ldy L) (lldstr L i / ll L i)) as [Y| | |] eqn:EI; try discriminate. cbn [oval obnd] in E. unfold fdiv in E.
  destruct (Req_EM_T (lldstr L i / ll L i) 0) as [z|z]; [discriminate|]. cbn [obnd] in E. injection E as <-. exists Y. split; [reflexivity|]. split; [exact z|].
  assert (D : dot (lqs L i) (vsub (lrd L i) (lrd L (S i))) = - lldstr L i) by (unfold lldstr; generalize (lqs L i) (lrd L i) (lrd L (S i)); vring).
  transitivity (Y / (lldstr L i / ll L i) * larea L * lldstr L i / ll L i * dot (lqs L i) (vsub (lrd L i) (lrd L (S i)))).
  { generalize (lqs L i) (vsub (lrd L i) (lrd L (S i))) (Y / (lldstr L i / ll L i) * larea L * lldstr L i / ll L i). vring. }
  rewrite D. set (w := lldstr L i / ll L i) in *. replace (Y / w * larea L * lldstr L i / ll L i) with (Y * larea L * (/ w * w)) by (unfold w; unfold Rdiv; ring).
  rewrite Rinv_l by exact z. ring.
Qed.
Lemma curve_dissipates : forall L e k F, (0 < lN L)%nat -> passive (ldx L) (ldy L) -> line_forces L e k = Some F ->
  0 <= larea L -> (forall i, (i < lN L)%nat -> 0 < ll L i) ->
  exists F0, line_forces (undamped L) e k = Some F0 /\ power L F <= power L F0.
Proof.
  intros L e k F HN HP H HA Hl. destruct (damping_any L e k F HN H) as (F0 & E & S1 & P). exists F0. split; [exact E|]. rewrite P.
  assert (0 <= nsum (lN L) (fun i => - dot (force_or_zero (lTd L) i) (vsub (lrd L i) (lrd L (S i))))) as G.
  { apply nsum_nonneg. intros i Hi. unfold force_or_zero. destruct (lTd L i) as [Td|] eqn:ET; [|exfalso; exact (S1 i Hi ET)].
    assert (exists x0 xs, ldx L = x0 :: xs /\ x0 < 0) as (x0 & xs & EX & Hx). { destruct HP as (_ & _ & H0 & _). destruct (ldx L) as [|x0 xs]; cbn in H0; [lra|eauto]. }
    destruct (damp_curve_power L i Td x0 xs EX Hx ET) as (Y & EI & z & ->). pose proof (passive_value _ _ _ _ HP EI) as V.
    rewrite Ropp_involutive. apply Rmult_le_pos; [exact HA|]. replace (Y * lldstr L i) with (lldstr L i / ll L i * Y * ll L i) by (field; specialize (Hl i Hi); lra).
    apply Rmult_le_pos; [exact V|]. left. exact (Hl i Hi). }
  rewrite (nsum_ext _ _ (fun i => (-1) * dot (force_or_zero (lTd L) i) (vsub (lrd L i) (lrd L (S i))))) in G by (intros; ring). rewrite nsum_scale in G. lra.
Qed.
Lemma curve_power : forall L e k F, (0 < lN L)%nat -> long L -> (exists x0 xs, ldx L = x0 :: xs /\ x0 < 0) -> line_forces L e k = Some F ->
  exists F0 Y, line_forces (undamped L) e k = Some F0 /\ (forall i, (i < lN L)%nat -> interp (ldx L) (ldy L) (stretch_rate L i / ll L i) = Ok (Y i)) /\
    power L F = power L F0 - nsum (lN L) (fun i => larea L * Y i * stretch_rate L i).
Proof.
  intros L e k F HN HL (x0 & xs & EX & Hx) H. destruct (damping_any L e k F HN H) as (F0 & E & S1 & P).
  exists F0, (fun i => match interp (ldx L) (ldy L) (stretch_rate L i / ll L i) with Ok Y => Y | _ => 0 end). split; [exact E|].
  assert (Q : forall i, (i < lN L)%nat -> exists Y, interp (ldx L) (ldy L) (stretch_rate L i / ll L i) = Ok Y /\ dot (force_or_zero (lTd L) i) (vsub (lrd L i) (lrd L (S i))) = - (larea L * (Y * stretch_rate L i))).
  { intros i Hi. unfold force_or_zero. destruct (lTd L i) as [Td|] eqn:ET; [|exfalso; exact (S1 i Hi ET)]. destruct (damp_curve_power L i Td x0 xs EX Hx ET) as (Y & EI & z & D).
    rewrite (ldstr_rate L i (HL i Hi)) in *. eauto. }
  split; [intros i Hi; destruct (Q i Hi) as (Y & -> & _); reflexivity|]. rewrite P. unfold Rminus. f_equal.
  transitivity (nsum (lN L) (fun i => (-1) * (larea L * match interp (ldx L) (ldy L) (stretch_rate L i / ll L i) with Ok Y => Y | _ => 0 end * stretch_rate L i))); [|rewrite nsum_scale; ring].
  apply nsum_ext. intros i Hi. destruct (Q i Hi) as (Y & -> & ->). ring.
Qed.
