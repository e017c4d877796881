(** Proofs about the energy of a line with stiffness and damping curves. *)
From Coq Require Import Reals List Arith Lra Lia.
From Verif Require Import MErr MVec MStateOps MMat MInterp MLine SInterp SLine SLineU PInterp PMat PLine PLineB PLineE.
Import ListNotations.
Open Scope R_scope.

(* the length of a segment changes with the stretching rate *)
Lemma norm_deriv : forall L p t i, moves_as L p t -> tol < norm (seg L i) ->
  derivable_pt_lim (fun s => norm (vsub (p s (S i)) (p s i))) t (stretch_rate L i).
Proof.
  intros L p t i [H0 H] Hn. pose proof tol_pos.
  destruct (H i) as [X0 [Y0 Z0]]. destruct (H (S i)) as [X1 [Y1 Z1]].
  pose proof (deriv_sq _ _ _ (deriv_sub _ _ _ _ _ X1 X0)) as DX. pose proof (deriv_sq _ _ _ (deriv_sub _ _ _ _ _ Y1 Y0)) as DY.
  pose proof (deriv_sq _ _ _ (deriv_sub _ _ _ _ _ Z1 Z0)) as DZ.
  pose proof (deriv_add _ _ _ _ _ (deriv_add _ _ _ _ _ DX DY) DZ) as DW. cbv beta in DW.
  set (w := fun s => (vx (p s (S i)) - vx (p s i)) * (vx (p s (S i)) - vx (p s i)) + (vy (p s (S i)) - vy (p s i)) * (vy (p s (S i)) - vy (p s i))
     + (vz (p s (S i)) - vz (p s i)) * (vz (p s (S i)) - vz (p s i))) in DW.
  assert (Ew : forall s, dot (vsub (p s (S i)) (p s i)) (vsub (p s (S i)) (p s i)) = w s) by (intros; unfold dot, vsub, w; cbn [vx vy vz]; ring).
  assert (ES : sqrt (w t) = norm (seg L i)) by (unfold norm, seg; rewrite <- Ew, !H0; reflexivity).
  assert (Wp : 0 < w t). { destruct (Rle_dec (w t) 0) as [C|C]; [|lra]. rewrite sqrt_neg_0 in ES by exact C. lra. }
  pose proof (derivable_pt_lim_comp w _ t _ _ DW (derivable_pt_lim_sqrt (w t) Wp)) as D. unfold comp in D.
  rewrite ES in D.
  match type of D with derivable_pt_lim _ _ (?c * ?d) => replace d with (2 * dot (seg L i) (vsub (lrd L (S i)) (lrd L i))) in D end.
  2:{ unfold seg. rewrite <- !H0. unfold dot, vsub. cbn [vx vy vz]. ring. }
  replace (stretch_rate L i) with (/ (2 * norm (seg L i)) * (2 * dot (seg L i) (vsub (lrd L (S i)) (lrd L i)))) by (unfold stretch_rate; field; lra).
  intros eps He. destruct (D eps He) as [dl Hd]. exists dl. intros h Hh Hb. specialize (Hd h Hh Hb).
  unfold norm at 1 2. rewrite !Ew. exact Hd.
Qed.
(* one segment: the rate of the stored energy is what the tension takes *)
Lemma stored_rate : forall L G p t i, stores L G -> moves_as L p t -> 0 < ll L i -> tol < norm (seg L i) -> lT L i <> None ->
  derivable_pt_lim (fun s => larea L * ll L i * G ((norm (vsub (p s (S i)) (p s i)) - ll L i) / ll L i)) t
    (dot (force_or_zero (lT L) i) (vsub (lrd L (S i)) (lrd L i))).
Proof.
  intros L G p t i HG HM Hl Hn HT. pose proof tol_pos.
  assert (EN : norm (vsub (p t (S i)) (p t i)) = norm (seg L i)) by (unfold seg; rewrite !(proj1 HM); reflexivity).
  destruct (HG ((norm (seg L i) - ll L i) / ll L i)) as (Y & DG & Z & P).
  assert (DN := norm_deriv L p t i HM Hn).
  assert (DX : derivable_pt_lim (fun s => (norm (vsub (p s (S i)) (p s i)) - ll L i) / ll L i) t (/ ll L i * (stretch_rate L i - 0))).
  { pose proof (derivable_pt_lim_scal _ (/ ll L i) _ _ (deriv_sub _ _ _ _ _ DN (derivable_pt_lim_const (ll L i) t))) as D. unfold mult_real_fct, fct_cte in D.
    intros eps He. destruct (D eps He) as [dl Hd]. exists dl. intros h Hh Hb. specialize (Hd h Hh Hb). unfold Rdiv at 2 3. rewrite !(Rmult_comm _ (/ ll L i)). exact Hd. }
  rewrite <- EN in DG.
  pose proof (derivable_pt_lim_comp _ G t _ _ DX DG) as DC. unfold comp in DC.
  pose proof (derivable_pt_lim_scal _ (larea L * ll L i) _ _ DC) as D. unfold mult_real_fct in D.
  match goal with |- derivable_pt_lim _ _ ?x => match type of D with derivable_pt_lim _ _ ?y => replace x with y end end; [exact D|].
  replace (larea L * ll L i * (Y * (/ ll L i * (stretch_rate L i - 0)))) with (larea L * Y * stretch_rate L i) by (field; lra).
  unfold force_or_zero. destruct (Rle_dec (norm (seg L i)) (ll L i)) as [C|C].
  - rewrite slack_no_tension by lra. rewrite Z.
    + unfold dot, vzero. cbn [vx vy vz]. ring.
    + apply Rmult_le_reg_r with (ll L i); [lra|]. unfold Rdiv. rewrite Rmult_assoc, Rinv_l by lra. lra.
  - assert (Xp : 0 < (norm (seg L i) - ll L i) / ll L i) by (apply Rdiv_lt_0_compat; lra). specialize (P Xp).
    assert (ET : lT L i = Some (vscale (larea L * Y) (lqs L i))).
    { unfold lT in *. change (llstr L i) with (norm (seg L i)) in *.
      destruct (Rlt_dec 1 (norm (seg L i) / ll L i)) as [D1|D1]; [| exfalso; apply D1, ratio_gt1; lra].
      unfold stress in P. destruct (lsx L) as [|x0 xs] eqn:EX.
      - cbn [length Nat.eqb negb obnd]. f_equal. f_equal. rewrite P. field. lra.
      - cbn [length Nat.eqb negb] in *. unfold getNonlinearE in *. rewrite EX in *. cbv zeta in *.
        replace (norm (seg L i) / ll L i - 1) with ((norm (seg L i) - ll L i) / ll L i) in * by (field; lra).
        destruct (Rlt_dec ((norm (seg L i) - ll L i) / ll L i) 0); [lra|]. rewrite P in *. cbn [oval obnd]. unfold fdiv.
        destruct (Req_EM_T ((norm (seg L i) - ll L i) / ll L i) 0); [lra|]. cbn [obnd]. f_equal. f_equal. field. split; lra. }
    rewrite ET. rewrite <- (ldstr_rate L i Hn). unfold lldstr. generalize (lqs L i) (vsub (lrd L (S i)) (lrd L i)) (larea L * Y). vring.
Qed.
(* one segment: what the damping takes *)
Lemma damping_rate : forall L i, 0 < ll L i -> tol < norm (seg L i) -> lTd L i <> None ->
  exists Y, damping_stress L (stretch_rate L i / ll L i) Y /\
    dot (force_or_zero (lTd L) i) (vsub (lrd L (S i)) (lrd L i)) = larea L * Y * stretch_rate L i.
Proof.
  intros L i Hl Hn H. rewrite <- (ldstr_rate L i Hn).
  unfold force_or_zero. unfold lTd in *. unfold getNonlinearC, damping_stress in *. destruct (ldx L) as [|x0 xs] eqn:EX; cbn [length Nat.eqb negb] in *.
  - eexists. split; [reflexivity|]. cbn [obnd]. unfold lldstr. unfold Rdiv. generalize (lqs L i) (vsub (lrd L (S i)) (lrd L i)) (/ ll L i). vring.
  - cbv zeta in *. destruct (Rlt_dec x0 0).
    + destruct (interp (x0 :: xs) (ldy L) (lldstr L i / ll L i)) as [Y|?|?|] eqn:EI; cbn [oval obnd] in *; try congruence.
      exists Y. split; [reflexivity|]. unfold fdiv in *. destruct (Req_EM_T (lldstr L i / ll L i) 0) as [z|z]; cbn [obnd] in *; [congruence|].
      assert (lldstr L i <> 0) by (intro C; apply z; rewrite C; unfold Rdiv; ring).
      replace (Y / (lldstr L i / ll L i) * larea L * lldstr L i / ll L i) with (larea L * Y) by (field; split; lra).
      unfold lldstr. generalize (lqs L i) (vsub (lrd L (S i)) (lrd L i)) (larea L * Y). vring.
    + destruct (Rlt_dec (lldstr L i / ll L i) 0) as [n0|n0].
      * rewrite Rabs_left by exact n0.
        destruct (interp (x0 :: xs) (ldy L) (- (lldstr L i / ll L i))) as [Y|?|?|] eqn:EI; cbn [oval obnd] in *; try congruence.
      exists Y. split; [reflexivity|]. unfold fdiv in *. destruct (Req_EM_T (- (lldstr L i / ll L i)) 0) as [z|z]; cbn [obnd] in *; [congruence|].
        assert (lldstr L i <> 0) by (intro C; apply z; rewrite C; unfold Rdiv; ring).
        replace (Y * -1 / - (lldstr L i / ll L i) * larea L * lldstr L i / ll L i) with (larea L * Y) by (field; repeat split; lra).
        unfold lldstr. generalize (lqs L i) (vsub (lrd L (S i)) (lrd L i)) (larea L * Y). vring.
      * rewrite Rabs_right by lra.
        destruct (interp (x0 :: xs) (ldy L) (lldstr L i / ll L i)) as [Y|?|?|] eqn:EI; cbn [oval obnd] in *; try congruence.
      exists Y. split; [reflexivity|]. unfold fdiv in *. destruct (Req_EM_T (lldstr L i / ll L i) 0) as [z|z]; cbn [obnd] in *; [congruence|].
        assert (lldstr L i <> 0) by (intro C; apply z; rewrite C; unfold Rdiv; ring).
        replace (Y * 1 / (lldstr L i / ll L i) * larea L * lldstr L i / ll L i) with (larea L * Y) by (field; repeat split; lra).
        unfold lldstr. generalize (lqs L i) (vsub (lrd L (S i)) (lrd L i)) (larea L * Y). vring.
Qed.
Lemma choose_below : forall n (P : nat -> R -> Prop), (forall i, (i < n)%nat -> exists y, P i y) -> exists Y, forall i, (i < n)%nat -> P i (Y i).
Proof.
  induction n as [|n IH]; intros P H; [exists (fun _ => 0); intros; lia|].
  destruct (IH P) as [Y HY]; [intros; apply H; lia|]. destruct (H n ltac:(lia)) as [y Hy].
  exists (fun i => if Nat.eqb i n then y else Y i). intros i Hi. destruct (Nat.eqb_spec i n) as [->|e]; [exact Hy|]. apply HY. lia.
Qed.
Lemma curve_balance : forall L G e k F p t, (0 < lN L)%nat -> lisEI L = false -> stores L G ->
  (forall i, (i < lN L)%nat -> 0 < ll L i /\ tol < norm (seg L i)) ->
  line_forces L e k = Some F -> moves_as L p t ->
  exists dU Y, derivable_pt_lim (fun s => strain_energy L G (p s)) t dU /\
    (forall i, (i < lN L)%nat -> damping_stress L (stretch_rate L i / ll L i) (Y i)) /\
    power L (internal L e k F) = - dU - nsum (lN L) (fun i => larea L * Y i * stretch_rate L i).
Proof.
  intros L G e k F p t HN HE HG Hl H HM.
  destruct (forces_some L e k F H) as [Bs [_ [_ [HT HTd]]]].
  assert (Q : exists Y, forall i, (i < lN L)%nat -> damping_stress L (stretch_rate L i / ll L i) (Y i) /\
    dot (force_or_zero (lTd L) i) (vsub (lrd L (S i)) (lrd L i)) = larea L * Y i * stretch_rate L i).
  { apply (choose_below (lN L) (fun i y => damping_stress L (stretch_rate L i / ll L i) y /\
    dot (force_or_zero (lTd L) i) (vsub (lrd L (S i)) (lrd L i)) = larea L * y * stretch_rate L i)).
    intros i Hi. destruct (Hl i Hi). apply damping_rate; [assumption|assumption|]. specialize (HTd i Hi). rewrite HTd. discriminate. }
  destruct Q as [Y HY].
  eexists. exists Y. split; [|split; [intros i Hi; apply HY; exact Hi|]].
  - unfold strain_energy. apply (nsum_deriv (lN L) (fun s i => larea L * ll L i * G ((norm (vsub (p s (S i)) (p s i)) - ll L i) / ll L i))).
    intros i Hi. destruct (Hl i Hi). apply stored_rate; try assumption. specialize (HT i Hi). rewrite HT. discriminate.
  - rewrite (internal_power L e k F HN HE H).
    rewrite (nsum_ext _ _ _ (fun i _ => dot_lin (force_or_zero (lT L) i) (force_or_zero (lTd L) i) (vsub (lrd L (S i)) (lrd L i)))).
    rewrite nsum_add.
    rewrite (nsum_ext (lN L) (fun i => dot (force_or_zero (lTd L) i) (vsub (lrd L (S i)) (lrd L i))) _ (fun i Hi => proj2 (HY i Hi))). ring.
Qed.

(* the energy of a table: ramps *)
Definition pos2 (u : R) : R := Rmax 0 u * Rmax 0 u / 2.
Definition slope (xs ys : list R) (k : nat) : R := (nth (S k) ys 0 - nth k ys 0) / (nth (S k) xs 0 - nth k xs 0).
Definition table_energy (xs ys : list R) (x : R) : R :=
  nsum (length xs - 1) (fun k => slope xs ys k * (pos2 (x - nth k xs 0) - pos2 (x - nth (S k) xs 0))).
Definition table_stress (xs ys : list R) (x : R) (n : nat) : R :=
  nsum n (fun k => slope xs ys k * (Rmax 0 (x - nth k xs 0) - Rmax 0 (x - nth (S k) xs 0))).
Lemma pos2_deriv : forall x, derivable_pt_lim pos2 x (Rmax 0 x).
Proof.
  intros x. pose proof (derivable_pt_lim_scal _ (/ 2) _ _ (sqpos_deriv x)) as D. unfold mult_real_fct in D.
  replace (/ 2 * (2 * Rmax 0 x)) with (Rmax 0 x) in D by field.
  intros eps He. destruct (D eps He) as [dl Hd]. exists dl. intros h Hh Hb. specialize (Hd h Hh Hb). unfold pos2, Rdiv at 2 3. rewrite !(Rmult_comm _ (/ 2)). exact Hd.
Qed.
Lemma pos2_shift : forall a x, derivable_pt_lim (fun s => pos2 (s - a)) x (Rmax 0 (x - a)).
Proof.
  intros a x. pose proof (derivable_pt_lim_comp (fun s => s - a) pos2 x _ _ (deriv_sub _ _ _ _ _ (derivable_pt_lim_id x) (derivable_pt_lim_const a x)) (pos2_deriv (x - a))) as D.
  unfold comp in D. replace (Rmax 0 (x - a) * (1 - 0)) with (Rmax 0 (x - a)) in D by ring. exact D.
Qed.
Lemma table_deriv : forall xs ys x, derivable_pt_lim (table_energy xs ys) x (table_stress xs ys x (length xs - 1)).
Proof.
  intros. unfold table_energy, table_stress.
  apply (nsum_deriv (length xs - 1) (fun x k => slope xs ys k * (pos2 (x - nth k xs 0) - pos2 (x - nth (S k) xs 0)))).
  intros i _. apply (derivable_pt_lim_scal (fun s => pos2 (s - nth i xs 0) - pos2 (s - nth (S i) xs 0))). apply deriv_sub; apply pos2_shift.
Qed.
Lemma ramp_above : forall xs ys x n, increasing xs -> (n < length xs)%nat -> nth n xs 0 <= x -> table_stress xs ys x n = nth n ys 0 - nth 0 ys 0.
Proof.
  intros xs ys x n HI. induction n as [|n IH]; intros Hn Hx; unfold table_stress in *; cbn [nsum]; [ring|].
  pose proof (HI n (S n) ltac:(lia)). rewrite IH by (lia || lra). rewrite !Rmax_right by lra. unfold slope. field. lra.
Qed.
Lemma ramp_below : forall xs ys x n m, increasing xs -> (m + n < length xs)%nat -> x <= nth m xs 0 -> table_stress xs ys x (m + n) = table_stress xs ys x m.
Proof.
  intros xs ys x n m HI. induction n as [|n IH]; intros Hn Hx; [rewrite Nat.add_0_r; reflexivity|].
  replace (m + S n)%nat with (S (m + n)) in * by lia. unfold table_stress in *. cbn [nsum]. rewrite IH by (lia || lra).
  pose proof (HI (m + n)%nat (S (m + n)) ltac:(lia)).
  assert (nth m xs 0 <= nth (m + n) xs 0). { destruct n; [rewrite Nat.add_0_r; lra|]. pose proof (HI m (m + S n)%nat ltac:(lia)). lra. }
  rewrite !Rmax_left by lra. ring.
Qed.
Lemma table_interp : forall xs ys x, increasing xs -> xs <> [] -> lin_interp xs ys x (nth 0 ys 0 + table_stress xs ys x (length xs - 1)).
Proof.
  intros xs ys x HI HN. assert (0 < length xs)%nat by (destruct xs; [congruence|cbn; lia]).
  split; [|split].
  - intros Hx. pose proof (ramp_below xs ys x (length xs - 1) 0 HI ltac:(lia) Hx) as E. cbn [Nat.add] in E. rewrite E. unfold table_stress. cbn [nsum]. ring.
  - intros Hx. rewrite ramp_above by (assumption || lia). ring.
  - intros k Hk Hx. pose proof (HI k (S k) ltac:(lia)).
    replace (length xs - 1)%nat with (S k + (length xs - 1 - S k))%nat by lia. rewrite ramp_below by (assumption || lia || lra).
    assert (E : table_stress xs ys x (S k) = table_stress xs ys x k + slope xs ys k * (x - nth k xs 0)).
    { unfold table_stress. cbn [nsum]. rewrite (Rmax_right 0 (x - nth k xs 0)), (Rmax_left 0 (x - nth (S k) xs 0)) by lra. ring. }
    rewrite E, ramp_above by (assumption || lia || lra). unfold slope. field. lra.
Qed.
Lemma table_stores : forall L, increasing (lsx L) -> lsx L <> [] -> length (lsy L) = length (lsx L) -> 0 <= nth 0 (lsx L) 0 -> nth 0 (lsy L) 0 = 0 ->
  exists G, stores L G.
Proof.
  intros L HI HN HL Hx Hy. exists (table_energy (lsx L) (lsy L)). intros x. exists (table_stress (lsx L) (lsy L) x (length (lsx L) - 1)).
  pose proof (table_interp (lsx L) (lsy L) x HI HN) as T. rewrite Hy, Rplus_0_l in T.
  split; [apply table_deriv|split].
  - intros H. rewrite <- Hy. apply (proj1 T). lra.
  - intros H. unfold stress. destruct (interp_spec (lsx L) (lsy L) x HI HN HL) as (Y & E & HY).
    rewrite (lin_interp_unique _ _ _ _ _ HI HN T HY). destruct (lsx L); [congruence|exact E].
Qed.
Lemma linear_stores : forall L, lsx L = [] -> stores L (fun x => lE L * (Rmax 0 x * Rmax 0 x) / 2) /\ (forall p, (forall i, (i < lN L)%nat -> 0 < ll L i) -> strain_energy L (fun x => lE L * (Rmax 0 x * Rmax 0 x) / 2) p = elastic_energy L p).
Proof.
  intros L HX. split.
  - intros x. exists (lE L * Rmax 0 x). split; [|split].
    + pose proof (derivable_pt_lim_scal _ (lE L) _ _ (pos2_deriv x)) as D. unfold mult_real_fct, pos2 in D.
      intros eps He. destruct (D eps He) as [dl Hd]. exists dl. intros h Hh Hb. specialize (Hd h Hh Hb).
      replace (lE L * (Rmax 0 (x + h) * Rmax 0 (x + h)) / 2) with (lE L * (Rmax 0 (x + h) * Rmax 0 (x + h) / 2)) by field.
      replace (lE L * (Rmax 0 x * Rmax 0 x) / 2) with (lE L * (Rmax 0 x * Rmax 0 x / 2)) by field. exact Hd.
    + intros H. rewrite Rmax_left by lra. ring.
    + intros H. unfold stress. rewrite HX, Rmax_right by lra. reflexivity.
  - intros p Hl. unfold strain_energy, elastic_energy. apply nsum_ext. intros i Hi. pose proof (Hl i Hi) as Hli.
    set (n := norm (vsub (p (S i)) (p i))). clearbody n.
    destruct (Rle_dec n (ll L i)) as [C|C].
    + rewrite !Rmax_left; [field; lra|lra|]. apply Rmult_le_reg_r with (ll L i); [lra|]. unfold Rdiv. rewrite Rmult_assoc, Rinv_l by lra. lra.
    + assert (0 < (n - ll L i) / ll L i) by (apply Rdiv_lt_0_compat; lra). rewrite !Rmax_right by lra. field. lra.
Qed.
