(** Energy balance of the internal forces of a line *)
From Coq Require Import Reals List Lra Lia Psatz Arith.
From Verif Require Import MErr MVec MStateOps MMat MInterp MLine SMat SLine PMat PEuler PLine PLineB.
Import ListNotations.
Open Scope R_scope.

Lemma sqpos_deriv : forall x, derivable_pt_lim (fun y => Rmax 0 y * Rmax 0 y) x (2 * Rmax 0 x).
Proof.
  intros x eps He. destruct (Rtotal_order x 0) as [H|[H|H]].
  - assert (Hd : 0 < - x) by lra. exists (mkposreal _ Hd). intros h Hh Hb. cbn in Hb. apply Rabs_def2 in Hb.
    rewrite !(Rmax_left 0) by lra. replace ((0 * 0 - 0 * 0) / h - 2 * 0) with 0 by (field; exact Hh). rewrite Rabs_R0. exact He.
  - subst x. exists (mkposreal _ He). intros h Hh Hb. cbn in Hb.
    rewrite (Rmax_left 0 0) by lra. replace (0 + h) with h by ring. unfold Rmax. destruct (Rle_dec 0 h).
    + replace ((h * h - 0 * 0) / h - 2 * 0) with h by (field; exact Hh). exact Hb.
    + replace ((0 * 0 - 0 * 0) / h - 2 * 0) with 0 by (field; exact Hh). rewrite Rabs_R0. exact He.
  - assert (Hd : 0 < Rmin x eps) by (apply Rmin_glb_lt; lra). exists (mkposreal _ Hd). intros h Hh Hb. cbn in Hb.
    pose proof (Rmin_l x eps). pose proof (Rmin_r x eps). assert (Rabs h < x) by lra. assert (Rabs h < eps) by lra.
    apply Rabs_def2 in H2. rewrite !(Rmax_right 0) by lra.
    replace (((x + h) * (x + h) - x * x) / h - 2 * x) with h by (field; exact Hh). exact H3.
Qed.
Lemma sqrt_small : forall w l, 0 < l -> w < l * l -> sqrt w < l.
Proof.
  intros w l Hl H. destruct (Rle_dec w 0) as [C|C].
  - rewrite sqrt_neg_0 by exact C. exact Hl.
  - rewrite <- (sqrt_square l) by lra. apply sqrt_lt_1; lra.
Qed.
(* the energy of one spring as a function of the squared length *)
Lemma spring_deriv : forall l w, 0 < l -> 0 <= w ->
  derivable_pt_lim (fun y => Rmax 0 (sqrt y - l) * Rmax 0 (sqrt y - l)) w (Rmax 0 (sqrt w - l) / sqrt w).
Proof.
  intros l w Hl Hw. destruct (Req_dec w 0) as [->|Hn].
  - rewrite sqrt_0, Rmax_left by lra. unfold Rdiv. rewrite Rmult_0_l.
    intros eps He. assert (Hd : 0 < l * l) by nra. exists (mkposreal _ Hd). intros h Hh Hb. cbn in Hb. apply Rabs_def2 in Hb.
    rewrite sqrt_0. rewrite (Rmax_left 0 (0 - l)) by lra.
    assert (S : sqrt (0 + h) < l) by (apply sqrt_small; lra). rewrite (Rmax_left 0 (sqrt (0 + h) - l)) by lra.
    replace ((0 * 0 - 0 * 0) / h - 0) with 0 by (field; exact Hh). rewrite Rabs_R0. exact He.
  - assert (Hp : 0 < w) by lra.
    pose proof (sqrt_lt_R0 w Hp) as Hs.
    assert (D1 : derivable_pt_lim (fun y => sqrt y - l) w (/ (2 * sqrt w) - 0)).
    { apply (derivable_pt_lim_minus sqrt (fct_cte l)); [apply derivable_pt_lim_sqrt; exact Hp | apply derivable_pt_lim_const]. }
    pose proof (derivable_pt_lim_comp (fun y => sqrt y - l) (fun y => Rmax 0 y * Rmax 0 y) w _ _ D1 (sqpos_deriv (sqrt w - l))) as D.
    unfold comp in D. replace (Rmax 0 (sqrt w - l) / sqrt w) with (2 * Rmax 0 (sqrt w - l) * (/ (2 * sqrt w) - 0)) by (field; lra).
    exact D.
Qed.
Lemma deriv_sub : forall f g x a b, derivable_pt_lim f x a -> derivable_pt_lim g x b -> derivable_pt_lim (fun y => f y - g y) x (a - b).
Proof. intros. apply (derivable_pt_lim_minus f g); assumption. Qed.
Lemma deriv_add : forall f g x a b, derivable_pt_lim f x a -> derivable_pt_lim g x b -> derivable_pt_lim (fun y => f y + g y) x (a + b).
Proof. intros. apply (derivable_pt_lim_plus f g); assumption. Qed.
Lemma deriv_sq : forall f x a, derivable_pt_lim f x a -> derivable_pt_lim (fun y => f y * f y) x (2 * (f x * a)).
Proof. intros f x a H. replace (2 * (f x * a)) with (a * f x + f x * a) by ring. apply (derivable_pt_lim_mult f f); assumption. Qed.
Lemma seg_deriv : forall L p t i l, moves_as L p t -> 0 < l ->
  derivable_pt_lim (fun s => Rmax 0 (norm (vsub (p s (S i)) (p s i)) - l) * Rmax 0 (norm (vsub (p s (S i)) (p s i)) - l)) t
    (Rmax 0 (norm (seg L i) - l) / norm (seg L i) * (2 * dot (seg L i) (vsub (lrd L (S i)) (lrd L i)))).
Proof.
  intros L p t i l [H0 H] Hl.
  destruct (H i) as [X0 [Y0 Z0]]. destruct (H (S i)) as [X1 [Y1 Z1]].
  pose proof (deriv_sq _ _ _ (deriv_sub _ _ _ _ _ X1 X0)) as DX. pose proof (deriv_sq _ _ _ (deriv_sub _ _ _ _ _ Y1 Y0)) as DY.
  pose proof (deriv_sq _ _ _ (deriv_sub _ _ _ _ _ Z1 Z0)) as DZ.
  pose proof (deriv_add _ _ _ _ _ (deriv_add _ _ _ _ _ DX DY) DZ) as DW. cbv beta in DW.
  set (w := fun s => (vx (p s (S i)) - vx (p s i)) * (vx (p s (S i)) - vx (p s i)) + (vy (p s (S i)) - vy (p s i)) * (vy (p s (S i)) - vy (p s i))
     + (vz (p s (S i)) - vz (p s i)) * (vz (p s (S i)) - vz (p s i))) in DW.
  assert (Ew : forall s, dot (vsub (p s (S i)) (p s i)) (vsub (p s (S i)) (p s i)) = w s) by (intros; unfold dot, vsub, w; cbn [vx vy vz]; ring).
  assert (Wp : 0 <= w t) by (rewrite <- Ew; apply dot_pos).
  pose proof (derivable_pt_lim_comp w _ t _ _ DW (spring_deriv l (w t) Hl Wp)) as D. unfold comp in D.
  assert (ES : sqrt (w t) = norm (seg L i)) by (unfold norm, seg; rewrite <- Ew, !H0; reflexivity).
  rewrite ES in D.
  match type of D with derivable_pt_lim _ _ (?c * ?d) => replace d with (2 * dot (seg L i) (vsub (lrd L (S i)) (lrd L i))) in D end.
  2:{ unfold seg. rewrite <- !H0. unfold dot, vsub. cbn [vx vy vz]. ring. }
  intros eps He. destruct (D eps He) as [dl Hd]. exists dl. intros h Hh Hb. specialize (Hd h Hh Hb).
  unfold norm at 1 2 3 4. rewrite !Ew. exact Hd.
Qed.
Lemma nsum_deriv : forall n (f : R -> nat -> R) (d : nat -> R) t, (forall i, (i < n)%nat -> derivable_pt_lim (fun s => f s i) t (d i)) ->
  derivable_pt_lim (fun s => nsum n (f s)) t (nsum n d).
Proof.
  induction n; intros f d t H; cbn [nsum]; [apply derivable_pt_lim_const|].
  apply (deriv_add (fun s => nsum n (f s)) (fun s => f s n)); [apply IHn; auto | apply H; lia].
Qed.
Lemma energy_deriv : forall L p t, moves_as L p t -> (forall i, (i < lN L)%nat -> 0 < ll L i) ->
  derivable_pt_lim (fun s => elastic_energy L (p s)) t
    (nsum (lN L) (fun i => lE L * larea L / ll L i * (Rmax 0 (norm (seg L i) - ll L i) / norm (seg L i) * dot (seg L i) (vsub (lrd L (S i)) (lrd L i))))).
Proof.
  intros L p t HM Hl. unfold elastic_energy.
  apply (nsum_deriv (lN L) (fun s i => lE L * larea L / (2 * ll L i)
       * (Rmax 0 (norm (vsub (p s (S i)) (p s i)) - ll L i) * Rmax 0 (norm (vsub (p s (S i)) (p s i)) - ll L i)))).
  intros i Hi. pose proof (Hl i Hi) as Hli. pose proof (seg_deriv L p t i (ll L i) HM Hli) as D.
  pose proof (derivable_pt_lim_scal _ (lE L * larea L / (2 * ll L i)) _ _ D) as D2. unfold mult_real_fct in D2.
  match goal with |- derivable_pt_lim _ _ ?x => match type of D2 with derivable_pt_lim _ _ ?y => replace x with y end end; [exact D2|].
  generalize (Rmax 0 (norm (seg L i) - ll L i) / norm (seg L i)) (dot (seg L i) (vsub (lrd L (S i)) (lrd L i))). intros. field. lra.
Qed.
(* power of the internal forces, segment by segment *)
Lemma internal_power : forall L e k F, (0 < lN L)%nat -> lisEI L = false -> line_forces L e k = Some F ->
  power L (internal L e k F)
  = - nsum (lN L) (fun i => dot (vadd (force_or_zero (lT L) i) (force_or_zero (lTd L) i)) (vsub (lrd L (S i)) (lrd L i))).
Proof.
  intros L e k F HN HE H. apply forces_some in H. destruct H as [Bs [HB [-> [HT HTd]]]].
  set (T := force_or_zero (lT L)) in *. set (Td := force_or_zero (lTd L)) in *.
  unfold lBs in HB. rewrite HE in HB. injection HB as <-.
  set (t := fun i => if Nat.eqb i 0 then vadd (T 0%nat) (Td 0%nat)
          else if Nat.eqb i (lN L) then vscale (-1) (vadd (T (i - 1)%nat) (Td (i - 1)%nat))
          else vsub (vadd (T i) (Td i)) (vadd (T (i - 1)%nat) (Td (i - 1)%nat))).
  unfold power. rewrite (nsum_ext _ _ (fun i => dot (t i) (lrd L i))).
  2:{ intros i Hi. rewrite internal_eq. fold (t i). rewrite vadd_0_r. reflexivity. }
  rewrite (abel_r (lN L) (fun i => dot (vadd (T i) (Td i)) (lrd L i)) (fun i => dot (vadd (T i) (Td i)) (lrd L (S i)))).
  - transitivity (nsum (lN L) (fun i => (-1) * dot (vadd (T i) (Td i)) (vsub (lrd L (S i)) (lrd L i)))).
    + apply nsum_ext. intros i Hi. generalize (vadd (T i) (Td i)) (lrd L i) (lrd L (S i)). vring.
    + rewrite nsum_scale. ring.
  - exact HN.
  - unfold t. reflexivity.
  - unfold t. destruct (Nat.eqb_spec (lN L) 0); [lia|]. rewrite Nat.eqb_refl. replace (S (lN L - 1)) with (lN L) by lia.
    generalize (vadd (T (lN L - 1)%nat) (Td (lN L - 1)%nat)) (lrd L (lN L)). vring.
  - intros i Hi. unfold t. destruct (Nat.eqb_spec i 0); [lia|]. destruct (Nat.eqb_spec i (lN L)); [lia|].
    replace (S (i - 1)) with i by lia. generalize (vadd (T i) (Td i)) (vadd (T (i - 1)%nat) (Td (i - 1)%nat)) (lrd L i). vring.
Qed.
Lemma dot_lin : forall a b c, dot (vadd a b) c = dot a c + dot b c. Proof. vring. Qed.
Lemma tension_power : forall L i v, lsx L = [] -> tol < ll L i ->
  dot (force_or_zero (lT L) i) v = lE L * larea L / ll L i * (Rmax 0 (norm (seg L i) - ll L i) / norm (seg L i) * dot (seg L i) v).
Proof.
  intros L i v HX Hl. pose proof tol_pos. destruct (Rle_dec (norm (seg L i)) (ll L i)) as [C|C].
  - unfold force_or_zero. rewrite slack_no_tension by lra. rewrite Rmax_left by lra. unfold dot, vzero, Rdiv. cbn [vx vy vz]. ring.
  - unfold force_or_zero, lT. rewrite HX. cbn [length Nat.eqb negb obnd]. change (llstr L i) with (norm (seg L i)).
    destruct (Rlt_dec 1 (norm (seg L i) / ll L i)) as [D|D]; [| exfalso; apply D, ratio_gt1; lra].
    unfold lqs, unitvector. cbn [fst]. fold (seg L i). rewrite eq0_false by lra. rewrite Rmax_right by lra.
    generalize (seg L i) (norm (seg L i)). intros s n. unfold Rdiv. generalize (/ n) (/ ll L i). vring.
Qed.
Lemma damping_term : forall L i, ldx L = [] -> tol < norm (seg L i) ->
  dot (force_or_zero (lTd L) i) (vsub (lrd L (S i)) (lrd L i)) = lc L * larea L / ll L i * (stretch_rate L i * stretch_rate L i).
Proof.
  intros L i HX Ht. unfold force_or_zero, lTd. rewrite HX. cbn [length Nat.eqb negb obnd].
  rewrite <- (ldstr_rate L i Ht). unfold lldstr. unfold Rdiv.
  generalize (lqs L i) (vsub (lrd L (S i)) (lrd L i)) (/ ll L i). vring.
Qed.
Lemma energy_balance : forall L e k F p t, (0 < lN L)%nat -> lisEI L = false -> lsx L = [] -> ldx L = [] ->
  (forall i, (i < lN L)%nat -> tol < ll L i /\ tol < norm (seg L i)) ->
  line_forces L e k = Some F -> moves_as L p t ->
  exists dU, derivable_pt_lim (fun s => elastic_energy L (p s)) t dU /\
    power L (internal L e k F) = - dU - nsum (lN L) (fun i => lc L * larea L / ll L i * (stretch_rate L i * stretch_rate L i)).
Proof.
  intros L e k F p t HN HE HX HD Hl H HM. pose proof tol_pos.
  eexists. split; [apply energy_deriv; [exact HM | intros i Hi; pose proof (Hl i Hi); lra]|].
  rewrite (internal_power L e k F HN HE H).
  rewrite (nsum_ext _ _ _ (fun i _ => dot_lin (force_or_zero (lT L) i) (force_or_zero (lTd L) i) (vsub (lrd L (S i)) (lrd L i)))).
  rewrite nsum_add.
  rewrite (nsum_ext (lN L) (fun i => dot (force_or_zero (lT L) i) (vsub (lrd L (S i)) (lrd L i))) _
     (fun i Hi => tension_power L i _ HX (proj1 (Hl i Hi)))).
  rewrite (nsum_ext (lN L) (fun i => dot (force_or_zero (lTd L) i) (vsub (lrd L (S i)) (lrd L i))) _
     (fun i Hi => damping_term L i HD (proj2 (Hl i Hi)))).
  ring.
Qed.

(* ----- remaining facts used by the property file ----- *)
Lemma max_omits : exists m f, getMaxTen demo (fun i => match i with 1%nat => V3 2 0 0 | _ => vzero end) (fun _ => vzero) = Ok m /\
  getFairTen demo (fun i => match i with 1%nat => V3 2 0 0 | _ => vzero end) (fun _ => vzero) = Ok f /\ m < f.
Proof.
  set (T := fun i : nat => match i with 1%nat => V3 2 0 0 | _ => vzero end).
  assert (N0 : norm vzero = 0) by (apply (norm_x 0); lra).
  assert (G0 : getNodeTen demo T (fun _ => vzero) 0 = Ok vzero).
  { unfold getNodeTen. cbn [lN demo Nat.ltb Nat.leb Nat.eqb]. f_equal. cbn. apply v3eq; cbn; ring. }
  assert (G1 : getNodeTen demo T (fun _ => vzero) 1 = Ok (V3 1 0 0)).
  { unfold getNodeTen. cbn [lN demo Nat.ltb Nat.leb Nat.eqb]. f_equal. cbn. apply v3eq; cbn; lra. }
  exists 1, 2. unfold getMaxTen. change (lN demo) with 2%nat. cbn [max_loop]. rewrite G0. cbn [obind]. rewrite G1. cbn [obind].
  rewrite N0, norm_x by lra. destruct (Rlt_dec 0 0); [lra|]. destruct (Rlt_dec 0 1); [| lra]. split; [reflexivity|].
  rewrite fairten by (cbn; lia). split; [| lra]. f_equal. cbn [lN demo Nat.sub T]. rewrite vadd_0_r. apply norm_x. lra.
Qed.
Lemma const_EA_inverted : forall L, isConstantEA L = true <-> lsx L <> [].
Proof. intros. unfold isConstantEA. destruct (lsx L); cbn; split; congruence. Qed.
Lemma seabed_query : forall L B Bs i, (i <= lN L)%nat -> getNodeSeabedForce L B Bs i = Ok (vadd (B i) (Bs i)).
Proof. intros. unfold getNodeSeabedForce. destruct (Nat.ltb_spec (lN L) i); [lia | reflexivity]. Qed.
Lemma cross_vsum : forall n o f, vsum n (fun i => cross o (f i)) = cross o (vsum n f).
Proof. induction n; intros; cbn [vsum]; [vring|]. rewrite IHn. generalize (vsum n f) (f n). vring. Qed.
Lemma internal_moment_any : forall L e k F, (0 < lN L)%nat -> line_forces L e k = Some F ->
  lisEI L = false \/ (long L /\ lcantA L = false /\ lcantB L = false) ->
  forall o, vsum (lN L + 1) (fun i => cross (vsub (lr L i) o) (internal L e k F i)) = vzero.
Proof.
  intros L e k F HN H HC o.
  rewrite (vsum_ext _ _ (fun i => vadd (cross (lr L i) (internal L e k F i)) (cross (vscale (-1) o) (internal L e k F i)))).
  - rewrite vsum_add, (internal_moment L e k F HN H HC), cross_vsum, (internal_sum L e k F HN H). vring.
  - intros i Hi. generalize (lr L i) (internal L e k F i). vring.
Qed.
Lemma dissipated_power : forall L e k F, (0 < lN L)%nat -> ldx L = [] -> long L -> line_forces L e k = Some F ->
  exists F0, line_forces (undamped L) e k = Some F0 /\
    power L F = power L F0 - nsum (lN L) (fun i => lc L * larea L / ll L i * (stretch_rate L i * stretch_rate L i)).
Proof.
  intros L e k F HN HX HL H. destruct (damping_power L e k F HN HX H) as [F0 [E P]]. exists F0. split; [exact E|]. rewrite P. f_equal.
  apply nsum_ext. intros i Hi. rewrite (ldstr_rate L i (HL i Hi)). unfold Rdiv. ring.
Qed.
Lemma one_sided_drives : exists L Td, lTd L 0 = Some Td /\ (lN L = 1)%nat /\ 0 < dot Td (vsub (lrd L 0) (lrd L 1)).
Proof.
  set (L := Line 1 0.1 2 1000 1000 0 10 1 0 1.2 0.1 [] [] [] [] [0; 2] [0; 6] false (fun _ => 0)
    (fun i => V3 (2 * INR i) 0 0) (fun i => V3 (- INR i) 0 0) (fun _ => 1) (fun _ => 1) false false (V3 1 0 0) (V3 1 0 0)).
  assert (ES : seg L 0 = V3 2 0 0) by (unfold seg; cbn; apply v3eq; cbn; ring).
  assert (EN : norm (V3 2 0 0) = 2) by (apply norm_x; lra).
  assert (ER : stretch_rate L 0 = -1) by (unfold stretch_rate; rewrite ES, EN; unfold dot; cbn; lra).
  exists L. eexists. split.
  - apply (damp_one_sided L 0 0 [2] 3); try reflexivity; cbn [ll L]; try lra.
    + rewrite ES, EN. pose proof tol_small. lra.
    + rewrite ER. replace (-1 / 1) with (-1) by lra. rewrite Rabs_left by lra.
      unfold interp, interp_factor. cbn. destruct (Rle_dec (- -1) 0); [lra|]. destruct (Rge_dec (- -1) 2); [lra|]. cbn.
      destruct (Rle_dec (- -1) 2); [| lra]. cbn. f_equal. field.
  - split; [reflexivity|]. rewrite ES, EN. unfold dot. cbn. lra.
Qed.
Lemma straight_motion : forall L, exists p, moves_as L p 0.
Proof.
  intros L. exists (fun s i => vadd (lr L i) (vscale s (lrd L i))). split.
  - intros i. generalize (lr L i) (lrd L i). vring.
  - intros i. cbn [vadd vscale vx vy vz]. 
    assert (G : forall a b, derivable_pt_lim (fun s => a + s * b) 0 b).
    { intros a b. assert (D : derivable_pt_lim (fun s => a + s * b) 0 (0 + (1 * b + 0 * 0))).
      2:{ replace (0 + (1 * b + 0 * 0)) with b in D by ring. exact D. }
      apply (deriv_add (fun _ => a) (fun s => s * b)); [apply derivable_pt_lim_const|].
      apply (derivable_pt_lim_mult (fun s => s) (fun _ => b)); [apply derivable_pt_lim_id | apply derivable_pt_lim_const]. }
    repeat split; apply G.
Qed.
