(** Proofs about the initial shape of lines: slack and neutral lines, and a case. *)
From Coq Require Import Reals ZArith List Arith Bool Lra Lia.
From Verif Require Import MErr MVec MStateOps MCat SCat PCat PCatB PCatC PCatD PCatE PCatF PCatG.
Import ListNotations.
Open Scope R_scope.

Lemma too_long_spec XF z L EA W CB : 0 < W -> 0 < EA -> 0 <= CB -> 0 <= z ->
  (too_long XF z L EA W CB = true <-> exists l, 0 <= l /\ l + W * l * l / (2 * EA) = z /\ XF + l <= L).
Proof.
  intros HW HEA HC Hz. unfold too_long. destruct (Rlt_dec 0 W); [|lra]. set (q := EA / W). assert (Hq : 0 < q) by (apply Rdiv_lt_0_compat; lra).
  assert (E2 : 2 * z * EA / W = 2 * z * q) by (unfold q; field; lra). rewrite E2. set (t := sqrt (q * q + 2 * z * q)).
  assert (Ht : t * t = q * q + 2 * z * q) by (unfold t; apply sqrt_sqrt; nra). assert (Pt : 0 <= t) by apply sqrt_pos. assert (Qt : q <= t) by nra.
  assert (El : forall l, l + W * l * l / (2 * EA) = l + l * l / (2 * q)) by (intros l; unfold q; field; lra).
  destruct (Rle_dec (XF - q + t) L) as [A|A].
  - destruct (Rle_dec 0 CB); [|lra]. split; [intros _|reflexivity]. exists (t - q). split; [lra|]. split; [|lra]. rewrite El. apply Rmult_eq_reg_r with (2 * q); [|lra]. transitivity ((t - q) * (2 * q) + (t - q) * (t - q)); [field; lra|]. nra.
  - split; [discriminate|]. intros (l & Hl & E & HLe). exfalso. apply A. rewrite El in E.
    assert (E' : l * (2 * q) + l * l = z * (2 * q)) by (rewrite <- E; field; lra). assert (Z : (t - (l + q)) * (t + (l + q)) = 0) by nra. apply Rmult_integral in Z. destruct Z as [Z|Z]; lra.
Qed.
Lemma catenary_slack XF ZF L EA W CB Tol s : 0 < W -> 0 < EA -> 0 <= CB -> (exists l, 0 <= l /\ l + W * l * l / (2 * EA) = Rabs ZF /\ XF + l <= L) -> catenary XF ZF L EA W CB Tol s = Ok None.
Proof.
  intros HW HEA HC H. assert (E : (if (if Rlt_dec ZF 0 then true else false) then - ZF else ZF) = Rabs ZF) by (unfold Rabs; destruct (Rlt_dec ZF 0); destruct (Rcase_abs ZF); lra).
  unfold catenary. rewrite E. apply (too_long_spec XF (Rabs ZF) L EA W CB HW HEA HC (Rabs_pos ZF)) in H. rewrite H. reflexivity.
Qed.
Lemma iterate_neutral x z L EA CB Tol n I h v : iterate x z L EA 0 CB Tol n I h v = None.
Proof. destruct n; [reflexivity|]. cbn [iterate]. unfold increments. destruct (Req_EM_T 0 0); [reflexivity|contradiction]. Qed.
Lemma catenary_neutral XF ZF L EA CB s : catenary XF ZF L EA 0 CB (1 / 100000) s = Ok None.
Proof.
  unfold catenary. rewrite max_iter. change (orb (100000 <=? 0)%Z (2 ^ 32 <=? 100000)%Z) with false. cbv beta iota zeta. destruct (too_long XF _ L EA 0 CB); [reflexivity|]. rewrite !iterate_neutral. reflexivity.
Qed.

(* ------------------------------ a case that is accepted before the last iteration ------------------------------ *)
Lemma lg_le x : 0 <= x -> lg x <= x.
Proof.
  intros H. rewrite lg_arcsinh. set (a := arcsinh x). assert (Ea : x = sinh a) by (unfold a; symmetry; apply sinh_arcsinh).
  assert (Pa : 0 <= a) by (unfold a; rewrite <- arcsinh_0; apply arcsinh_le; exact H). rewrite Ea. clear Ea. destruct (Req_dec a 0) as [->|N]; [unfold sinh; rewrite Ropp_0; lra|].
  destruct (MVT_cor2 sinh cosh 0 a) as (c & E & C); [lra|intros; apply derivable_pt_lim_sinh|]. assert (E0 : sinh 0 = 0) by (unfold sinh; rewrite Ropp_0; lra). rewrite E0 in E.
  pose proof (ch_sh c). pose proof (ch_pos c). assert (1 <= cosh c) by nra. nra.
Qed.
Lemma sq1_even x : sq1 (- x) = sq1 x.
Proof. unfold sq1. f_equal. ring. Qed.
Lemma lg_odd x : lg (- x) = - lg x.
Proof.
  rewrite !lg_arcsinh. apply (f_equal (fun x => x)). transitivity (arcsinh (sinh (- arcsinh x))); [|apply arcsinh_sinh]. f_equal. rewrite sh_odd, sinh_arcsinh. reflexivity.
Qed.
Lemma case_step : exists d, increments (101 / 10) (49 / 100) 10 1000 1 (-1) (49 / 100) 1 (101 / 4) 5 = Some d /\ converged (49 / 100) (101 / 4) 5 (fst d) (snd d) = true.
Proof.
  unfold increments. destruct (Req_EM_T 1 0); [lra|]. destruct (Req_EM_T 1000 0); [lra|]. destruct (Req_EM_T (101 / 4) 0); [lra|]. cbv zeta. rewrite lies_none by lra. cbn [andb].
  rewrite errors_short, jacobian_short by lra. unfold eH, jH. cbv zeta. replace ((5 - 1 * 10) / (101 / 4)) with (- (20 / 101)) by field. replace (5 / (101 / 4)) with (20 / 101) by field.
  rewrite sq1_even, lg_odd. set (a := 20 / 101). set (s := sq1 a). set (l := lg a). unfold det.
  assert (Ha : 0 <= a) by (unfold a; lra). pose proof (lg_le a Ha) as H1. pose proof (tan_le a Ha) as H2. fold l s in H1, H2.
  assert (Hs : s * s = 1 + a * a) by (apply sq1_sqr). assert (Ps : 0 < s) by (apply sq1_pos). assert (S1 : 1 <= s) by nra. assert (S2 : s <= 102 / 100) by (unfold a in Hs; nra).
  set (t := a / s) in *. assert (Et : t * s = a) by (unfold t; field; lra). assert (T1 : 194 / 1000 <= t) by (unfold a in Et; nra). assert (T2 : t <= a) by (unfold a in *; nra).
  replace (- a / s) with (- t) by (unfold t; field; lra).
  set (p := (l - - l) / 1 - (t - - t) / 1 + 10 / 1000). set (r := (t - - t) / 1 + 10 / 1000). set (q := (1 / s - 1 / s) / 1).
  assert (Eq : q = 0) by (unfold q; lra). rewrite Eq.
  assert (Hp : 1 / 100 <= p) by (unfold p; lra). assert (Hr : 39 / 100 <= r) by (unfold r; lra).
  set (e1 := (l - - l) * (101 / 4 / 1) + 10 / 1000 * (101 / 4) - 101 / 10). assert (He : - (1 / 10) <= e1 <= 16 / 100) by (unfold e1, a in *; lra).
  set (e2 := (s - s) * (101 / 4 / 1) + 10 / 1000 * (5 - 1 / 2 * (1 * 10)) - 49 / 100). assert (E2 : e2 = - (49 / 100)) by (unfold e2; field).
  destruct (Req_EM_T (p * r - 0 * 0) 0) as [Z|Z]; [exfalso; nra|]. eexists. split; [reflexivity|]. cbn [fst snd INR]. rewrite E2.
  replace ((- r * e1 + 0 * - (49 / 100)) / (p * r - 0 * 0)) with (- (e1 / p)) by (field; lra). replace ((0 * e1 - p * - (49 / 100)) / (p * r - 0 * 0)) with (49 / 100 / r) by (field; lra).
  assert (B1 : - 10 <= e1 / p <= 16). { split; [apply Rmult_le_reg_r with p; [lra|]; unfold Rdiv; rewrite Rmult_assoc, Rinv_l by lra; nra|]. apply Rmult_le_reg_r with p; [lra|]. unfold Rdiv. rewrite Rmult_assoc, Rinv_l by lra. nra. }
  assert (B2 : 0 <= 49 / 100 / r <= 2). { split; [apply div_nn; lra|]. apply Rmult_le_reg_r with r; [lra|]. unfold Rdiv. rewrite Rmult_assoc, Rinv_l by lra. lra. }
  unfold converged. rewrite (Rabs_pos_eq (49 / 100 * (101 / 4))) by lra. rewrite (Rabs_pos_eq (49 / 100 * 5)) by lra.
  destruct (Rle_dec (Rabs (Rmax _ _)) _) as [_|N1]; [|exfalso; apply N1].
  - destruct (Rle_dec (Rabs _) _) as [_|N2]; [reflexivity|]. exfalso. apply N2. rewrite Rabs_pos_eq; lra.
  - unfold Rmax. destruct (Rle_dec _ _); [lra|]. apply Rabs_le. lra.
Qed.
Lemma case_accepts : exists c, catenary (101 / 10) 0 10 1000 1 (-1) (49 / 100) [0; 5; 10] = Ok (Some c).
Proof.
  unfold catenary. assert (I2 : Int_part (1 / (49 / 100)) = 2%Z).
  { symmetry. unfold Int_part. assert (E : (3)%Z = up (1 / (49 / 100))); [|rewrite <- E; reflexivity]. apply tech_up; lra. }
  rewrite I2. change (orb (2 <=? 0)%Z (2 ^ 32 <=? 2)%Z) with false. change (Z.to_nat 2) with 2%nat. destruct (Rlt_dec 0 0); [lra|]. cbv beta iota zeta.
  assert (T : too_long (101 / 10) 0 10 1000 1 (-1) = false) by (unfold too_long; destruct (Rlt_dec 0 1); [|reflexivity]; destruct (Rle_dec _ 10); [|reflexivity]; destruct (Rle_dec 0 (-1)); [lra|reflexivity]).
  rewrite T. rewrite (Rmax_left (101 / 10)) by lra. rewrite (Rmax_right 0) by lra.
  assert (G : guess 10 1 (49 / 100) (101 / 10) 0 = (101 / 4, 5)).
  { unfold guess. replace (101 / 10 * (101 / 10) + 0 * 0) with (Rsqr (101 / 10)) by (unfold Rsqr; ring). rewrite sqrt_Rsqr by lra. destruct (Rle_dec 10 (101 / 10)); [|lra]. f_equal.
    - replace (1 / 2 * 1 * (101 / 10) / (1 / 5)) with (101 / 4) by field. rewrite Rabs_pos_eq by lra. apply Rmax_left. lra.
    - replace (0 / tanh (1 / 5)) with 0 by (unfold Rdiv; ring). field. }
  rewrite G. cbn [fst snd]. destruct case_step as ([dh dv] & E & C). cbn [iterate]. rewrite E. cbn [fst snd] in C. rewrite C.
  rewrite nodes_some by (cbn [In]; intros a [<-|[<-|[<-|[]]]]; lra). destruct (anchor _ _ _ _ _ _) as [ha va]. eexists. reflexivity.
Qed.

(* ------------------------------ lines ------------------------------ *)
Definition clear (depth : R -> R -> R) (r : v3) : Prop := depth (vx r) (vy r) * (1 - 1 / 100000) < vz r.
Lemma line_shape depth r0 rN N U0 U E A rho rho_w g d :
  (0 < N)%nat -> 0 < E * A -> 0 < U -> (U0 < 0 -> U = - U0 * norm (vsub rN r0)) -> (0 <= U0 -> U = U0) ->
  0 <= d -> d * d = (vx rN - vx r0) * (vx rN - vx r0) + (vy rN - vy r0) * (vy rN - vy r0) -> depth (vx r0) (vy r0) <= vz r0 ->
  let W := (rho - rho_w) * A * g in let bed := ~ (clear depth r0 /\ clear depth rN) in
  exists ps, initial_shape depth r0 rN N U0 E A rho rho_w g = Ok ps /\ length ps = S N /\ nth 0 ps (V3 0 0 0) = r0 /\ nth N ps (V3 0 0 0) = rN /\
    (straight_between r0 rN N ps \/ (0 < d /\ exists CB, (CB = -1 /\ ~ bed \/ CB = 0 /\ bed) /\ static_between U (E * A) W CB r0 rN d N ps)) /\
    (0 < d -> W <> 0 -> ~ bed -> static_between U (E * A) W (-1) r0 rN d N ps) /\
    (d = 0 \/ W = 0 -> straight_between r0 rN N ps) /\
    (bed -> 0 < W -> (exists l, 0 <= l /\ l + W * l * l / (2 * (E * A)) = Rabs (vz rN - vz r0) /\ d + l <= U) -> straight_between r0 rN N ps).
Proof.
  intros HN HEA HU HU1 HU2 Hd Ed Hb W bed.
  assert (EU : real_length U0 (vsub rN r0) = U) by (unfold real_length; destruct (Rlt_dec U0 0) as [L|L]; [symmetry; exact (HU1 L)|symmetry; apply HU2; lra]).
  assert (Es : span r0 rN = d). { pose proof (span_sqr r0 rN 0) as Q. assert (0 <= span r0 rN) by (unfold span; apply sqrt_pos). assert (Z : (span r0 rN - d) * (span r0 rN + d) = 0) by (transitivity (span r0 rN * span r0 rN - d * d); [ring|rewrite Q, Ed; ring]). apply Rmult_integral in Z. destruct Z; lra. }
  assert (Ebed : bedCB depth r0 rN = 0 /\ bed \/ bedCB depth r0 rN = -1 /\ ~ bed).
  { unfold bedCB, touches, bed, clear. destruct (Rle_dec (vz r0) _) as [a|a]; destruct (Rle_dec (vz rN) _) as [b|b]; cbn [orb]; [left|left|left|right]; (split; [reflexivity|]); try (intros [c1 c2]; lra). intros Q. apply Q. split; lra. }
  destruct (shape_total depth r0 rN N U0 E A rho rho_w g) as [[B _]|[_ (ps & Hps)]]; [lra|]. exists ps. split; [exact Hps|].
  destruct (shape_ends depth r0 rN N U0 E A rho rho_w g ps HN Hps) as (L1 & L2 & L3). split; [exact L1|]. split; [exact L2|]. split; [exact L3|].
  pose proof (shape_split depth r0 rN N U0 E A rho rho_w g ps HN HEA) as Sp. cbv zeta in Sp. rewrite EU, Es in Sp. specialize (Sp ltac:(lra) Hps).
  assert (St : ps = straight_nodes r0 rN N -> straight_between r0 rN N ps) by (intros -> i Hi; apply straight_nth; assumption).
  assert (Cs : 0 < d /\ (exists c, shape_of depth r0 rN N U E A rho rho_w g = Ok (Some c)) -> ps <> straight_nodes r0 rN N \/ True) by (intros; right; exact Logic.I).
  assert (Sta : forall c, 0 < d -> shape_of depth r0 rN N U E A rho rho_w g = Ok (Some c) -> static_between U (E * A) W (bedCB depth r0 rN) r0 rN d N ps).
  { intros c Pd Hc. destruct Sp as [[_ [Q|Q]]|[_ (c' & _ & Q)]]; [lra|congruence|]. destruct Q as (X & Z & h & v & k & Q). exists X, Z, h, v, k. exact Q. }
  split; [|split; [|split]].
  - destruct Sp as [[Q _]|[Pd (c & Hc & _)]]; [left; apply St; exact Q|right]. split; [exact Pd|]. exists (bedCB depth r0 rN). split; [destruct Ebed as [[e1 e2]|[e1 e2]]; [right|left]; split; assumption|]. apply (Sta c Pd Hc).
  - intros Pd HW Nb. assert (Hc : exists c, shape_of depth r0 rN N U E A rho rho_w g = Ok (Some c)).
    { pose proof (shape_hangs depth r0 rN N U0 E A rho rho_w g) as Q. rewrite EU in Q. apply Q; try assumption.
      - unfold touches. destruct (Rle_dec _ _) as [a|a]; [|reflexivity]. exfalso. apply Nb. intros [c _]. unfold clear in c. lra.
      - unfold touches. destruct (Rle_dec _ _) as [a|a]; [|reflexivity]. exfalso. apply Nb. intros [_ c]. unfold clear in c. lra. }
    destruct Hc as (c & Hc). destruct Ebed as [[_ e]|[e _]]; [contradiction|]. rewrite <- e. apply (Sta c Pd Hc).
  - intros [D|D].
    + destruct Sp as [[Q _]|[Pd _]]; [apply St; exact Q|lra].
    + destruct Sp as [[Q _]|[Pd (c & Hc & _)]]; [apply St; exact Q|]. exfalso. unfold shape_of, weight in Hc. fold W in Hc. rewrite D, catenary_neutral in Hc. discriminate.
  - intros Hbed PW Hl. destruct Sp as [[Q _]|[Pd (c & Hc & _)]]; [apply St; exact Q|]. exfalso. unfold shape_of, weight in Hc. fold W in Hc. rewrite Es in Hc.
    assert (Ez : vz (vsub rN r0) = vz rN - vz r0) by (destruct r0, rN; reflexivity). rewrite Ez in Hc.
    destruct Ebed as [[e _]|[_ e]]; [|contradiction]. rewrite e in Hc. rewrite catenary_slack in Hc; [discriminate|exact PW|exact HEA|lra|exact Hl].
Qed.
