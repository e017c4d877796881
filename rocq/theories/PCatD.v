(** Proofs about the catenary routine: increments, determinant, convergence. *)
From Coq Require Import Reals ZArith List Arith Bool Lra Lia.
From Verif Require Import MErr MVec MStateOps MCat SCat PCat PCatB PCatC.
Import ListNotations.
Open Scope R_scope.

(* ------------------------------ the determinant ------------------------------ *)
Lemma ch_pos x : 0 < cosh x.
Proof. unfold cosh. pose proof (exp_pos x). pose proof (exp_pos (- x)). lra. Qed.
Lemma exp_inv x : exp x * exp (- x) = 1.
Proof. rewrite <- exp_plus. replace (x + - x) with 0 by ring. apply exp_0. Qed.
Lemma ch_sh x : cosh x * cosh x = 1 + sinh x * sinh x.
Proof. unfold cosh, sinh. pose proof (exp_inv x). nra. Qed.
Lemma sq1_ch a : sq1 (sinh a) = cosh a.
Proof. unfold sq1. rewrite <- ch_sh. replace (cosh a * cosh a) with (Rsqr (cosh a)) by reflexivity. apply sqrt_Rsqr. left. apply ch_pos. Qed.
Lemma sh_minus a b : sinh (a - b) = sinh a * cosh b - cosh a * sinh b.
Proof.
  unfold sinh, cosh. replace (a - b) with (a + - b) by ring. replace (- (a + - b)) with (- a + b) by ring. rewrite !exp_plus. field.
Qed.
Lemma ch_minus a b : cosh (a - b) = cosh a * cosh b - sinh a * sinh b.
Proof.
  unfold sinh, cosh. replace (a - b) with (a + - b) by ring. replace (- (a + - b)) with (- a + b) by ring. rewrite !exp_plus. field.
Qed.
Lemma sh_sign x : 0 <= x -> 0 <= sinh x.
Proof. intros H. unfold sinh. destruct (Req_dec x 0) as [->|N]; [rewrite Ropp_0; lra|]. pose proof (exp_increasing (- x) x ltac:(lra)). lra. Qed.
Lemma xch_sh x : 0 <= x -> sinh x <= x * cosh x.
Proof.
  intros H. destruct (Req_dec x 0) as [->|N]; [unfold sinh; rewrite Ropp_0; lra|].
  destruct (MVT_cor2 (fun x => x * cosh x - sinh x) (fun x => x * sinh x) 0 x) as (c & E & C); [lra| |].
  - intros y _. eapply dl_eq; [apply dl_minus; [apply dl_mult; [apply dl_id|apply derivable_pt_lim_cosh]|apply derivable_pt_lim_sinh]|cbv beta; ring].
  - pose proof (sh_sign c ltac:(lra)). assert (E0 : sinh 0 = 0) by (unfold sinh; rewrite Ropp_0; lra). rewrite E0 in E. assert (0 <= c * sinh c * (x - 0)) by (apply Rmult_le_pos; [apply Rmult_le_pos; lra|lra]). lra.
Qed.
Lemma sh_odd x : sinh (- x) = - sinh x.
Proof. unfold sinh. rewrite Ropp_involutive. field. Qed.
Lemma ch_even x : cosh (- x) = cosh x.
Proof. unfold cosh. rewrite Ropp_involutive. field. Qed.
Lemma core_pos x : 0 <= x -> 2 * (cosh x - 1) <= x * sinh x.
Proof.
  intros H. set (y := x / 2). assert (Ex : x = y - (- y)) by (unfold y; field). rewrite Ex at 1 3. rewrite sh_minus, ch_minus, sh_odd, ch_even.
  pose proof (xch_sh y ltac:(unfold y; lra)). pose proof (sh_sign y ltac:(unfold y; lra)). pose proof (ch_sh y). replace x with (2 * y) by (unfold y; field). nra.
Qed.
Lemma core x : 2 * (cosh x - 1) <= x * sinh x.
Proof.
  destruct (Rle_lt_dec 0 x) as [H|H]; [apply core_pos; exact H|]. pose proof (core_pos (- x) ltac:(lra)) as C. rewrite ch_even, sh_odd in C. lra.
Qed.
Lemma flex a b : 0 <= (a - b - (sinh a / cosh a - sinh b / cosh b)) * (sinh a / cosh a - sinh b / cosh b) - (1 / cosh a - 1 / cosh b) * (1 / cosh a - 1 / cosh b).
Proof.
  pose proof (ch_pos a) as Pa. pose proof (ch_pos b) as Pb. pose proof (core (a - b)) as C. rewrite sh_minus, ch_minus in C.
  assert (E : (a - b - (sinh a / cosh a - sinh b / cosh b)) * (sinh a / cosh a - sinh b / cosh b) - (1 / cosh a - 1 / cosh b) * (1 / cosh a - 1 / cosh b)
    = ((a - b) * (sinh a * cosh b - cosh a * sinh b) - 2 * (cosh a * cosh b - sinh a * sinh b - 1)) / (cosh a * cosh b)).
  { pose proof (ch_sh a) as Qa. pose proof (ch_sh b) as Qb.
    apply Rmult_eq_reg_r with (cosh a * cosh a * (cosh b * cosh b)); [|apply Rgt_not_eq; apply Rmult_lt_0_compat; apply Rmult_lt_0_compat; assumption].
    set (sa := sinh a) in *. set (sb := sinh b) in *. set (ca := cosh a) in *. set (cb := cosh b) in *.
    transitivity (((a - b) * ca * cb - (sa * cb - sb * ca)) * (sa * cb - sb * ca) - (cb - ca) * (cb - ca)); [field; lra|].
    transitivity (((a - b) * (sa * cb - ca * sb) - 2 * (ca * cb - sa * sb - 1)) * (ca * cb)); [|field; lra].
    assert (K : (sa * cb - sb * ca) * (sa * cb - sb * ca) + (cb - ca) * (cb - ca) = 2 * (ca * cb - sa * sb - 1) * (ca * cb)).
    2: { transitivity ((a - b) * (ca * cb) * (sa * cb - sb * ca) - ((sa * cb - sb * ca) * (sa * cb - sb * ca) + (cb - ca) * (cb - ca))); [ring|rewrite K; ring]. }
    transitivity (sa * sa * (cb * cb) + sb * sb * (ca * ca) - 2 * sa * sb * (ca * cb) + cb * cb + ca * ca - 2 * (ca * cb)); [ring|].
    replace (sa * sa) with (ca * ca - 1) by lra. replace (sb * sb) with (cb * cb - 1) by lra. ring. }
  rewrite E. apply div_nn; [lra|apply Rmult_lt_0_compat; assumption].
Qed.
(** the same with the terms of the routine *)
Lemma flex_lg x y : 0 <= (lg x - lg y - (x / sq1 x - y / sq1 y)) * (x / sq1 x - y / sq1 y) - (1 / sq1 x - 1 / sq1 y) * (1 / sq1 x - 1 / sq1 y).
Proof.
  rewrite !lg_arcsinh. pose proof (flex (arcsinh x) (arcsinh y)) as F. rewrite <- !sq1_ch, !sinh_arcsinh in F. exact F.
Qed.
Lemma lg_mono x y : x < y -> lg x < lg y.
Proof. rewrite !lg_arcsinh. apply arcsinh_lt. Qed.
Lemma tan_le x : 0 <= x -> x / sq1 x <= lg x.
Proof.
  intros H. rewrite lg_arcsinh. set (a := arcsinh x). assert (Ea : x = sinh a) by (unfold a; symmetry; apply sinh_arcsinh).
  assert (Pa : 0 <= a) by (unfold a; rewrite <- arcsinh_0; apply arcsinh_le; exact H). rewrite Ea, sq1_ch. pose proof (xch_sh a Pa). pose proof (ch_pos a).
  apply Rmult_le_reg_r with (cosh a); [assumption|]. unfold Rdiv. rewrite Rmult_assoc, Rinv_l by lra. lra.
Qed.
Lemma det_hang L EA W CB HF VF : 0 < EA -> W <> 0 -> 0 < HF -> 0 < L -> 0 < det (jacobian L EA W CB Hanging HF VF).
Proof.
  intros HEA HW HH HL. rewrite jacobian_short by assumption. unfold jH, det. cbv zeta. pose proof (flex_lg (VF / HF) ((VF - W * L) / HF)) as F.
  set (x := VF / HF) in *. set (y := (VF - W * L) / HF) in *.
  assert (Dxy : x - y = W * L / HF) by (unfold x, y; field; lra).
  assert (S : 0 <= W * (lg x - lg y)).
  { destruct (Rlt_le_dec 0 W) as [P|P].
    - assert (0 < W * L / HF) by (apply Rdiv_lt_0_compat; [nra|lra]). pose proof (lg_mono y x ltac:(lra)). nra.
    - assert (0 < - (W * L) / HF) by (apply Rdiv_lt_0_compat; [nra|lra]). assert (- (W * L) / HF = - (W * L / HF)) by (field; lra). pose proof (lg_mono x y ltac:(lra)). nra. }
  set (d := lg x - lg y) in *. set (t := x / sq1 x - y / sq1 y) in *. set (s := 1 / sq1 x - 1 / sq1 y) in *.
  assert (E : (d / W - t / W + L / EA) * (t / W + L / EA) - s / W * (s / W) = (((d - t) * t - s * s) + (W * d) * (L / EA) + (W * W) * ((L / EA) * (L / EA))) / (W * W)) by (field; lra).
  rewrite E. assert (0 < L / EA) by (apply Rdiv_lt_0_compat; lra). assert (0 < W * W) by nra. apply Rdiv_lt_0_compat; [|assumption].
  assert (0 <= (W * d) * (L / EA)) by (apply Rmult_le_pos; lra). assert (0 < (W * W) * ((L / EA) * (L / EA))) by (apply Rmult_lt_0_compat; [assumption|apply Rmult_lt_0_compat; assumption]). lra.
Qed.
Lemma det_ground L EA W HF VF : 0 < EA -> 0 < W -> 0 < HF -> 0 < L -> 0 < VF -> 0 < det (jacobian L EA W 0 Grounded HF VF).
Proof.
  intros HEA HW HH HL HV. rewrite jacobian_short by lra. unfold jG, det. cbv zeta. pose proof (flex_lg (VF / HF) 0) as F. rewrite lg_0, sq1_0 in F.
  assert (Hx : 0 < VF / HF) by (apply Rdiv_lt_0_compat; lra). set (x := VF / HF) in *. pose proof (tan_le x ltac:(lra)) as T. pose proof (sq1_pos x) as P.
  assert (Pt : 0 < x / sq1 x) by (apply Rdiv_lt_0_compat; lra). set (t := x / sq1 x) in *. set (s := 1 / sq1 x) in *. set (d := lg x) in *.
  assert (F' : 0 <= (d - t) * t - (s - 1) * (s - 1)) by (eapply Rle_trans; [exact F|]; right; field). clear F.
  assert (E : (d / W - t / W + L / EA) * (t / W + VF / (W * EA)) - (s / W + 0 / EA * (L - VF / W) - 1 / W) * ((s - 1) / W)
    = (((d - t) * t - (s - 1) * (s - 1)) + (d - t) * (VF / EA) + W * (L / EA) * (t + VF / EA)) / (W * W)) by (field; lra).
  rewrite E. assert (0 < L / EA) by (apply Rdiv_lt_0_compat; lra). assert (0 < VF / EA) by (apply Rdiv_lt_0_compat; lra). apply Rdiv_lt_0_compat; [|nra].
  assert (0 <= (d - t) * (VF / EA)) by (apply Rmult_le_pos; lra). assert (0 < W * (L / EA) * (t + VF / EA)) by (apply Rmult_lt_0_compat; [apply Rmult_lt_0_compat; lra|lra]). lra.
Qed.

(* ------------------------------ the increments ------------------------------ *)
Section Iter.
Variables (XF ZF L EA W CB Tol : R).
Definition kind HF VF := lies W CB (VF - W * L) HF.
Definition solves (k : lie) HF VF a b : Prop :=
  let e := errors XF ZF L EA W CB k HF VF in let '(p, q, r, t) := jacobian L EA W CB k HF VF in
  fst e + p * a + q * b = 0 /\ snd e + r * a + t * b = 0.
Lemma increments_spec I HF VF d : increments XF ZF L EA W CB Tol I HF VF = Some d ->
  W <> 0 /\ EA <> 0 /\ HF <> 0 /\ (kind HF VF = Loose -> CB <> 0) /\ exists a b, solves (kind HF VF) HF VF a b /\
    fst d = Rmax (a * (1 - Tol * INR I)) ((Tol - 1) * HF) /\ snd d = b * (1 - Tol * INR I).
Proof.
  unfold increments. intros H. destruct (Req_EM_T W 0) as [|HW]; [discriminate|]. destruct (Req_EM_T EA 0) as [|HE]; [discriminate|]. destruct (Req_EM_T HF 0) as [|HH]; [discriminate|].
  cbv zeta in H. fold (kind HF VF) in H. split; [exact HW|]. split; [exact HE|]. split; [exact HH|].
  split. { intros E. rewrite E in H. cbn [andb] in H. destruct (Req_EM_T CB 0); [discriminate|assumption]. }
  destruct (andb _ _); [discriminate|]. unfold solves. cbv zeta. destruct (errors XF ZF L EA W CB (kind HF VF) HF VF) as [e1 e2]. destruct (jacobian L EA W CB (kind HF VF) HF VF) as [[[p q] r] t].
  cbn [det] in H. destruct (Req_EM_T (p * t - q * r) 0) as [|HD]; [discriminate|]. injection H as <-.
  exists ((- t * e1 + q * e2) / (p * t - q * r)), ((r * e1 - p * e2) / (p * t - q * r)). cbn [fst snd]. split; [split; field; exact HD|]. split; reflexivity.
Qed.
Hypothesis (HTol : 0 < Tol).
Lemma converged_spec I HF VF d a b : Tol < 1 / 2 -> 0 < HF -> Tol * INR I < 1 -> converged Tol HF VF (fst d) (snd d) = true ->
  fst d = Rmax (a * (1 - Tol * INR I)) ((Tol - 1) * HF) -> snd d = b * (1 - Tol * INR I) ->
  Rabs a <= Tol * HF / (1 - Tol * INR I) /\ Rabs b <= Tol * Rabs VF / (1 - Tol * INR I).
Proof.
  intros HT HH HI C Ea Eb. unfold converged in C. apply andb_true_iff in C. destruct C as [C1 C2].
  destruct (Rle_dec (Rabs (fst d)) (Rabs (Tol * HF))) as [A|]; [|discriminate]. destruct (Rle_dec (Rabs (snd d)) (Rabs (Tol * VF))) as [B|]; [|discriminate]. clear C1 C2.
  set (m := 1 - Tol * INR I) in *. assert (Hm : 0 < m) by (unfold m; lra).
  rewrite (Rabs_mult Tol), (Rabs_pos_eq Tol) in A by lra. rewrite (Rabs_mult Tol), (Rabs_pos_eq Tol) in B by lra. rewrite (Rabs_pos_eq HF) in A by lra.
  split.
  - assert (E : fst d = a * m).
    { rewrite Ea in A |- *. unfold Rmax in *. destruct (Rle_dec (a * m) ((Tol - 1) * HF)); [|reflexivity]. exfalso. rewrite Rabs_left in A by nra. nra. }
    rewrite E, Rabs_mult, (Rabs_pos_eq m) in A by lra. apply Rmult_le_reg_r with m; [exact Hm|]. unfold Rdiv. rewrite Rmult_assoc, Rinv_l by lra. lra.
  - rewrite Eb, Rabs_mult, (Rabs_pos_eq m) in B by lra. apply Rmult_le_reg_r with m; [exact Hm|]. unfold Rdiv. rewrite Rmult_assoc, Rinv_l by lra. lra.
Qed.
Lemma next_pos I HF VF d : 0 < HF -> increments XF ZF L EA W CB Tol I HF VF = Some d -> 0 < HF + fst d.
Proof.
  intros HH H. apply increments_spec in H. destruct H as (_ & _ & _ & _ & a & b & _ & E & _). rewrite E. pose proof (Rmax_r (a * (1 - Tol * INR I)) ((Tol - 1) * HF)). nra.
Qed.
Lemma iterate_spec n : forall I HF VF HF' VF' J, 0 < HF -> iterate XF ZF L EA W CB Tol n I HF VF = Some (HF', VF', J) ->
  0 < HF' /\ (I <= J < I + n)%nat /\ exists d, increments XF ZF L EA W CB Tol J HF' VF' = Some d /\ converged Tol HF' VF' (fst d) (snd d) = true.
Proof.
  induction n as [|n IH]; intros I HF VF HF' VF' J HH H; [discriminate|]. cbn [iterate] in H. destruct (increments XF ZF L EA W CB Tol I HF VF) as [[dh dv]|] eqn:E; [|discriminate].
  destruct (converged Tol HF VF dh dv) eqn:C.
  - assert (HF' = HF /\ VF' = VF /\ J = I) as (-> & -> & ->) by (inversion H; repeat split; reflexivity). split; [exact HH|]. split; [lia|]. exists (dh, dv). split; assumption.
  - apply IH in H; [|apply (next_pos I HF VF (dh, dv) HH E)]. destruct H as (A & B & D). split; [exact A|]. split; [lia|exact D].
Qed.
(** at the last iteration everything is accepted *)
Lemma last_accepts I HF VF d : Tol <= 1 -> Tol * INR I = 1 -> 0 < HF -> increments XF ZF L EA W CB Tol I HF VF = Some d -> converged Tol HF VF (fst d) (snd d) = true.
Proof.
  intros HT HI HH H. apply increments_spec in H. destruct H as (_ & _ & _ & _ & a & b & _ & Ea & Eb). rewrite HI in Ea, Eb. replace (1 - 1) with 0 in Ea, Eb by ring. rewrite Rmult_0_r in Ea, Eb.
  assert (E0 : fst d = 0). { rewrite Ea. unfold Rmax. destruct (Rle_dec 0 ((Tol - 1) * HF)); [nra|reflexivity]. }
  unfold converged. rewrite E0, Eb, Rabs_R0. destruct (Rle_dec 0 (Rabs (Tol * HF))) as [_|N]; [|exfalso; apply N; apply Rabs_pos].
  destruct (Rle_dec 0 (Rabs (Tol * VF))) as [_|N]; [reflexivity|exfalso; apply N; apply Rabs_pos].
Qed.
Lemma never_gives_up n : forall I HF VF, Tol <= 1 -> (1 <= n)%nat -> Tol * INR (I + n - 1) = 1 -> 0 < HF -> iterate XF ZF L EA W CB Tol n I HF VF = None ->
  exists J h v, 0 < h /\ increments XF ZF L EA W CB Tol J h v = None.
Proof.
  induction n as [|n IH]; intros I HF VF HT Hn HI HH H; [lia|]. cbn [iterate] in H. destruct (increments XF ZF L EA W CB Tol I HF VF) as [[dh dv]|] eqn:E; [|exists I, HF, VF; split; assumption].
  destruct (converged Tol HF VF dh dv) eqn:C; [discriminate|]. destruct n as [|n].
  - replace (I + 1 - 1)%nat with I in HI by lia. pose proof (last_accepts I HF VF (dh, dv) HT HI HH E) as K. cbn [fst snd] in K. congruence.
  - apply IH in H; [exact H|exact HT|lia| |apply (next_pos I HF VF (dh, dv) HH E)]. replace (S I + S n - 1)%nat with (I + S (S n) - 1)%nat by lia. exact HI.
Qed.
Lemma guess_pos x z : 0 < fst (guess L W Tol x z).
Proof. unfold guess. cbn [fst]. eapply Rlt_le_trans; [exact HTol|apply Rmax_r]. Qed.
End Iter.
