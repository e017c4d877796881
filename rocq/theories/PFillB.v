(** Proofs about the wave grids made from the two kinds of files *)
From Coq Require Import Reals ZArith List Arith Lra Lia Bool.
From Verif Require Import MErr MVec MMat MStateOps MInterp MSeafloor MWaves MSpec MFFT MFill SInterp SWaves SMat SSpec SSpecB SFFT SFill PInterp PEuler PSpec PSpecB PFFT PFFTB PFFTC PFFTD PFFTE PFill.
Import ListNotations.
Open Scope R_scope.

Lemma spectrum_run junk fs dw px py pz rho g h : let om := map f_omega fs in
  increasing om -> (2 <= length fs)%nat -> nth 0 om 0 = 0 -> smallest_gap om dw -> last om 0 < IZR (2 ^ 32 - 1) * dw -> 0 < g -> 0 < h ->
  exists ev G F, interpEvenlySpaced fs = Ok ev /\ (2 <= length ev)%nat /\ spectrum_grid junk fs px py pz rho g h = Ok G /\
    wg_axes G = Axes px py pz (2 * (length ev - 1)) (2 * PI / dw / INR (2 * (length ev - 1))) /\ samples G F /\ linear_waves g h rho ev (share (length ev)) F.
Proof.
  intros om Hi Hl H0 Hs Hw Hg Hh. destruct (resample fs dw Hi Hl H0 Hs Hw) as (ev & E & EV & Le & _).
  assert (Dp : 0 < dw). { destruct Hs as [_ (i & Li & ->)]. specialize (Hi i (S i)). assert (nth i om 0 < nth (S i) om 0) by (apply Hi; lia). lra. }
  set (n := length ev) in *. set (m := (n - 1)%nat). set (z := fun i => Cx (f_re (nc ev i) * INR m) (f_im (nc ev i) * INR m)). set (be := fun i => f_beta (nc ev i)).
  destruct (fill_run junk px py pz m z n be rho g h dw ltac:(unfold m; lia) Dp ltac:(unfold m; lia)) as (G & R & AX & SA).
  exists ev, G, (filled g h rho dw z be m). split; [exact E|]. split; [exact Le|]. split.
  - unfold spectrum_grid. destruct fs as [|f0 fs']; [cbn in Hl; lia|]. unfold om in H0. cbn [map nth] in H0. destruct (Req_EM_T (f_omega f0) 0) as [_|N]; [|contradiction]. rewrite E. cbn [obind]. fold n.
    replace (n <? 2)%nat with false by (symmetry; apply Nat.ltb_ge; lia). cbv zeta. fold m.
    assert (Ed : f_omega (nth 1 ev (FComp 0 0 0 0)) - f_omega (nth 0 ev (FComp 0 0 0 0)) = dw).
    { destruct (EV 1%nat ltac:(fold n; lia)) as [-> _]. destruct (EV 0%nat ltac:(fold n; lia)) as [-> _]. cbn. ring. }
    rewrite Ed. exact R.
  - split; [exact AX|]. split; [exact SA|].
    assert (EC : comps dw z be m = ev).
    { unfold comps. apply nth_ext with (d := FComp 0 0 0 0) (d' := FComp 0 0 0 0); [rewrite map_length, seq_length; fold n; unfold m; lia|]. intros i Hi'. rewrite map_length, seq_length in Hi'.
      rewrite (nth_map _ _ _ 0%nat) by (rewrite seq_length; exact Hi'). rewrite seq_nth by exact Hi'. cbn [Nat.add]. destruct (EV i ltac:(fold n; unfold m in Hi'; lia)) as [Eo _]. unfold z, be, nc. cbn [re im].
      assert (INR m <> 0) by (apply not_0_INR; unfold m; lia).
      destruct (nth i ev (FComp 0 0 0 0)) as [o a b c]. cbn [f_omega f_re f_im f_beta] in *. rewrite Eo. f_equal; field; assumption. }
    pose proof (filled_waves g h rho dw z be m Hg Hh Dp) as FW. rewrite EC in FW. replace (S m) with n in FW by (unfold m; lia). exact FW.
Qed.
Lemma waves_share g h rho cs sh sh' F : (forall i, (i < length cs)%nat -> sh i = sh' i \/ (f_re (nc cs i) = 0 /\ f_im (nc cs i) = 0)) -> linear_waves g h rho cs sh F -> linear_waves g h rho cs sh' F.
Proof.
  intros H (ka & Q & A1 & A2 & A3 & A4 & A5 & A6 & A7 & A8 & A9 & A10 & A11). exists ka, Q. cbv zeta in *.
  assert (W : forall i x y t, (i < length cs)%nat -> sh i * real_wave (ka (f_omega (nc cs i)) h) (nc cs i) x y t = sh' i * real_wave (ka (f_omega (nc cs i)) h) (nc cs i) x y t).
  { intros i x y t Hi. destruct (H i Hi) as [->|[Z1 Z2]]; [reflexivity|]. unfold real_wave. rewrite Z1, Z2. cbv zeta. ring. }
  split; [intros x y t; rewrite A1; apply rsum_ext; intros i Hi; apply W; exact Hi|].
  repeat (split; [assumption|]). split; [|assumption]. intros x y s t. rewrite A10. apply rsum_ext. intros i Hi. rewrite W by exact Hi. reflexivity.
Qed.

(* ------------------------------ records ------------------------------ *)
Definition cut (dw : R) (A : nat -> cpx) (i : nat) : cpx := if Rlt_dec (0.5 * 2 * PI) (INR i * dw) then Cx 0 0 else A i.
Lemma elevation_run junk ts es dt px py pz rho g h : increasing ts -> (2 <= length ts)%nat -> length es = length ts -> 0 < dt -> dt <= last ts 0 < IZR (2 ^ 32 - 1) * dt -> 0 < g -> 0 < h ->
  exists m G F rec, (0 < m)%nat /\ INR (2 * m - 1) * dt <= last ts 0 < INR (2 * m + 1) * dt /\
    elevation_grid junk ts es dt px py pz rho g h = Ok G /\ wg_axes G = Axes px py pz (2 * m) dt /\ samples G F /\
    (forall r, (r < 2 * m)%nat -> lin_interp ts es (INR r * dt) (rec r)) /\
    (let A := fun i => if Rlt_dec PI (INR i * (PI / (dt * INR m))) then Cx 0 0 else real_dft (2 * m) rec i in
     linear_waves g h rho (map (fun i => FComp (INR i * (PI / (dt * INR m))) (re (A i) / INR m) (im (A i) / INR m) 0) (seq 0 (m + 1))) (share (m + 1)) F) /\
    (1 <= dt -> forall y r, (r < 2 * m)%nat -> wf_eta F 0 y (INR r * dt) = rec r).
Proof.
  intros Hi Hl He Hd [H1 H2] Hg Hh. set (q := Int_part (last ts 0 / dt)).
  assert (Q : IZR q <= last ts 0 / dt < IZR q + 1) by (unfold q; pose proof (base_Int_part (last ts 0 / dt)); lra).
  assert (B1 : 1 <= last ts 0 / dt). { apply (Rmult_le_reg_r dt); [exact Hd|]. unfold Rdiv. rewrite Rmult_assoc, Rinv_l by lra. lra. }
  assert (B2 : last ts 0 / dt < IZR (2 ^ 32 - 1)). { apply (Rmult_lt_reg_r dt); [exact Hd|]. unfold Rdiv. rewrite Rmult_assoc, Rinv_l by lra. lra. }
  assert (q1 : (1 <= q)%Z). { apply le_IZR. destruct (Z_lt_le_dec q 1) as [L|L]; [|apply IZR_le; exact L]. exfalso. assert (IZR q <= 0) by (apply IZR_le; lia). lra. }
  assert (q2 : (q < 2 ^ 32 - 1)%Z). { apply lt_IZR. lra. }
  set (nt0 := S (Z.to_nat q)). set (n := (if Nat.odd nt0 then nt0 - 1 else nt0)%nat).
  assert (Ev : Nat.even n = true). { unfold n. destruct (Nat.odd nt0) eqn:O. - unfold nt0 in *. rewrite Nat.sub_succ, Nat.sub_0_r. rewrite Nat.odd_succ in O. exact O. - rewrite <- Nat.negb_odd, O. reflexivity. }
  apply Nat.even_spec in Ev. destruct Ev as [m Em]. assert (N2 : (2 <= nt0)%nat) by (unfold nt0; lia).
  assert (Nn : (n = nt0 \/ n = nt0 - 1 /\ Nat.odd nt0 = true)%nat) by (unfold n; destruct (Nat.odd nt0); auto).
  assert (Hm : (0 < m)%nat). { destruct Nn as [Nn|[Nn O]]; [lia|]. destruct (Nat.eq_dec nt0 2) as [E|E]; [rewrite E in O; discriminate|lia]. }
  assert (M0 : 0 < INR m) by (apply lt_0_INR; exact Hm).
  assert (E2 : (n / 2 = m)%nat) by (rewrite Em, Nat.mul_comm, Nat.div_mul; lia).
  destruct (batch_spec ts es (map (fun i => INR i * dt) (seq 0 nt0)) (repeat 0 nt0) Hi Hl He) as (elev & EB & LB & AB).
  { intros i j Hij. rewrite map_length, seq_length in Hij. rewrite !(nth_map _ _ _ 0%nat) by (rewrite seq_length; lia). rewrite !seq_nth by lia. cbn [Nat.add]. apply Rmult_le_compat_r; [lra|]. apply le_INR. lia. }
  { rewrite map_length, seq_length, repeat_length. lia. }
  set (rec := fun r => nth r elev 0). set (dw := PI / (dt * INR m)).
  assert (Dp : 0 < dw). { unfold dw. apply Rdiv_lt_0_compat; [apply PI_RGT_0|]. apply Rmult_lt_0_compat; assumption. }
  destruct (ralloc_ok n false junk junk ltac:(lia) ltac:(apply Nat.even_spec; exists m; exact Em)) as (cfg & EA & SS). rewrite E2 in SS.
  destruct (fftr_spectrum cfg m (fun r => if (r <? n)%nat then nth r elev 0 else re (junk r)) junk junk SS) as (fd & EF & PF).
  set (z := fun i => if Rlt_dec (0.5 * 2 * PI) (INR i * dw) then Cx 0 0 else fd i).
  destruct (fill_run junk px py pz m z (m + 1) (fun _ => 0) rho g h dw Hm Dp ltac:(lia)) as (G & RG & AX & SA).
  assert (DT : 2 * PI / dw / INR (2 * m) = dt). { unfold dw. rewrite mult_INR. change (INR 2) with 2. pose proof PI_RGT_0. field. repeat split; lra. }
  assert (ZE : forall i, (i <= m)%nat -> z i = if Rlt_dec PI (INR i * dw) then Cx 0 0 else real_dft (2 * m) rec i).
  { intros i Hi'. unfold z. replace (0.5 * 2 * PI) with PI by lra. destruct (Rlt_dec PI (INR i * dw)); [reflexivity|]. rewrite PF by exact Hi'. rewrite <- Em. unfold real_dft. f_equal; [|f_equal]; apply rsum_ext; intros r Hr; replace (r <? n)%nat with true by (symmetry; apply Nat.ltb_lt; exact Hr); reflexivity. }
  exists m, G, (filled g h rho dw z (fun _ => 0) m), rec. split; [exact Hm|]. split.
  { assert (Hq : INR (Z.to_nat q) = IZR q) by (rewrite INR_IZR_INZ, Z2Nat.id by lia; reflexivity).
    assert (L1 : IZR q * dt <= last ts 0 < (IZR q + 1) * dt). { replace (last ts 0) with (last ts 0 / dt * dt) by (field; lra). split; [apply Rmult_le_compat_r; lra|apply Rmult_lt_compat_r; lra]. }
    rewrite <- Hq in L1. replace (INR (Z.to_nat q) + 1) with (INR nt0) in L1 by (unfold nt0; rewrite S_INR; reflexivity). split.
    - eapply Rle_trans; [|apply L1]. apply Rmult_le_compat_r; [lra|]. apply le_INR. unfold nt0 in *. lia.
    - eapply Rlt_le_trans; [apply L1|]. apply Rmult_le_compat_r; [lra|]. apply le_INR. lia. }
  split.
  { unfold elevation_grid. destruct ts as [|t0 ts']; [cbn in Hl; lia|]. destruct (Req_EM_T dt 0) as [Z|_]; [lra|]. cbv zeta. fold q.
    replace (q <? 0)%Z with false by (symmetry; apply Z.ltb_ge; lia). replace (2 ^ 32 - 1 <=? q)%Z with false by (symmetry; apply Z.leb_gt; exact q2). cbn [orb]. fold nt0. rewrite EB. cbn [obind]. fold n. rewrite E2. fold dw.
    replace (n =? 0)%nat with false by (symmetry; apply Nat.eqb_neq; lia). rewrite EA, EF. fold z. rewrite Em. exact RG. }
  split; [rewrite AX, DT; reflexivity|]. split; [exact SA|]. split; [|split].
  - intros r Hr. specialize (AB r). rewrite map_length, seq_length in AB. assert (Hr' : (r < nt0)%nat) by lia. specialize (AB Hr'). rewrite (nth_map _ _ _ 0%nat) in AB by (rewrite seq_length; exact Hr'). rewrite seq_nth in AB by exact Hr'. exact AB.
  - cbv zeta. fold dw. pose proof (filled_waves g h rho dw z (fun _ => 0) m Hg Hh Dp) as FW.
    replace (m + 1)%nat with (S m) by lia. assert (EC : comps dw z (fun _ => 0) m = map (fun i => FComp (INR i * dw) (re (if Rlt_dec PI (INR i * dw) then Cx 0 0 else real_dft (2 * m) rec i) / INR m) (im (if Rlt_dec PI (INR i * dw) then Cx 0 0 else real_dft (2 * m) rec i) / INR m) 0) (seq 0 (S m))).
    { unfold comps. apply map_ext_in. intros i Hi'. apply in_seq in Hi'. rewrite ZE by lia. reflexivity. }
    rewrite EC in FW. exact FW.
  - intros Dt y r Hr. rewrite <- DT at 1. rewrite <- (cell_zeta g h rho dw z (fun _ => 0) m Hm Dp).
    rewrite (signal_ext m _ (real_dft (2 * m) rec)); [rewrite (signal_of_spectrum m) by assumption; field; apply not_0_INR; lia|exact Hm|].
    intros i Hi'. unfold zetaC. rewrite ZE by exact Hi'. cbv zeta. rewrite cos_0, sin_0. replace (- (k_ g h dw i * (1 * 0 + 0 * y))) with 0 by ring.
    destruct (Rlt_dec PI (INR i * dw)) as [L|L].
    + exfalso. assert (INR i <= INR m) by (apply le_INR; exact Hi'). assert (INR m * dw = PI / dt) by (unfold dw; field; lra).
      assert (PI / dt <= PI). { pose proof PI_RGT_0. apply (Rmult_le_reg_r dt); [exact Hd|]. unfold Rdiv. rewrite Rmult_assoc, Rinv_l by lra. nra. }
      assert (INR i * dw <= INR m * dw) by (apply Rmult_le_compat_r; lra). lra.
    + unfold cexp. rewrite cos_0, sin_0. destruct (real_dft (2 * m) rec i) as [u v]. unfold cmul. cbn [re im]. f_equal; ring.
Qed.
