From Coq Require Import Reals List Lra Lia.
From Verif Require Import MCFL.
Import ListNotations.
Open Scope R_scope.

(** o' is o or hangs from it, at any depth *)
Inductive hangs : cfl_obj -> cfl_obj -> Prop :=
| hangs_self o : hangs o o
| hangs_child l ch c o : In c ch -> hangs c o -> hangs (Super l ch) o.

Section Fold.
Variable f : cfl_obj -> R.
Lemma fold_min_le l : forall z, fold_left (fun a o => Rmin a (f o)) l z <= z.
Proof.
  induction l as [|b l IH]; intros z; cbn; [lra|].
  eapply Rle_trans; [apply IH|apply Rmin_l].
Qed.
Lemma fold_min_in l o : In o l -> forall z, fold_left (fun a o => Rmin a (f o)) l z <= f o.
Proof.
  induction l as [|b l IH]; intros H z; [destruct H|]. cbn. destruct H as [->|H].
  - eapply Rle_trans; [apply fold_min_le|apply Rmin_r].
  - apply IH; exact H.
Qed.
Lemma fold_min_att l : forall z, fold_left (fun a o => Rmin a (f o)) l z = z \/
  exists o, In o l /\ fold_left (fun a o => Rmin a (f o)) l z = f o.
Proof.
  induction l as [|b l IH]; intros z; cbn; [left; reflexivity|].
  destruct (IH (Rmin z (f b))) as [E|(o & Ho & E)].
  - rewrite E. unfold Rmin. destruct (Rle_dec z (f b)); [left; reflexivity|right]. exists b. split; [left; reflexivity|reflexivity].
  - right. exists o. split; [right; exact Ho|exact E].
Qed.
Lemma fold_max_ge l : forall z, z <= fold_left (fun a o => Rmax a (f o)) l z.
Proof.
  induction l as [|b l IH]; intros z; cbn; [lra|].
  eapply Rle_trans; [|apply IH]. apply Rmax_l.
Qed.
Lemma fold_max_in l o : In o l -> forall z, f o <= fold_left (fun a o => Rmax a (f o)) l z.
Proof.
  induction l as [|b l IH]; intros H z; [destruct H|]. cbn. destruct H as [->|H].
  - eapply Rle_trans; [|apply fold_max_ge]. apply Rmax_r.
  - apply IH; exact H.
Qed.
Lemma fold_max_att l : forall z, fold_left (fun a o => Rmax a (f o)) l z = z \/
  exists o, In o l /\ fold_left (fun a o => Rmax a (f o)) l z = f o.
Proof.
  induction l as [|b l IH]; intros z; cbn; [left; reflexivity|].
  destruct (IH (Rmax z (f b))) as [E|(o & Ho & E)].
  - rewrite E. unfold Rmax. destruct (Rle_dec z (f b)); [right|left; reflexivity]. exists b. split; [left; reflexivity|reflexivity].
  - right. exists o. split; [right; exact Ho|exact E].
Qed.
End Fold.

Lemma hangs_dt c o o' : hangs o o' -> cfl2dt c o <= cfl2dt c o'.
Proof.
  induction 1 as [o|l ch d o Hin H IH]; [lra|].
  eapply Rle_trans; [|exact IH]. cbn. apply fold_min_in. exact Hin.
Qed.
Lemma hangs_cfl dt o o' : hangs o o' -> dt2cfl dt o' <= dt2cfl dt o.
Proof.
  induction 1 as [o|l ch d o Hin H IH]; [lra|].
  eapply Rle_trans; [exact IH|]. cbn. apply fold_max_in. exact Hin.
Qed.
Lemma hangs_dt_v c v o o' : hangs o o' -> cfl2dt_v c v o <= cfl2dt_v c v o'.
Proof.
  induction 1 as [o|l ch d o Hin H IH]; [lra|].
  eapply Rle_trans; [|exact IH]. cbn. apply fold_min_in. exact Hin.
Qed.
Lemma hangs_cfl_v dt v o o' : hangs o o' -> dt2cfl_v dt v o' <= dt2cfl_v dt v o.
Proof.
  induction 1 as [o|l ch d o Hin H IH]; [lra|].
  eapply Rle_trans; [exact IH|]. cbn. apply fold_max_in. exact Hin.
Qed.

(** induction with children *)
Section Ind.
Variable P : cfl_obj -> Prop.
Hypothesis HP : forall l, P (Plain l).
Hypothesis HN : forall l k m, P (NatFreq l k m).
Hypothesis HS : forall l ch, Forall P ch -> P (Super l ch).
Fixpoint cfl_ind' (o : cfl_obj) : P o :=
  match o with
  | Plain l => HP l
  | NatFreq l k m => HN l k m
  | Super l ch => HS l ch ((fix go (ch : list cfl_obj) : Forall P ch :=
      match ch with [] => Forall_nil P | c :: ch' => Forall_cons c (cfl_ind' c) (go ch') end) ch)
  end.
End Ind.

(** the value is attained by a line that hangs from the object, or unlimited *)
Lemma dt_attained c o : cfl2dt c o = dbl_max \/
  exists l k m, hangs o (NatFreq l k m) /\ cfl2dt c o = c * period k m.
Proof.
  induction o as [l|l k m|l ch IH] using cfl_ind'.
  - left; reflexivity.
  - right. exists l, k, m. split; [constructor|reflexivity].
  - cbn. destruct (fold_min_att (cfl2dt c) ch dbl_max) as [E|(o & Ho & E)]; [left; exact E|].
    rewrite E. rewrite Forall_forall in IH. destruct (IH o Ho) as [E'|(l' & k & m & Hh & E')]; [left; exact E'|right].
    exists l', k, m. split; [econstructor; eassumption|exact E'].
Qed.
Lemma cfl_attained dt o : dt2cfl dt o = 0 \/
  exists l k m, hangs o (NatFreq l k m) /\ dt2cfl dt o = dt / period k m.
Proof.
  induction o as [l|l k m|l ch IH] using cfl_ind'.
  - left; reflexivity.
  - right. exists l, k, m. split; [constructor|reflexivity].
  - cbn. destruct (fold_max_att (dt2cfl dt) ch 0) as [E|(o & Ho & E)]; [left; exact E|].
    rewrite E. rewrite Forall_forall in IH. destruct (IH o Ho) as [E'|(l' & k & m & Hh & E')]; [left; exact E'|right].
    exists l', k, m. split; [econstructor; eassumption|exact E'].
Qed.

Lemma period_pos k m : 0 < k -> 0 < m -> 0 < period k m.
Proof.
  intros Hk Hm. unfold period, frequency. assert (0 < k / m) by (apply Rdiv_lt_0_compat; assumption).
  apply Rdiv_lt_0_compat; [|apply sqrt_lt_R0; assumption]. pose proof PI_RGT_0. lra.
Qed.

Lemma natfreq_inverse l k m c : 0 < k -> 0 < m -> dt2cfl (cfl2dt c (NatFreq l k m)) (NatFreq l k m) = c.
Proof. intros Hk Hm. pose proof (period_pos k m Hk Hm). cbn. field. lra. Qed.
Lemma natfreq_inverse' l k m dt : 0 < k -> 0 < m -> cfl2dt (dt2cfl dt (NatFreq l k m)) (NatFreq l k m) = dt.
Proof. intros Hk Hm. pose proof (period_pos k m Hk Hm). cbn. field. lra. Qed.
Lemma velocity_inverse l c v : 0 < l -> 0 < v -> dt2cfl_v (cfl2dt_v c v (Plain l)) v (Plain l) = c.
Proof. intros. cbn. field. lra. Qed.

(** the period used for a line: that of a segment, (2 pi L / N) sqrt(w / EA) *)
Lemma line_period EA w L N : 0 < EA -> 0 < w -> 0 < L -> (0 < N)%nat ->
  forall c, cfl2dt c (line_cfl EA w L N) = c * (2 * PI * (L / INR N) * sqrt (w / EA)).
Proof.
  intros HE Hw HL HN c. assert (HNR : 0 < INR N) by (apply lt_0_INR; exact HN).
  unfold line_cfl, cfl2dt, period, frequency.
  replace (EA * INR N / L / (w * L / INR N)) with ((INR N / L) * (INR N / L) * (EA / w)) by (field; repeat split; lra).
  assert (0 < INR N / L) by (apply Rdiv_lt_0_compat; lra).
  assert (0 < EA / w) by (apply Rdiv_lt_0_compat; lra).
  rewrite sqrt_mult by nra. rewrite sqrt_square by lra.
  replace (w / EA) with (/ (EA / w)) by (field; lra). rewrite sqrt_inv by assumption.
  assert (0 < sqrt (EA / w)) by (apply sqrt_lt_R0; assumption).
  field. repeat split; lra.
Qed.

(** all the periods of the system are positive *)
Definition periods_ok (o : cfl_obj) : Prop := forall l k m, hangs o (NatFreq l k m) -> 0 < k /\ 0 < m.

Lemma dbl_max_pos : 0 < dbl_max.
Proof. unfold dbl_max. assert (2 ^ 971 < 2 ^ 1024) by (apply Rlt_pow; [lra|repeat constructor]). lra. Qed.

Lemma pow2_pos n : 0 < 2 ^ n. Proof. apply pow_lt; lra. Qed.

(** Init, no time step requested: stable for every object, and attained *)
Lemma init_stable dtM0 c objs dt c' : 9 / 10 * dbl_max <= dtM0 ->
  init_dt dtM0 c objs = (dt, c') ->
  (forall o o', In o objs -> hangs o o' -> dt <= cfl2dt c o') /\
  (dt = dtM0 \/ dt = dbl_max \/ exists o l k m, In o objs /\ hangs o (NatFreq l k m) /\ dt = c * period k m).
Proof.
  intros Hd H. unfold init_dt in H. destruct (Rlt_dec dtM0 (9 / 10 * dbl_max)); [lra|].
  injection H as <- <-. split.
  - intros o o' Ho Hh. eapply Rle_trans; [apply fold_min_in; exact Ho|]. apply hangs_dt. exact Hh.
  - destruct (fold_min_att (cfl2dt c) objs dtM0) as [E|(o & Ho & E)]; [left; exact E|right].
    unfold min_over. rewrite E. destruct (dt_attained c o) as [E'|(l & k & m & Hh & E')]; [left; exact E'|right].
    exists o, l, k, m. auto.
Qed.

Lemma init_factor dtM0 c objs dt c' : init_dt dtM0 c objs = (dt, c') ->
  0 <= c' /\ (forall o o', In o objs -> hangs o o' -> dt2cfl dt o' <= c') /\
  (c' = 0 \/ exists o l k m, In o objs /\ hangs o (NatFreq l k m) /\ c' = dt / period k m).
Proof.
  intros H. unfold init_dt in H. injection H as <- <-. split; [apply fold_max_ge|]. split.
  - intros o o' Ho Hh. eapply Rle_trans; [apply hangs_cfl; exact Hh|]. unfold max_over. apply fold_max_in. exact Ho.
  - set (dt := min_over _ dtM0 objs). unfold max_over. destruct (fold_max_att (dt2cfl dt) objs 0) as [E|(o & Ho & E)]; [left; exact E|].
    rewrite E. destruct (cfl_attained dt o) as [E'|(l & k & m & Hh & E')]; [left; exact E'|right].
    exists o, l, k, m. auto.
Qed.

(** the factor reported never exceeds the one requested *)
Lemma init_reported dtM0 c objs dt c' : 9 / 10 * dbl_max <= dtM0 -> 0 < c ->
  Forall periods_ok objs -> init_dt dtM0 c objs = (dt, c') -> c' <= c.
Proof.
  intros Hd Hc HP H. destruct (init_stable _ _ _ _ _ Hd H) as [Hs _].
  destruct (init_factor _ _ _ _ _ H) as (_ & _ & [->|(o & l & k & m & Ho & Hh & ->)]); [lra|].
  rewrite Forall_forall in HP. destruct (HP o Ho l k m Hh) as [Hk Hm].
  pose proof (period_pos k m Hk Hm) as Hp. pose proof (Hs o _ Ho Hh) as Hle. cbn in Hle.
  apply (Rmult_le_reg_r (period k m)); [assumption|]. unfold Rdiv. rewrite Rmult_assoc, Rinv_l by lra. lra.
Qed.

(** a requested time step is used as is, unless a line has a period too short to
    be told from zero *)
Lemma init_requested dtM0 c objs : 0 < dtM0 < 9 / 10 * dbl_max ->
  (forall o l k m, In o objs -> hangs o (NatFreq l k m) -> dtM0 / dbl_max <= period k m) ->
  fst (init_dt dtM0 c objs) = dtM0.
Proof.
  intros Hd HP. unfold init_dt. destruct (Rlt_dec dtM0 (9 / 10 * dbl_max)); [|lra]. cbn.
  unfold min_over. destruct (fold_min_att (cfl2dt dbl_max) objs dtM0) as [E|(o & Ho & E)]; [exact E|].
  pose proof (fold_min_le (cfl2dt dbl_max) objs dtM0) as Hle. pose proof dbl_max_pos as Hp.
  apply Rle_antisym; [exact Hle|]. rewrite E.
  destruct (dt_attained dbl_max o) as [->|(l & k & m & Hh & ->)]; [lra|].
  specialize (HP o l k m Ho Hh).
  replace dtM0 with (dbl_max * (dtM0 / dbl_max)) by (field; lra).
  apply Rmult_le_compat_l; lra.
Qed.

Lemma set_cfl_stable c objs dt c' : set_cfl c objs = (dt, c') ->
  c' = c /\ (forall o o', In o objs -> hangs o o' -> dt <= cfl2dt c o') /\
  (dt = dbl_max \/ exists o l k m, In o objs /\ hangs o (NatFreq l k m) /\ dt = c * period k m).
Proof.
  intros H. injection H as <- <-. split; [reflexivity|]. split.
  - intros o o' Ho Hh. unfold min_over. eapply Rle_trans; [apply fold_min_in; exact Ho|]. apply hangs_dt. exact Hh.
  - unfold min_over. destruct (fold_min_att (cfl2dt c) objs dbl_max) as [E|(o & Ho & E)]; [left; exact E|].
    rewrite E. destruct (dt_attained c o) as [E'|(l & k & m & Hh & E')]; [left; exact E'|right].
    exists o, l, k, m. auto.
Qed.
Lemma set_dt_factor dt objs dt' c' : set_dt dt objs = (dt', c') ->
  dt' = dt /\ (forall o o', In o objs -> hangs o o' -> dt2cfl dt o' <= c') /\
  (c' = 0 \/ exists o l k m, In o objs /\ hangs o (NatFreq l k m) /\ c' = dt / period k m).
Proof.
  intros H. injection H as <- <-. split; [reflexivity|]. split.
  - intros o o' Ho Hh. eapply Rle_trans; [apply hangs_cfl; exact Hh|]. unfold max_over. apply fold_max_in. exact Ho.
  - unfold max_over. destruct (fold_max_att (dt2cfl dt) objs 0) as [E|(o & Ho & E)]; [left; exact E|].
    rewrite E. destruct (cfl_attained dt o) as [E'|(l & k & m & Hh & E')]; [left; exact E'|right].
    exists o, l, k, m. auto.
Qed.
(** SetCFL then SetDt with the step obtained: the factor comes back when a line
    limits the step *)
Lemma set_roundtrip c objs : 0 < c -> Forall periods_ok objs ->
  fst (set_cfl c objs) < dbl_max ->
  snd (set_dt (fst (set_cfl c objs)) objs) = c.
Proof.
  intros Hc HP Hlt. destruct (set_cfl c objs) as [dt c1] eqn:E1.
  destruct (set_cfl_stable _ _ _ _ E1) as (-> & Hs & Ha). cbn [fst] in *.
  destruct Ha as [->|(o & l & k & m & Ho & Hh & Edt)]; [lra|].
  destruct (set_dt dt objs) as [dt' c'] eqn:E2.
  destruct (set_dt_factor _ _ _ _ E2) as (-> & Hf & Hatt). cbn [snd].
  rewrite Forall_forall in HP. destruct (HP o Ho l k m Hh) as [Hk Hm].
  pose proof (period_pos k m Hk Hm) as Hp.
  assert (Hge : c <= c').
  { eapply Rle_trans; [|apply (Hf o _ Ho Hh)]. cbn. rewrite Edt. right. field. lra. }
  apply Rle_antisym; [|exact Hge].
  destruct Hatt as [->|(o2 & l2 & k2 & m2 & Ho2 & Hh2 & ->)]; [lra|].
  destruct (HP o2 Ho2 l2 k2 m2 Hh2) as [Hk2 Hm2]. pose proof (period_pos k2 m2 Hk2 Hm2) as Hp2.
  pose proof (Hs o2 _ Ho2 Hh2) as Hle. cbn in Hle.
  apply (Rmult_le_reg_r (period k2 m2)); [assumption|]. unfold Rdiv. rewrite Rmult_assoc, Rinv_l by lra. lra.
Qed.
