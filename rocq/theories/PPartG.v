(** Examples for systems under other numbers, and for the stationary scheme. *)
From Coq Require Import Reals List Arith ZArith Bool Lra Lia Permutation.
From Verif Require Import MErr MVec MStateOps MMat MInterp MLine MRod MBody MScheme MSys MCFL PMat PLine PLineB PDemo SPart PPart PPartB PPartC PPartD PPartE PPartF.
From Verif Require MStep MNodes.
Import ListNotations.
Open Scope R_scope.

(* ----- the same two lines under other numbers, the attachments kept by other points ----- *)
Definition swap_lines : numbering := Numbering (fun i => match i with O => 1 | 1 => 0 | n => n end)%nat (fun k => match k with O => 2 | 1 => 3 | 2 => 0 | 3 => 1 | n => n end)%nat.
Lemma nth4 {A} (w x y z : A) k u : nth_error [w; x; y; z] k = Some u -> (k = 0%nat /\ u = w) \/ (k = 1%nat /\ u = x) \/ (k = 2%nat /\ u = y) \/ (k = 3%nat /\ u = z).
Proof. destruct k as [|[|[|[|k]]]]; cbn; intro H; [left|right; left|right; right; left|right; right; right|destruct k; discriminate]; split; congruence. Qed.
Ltac four H := destruct (nth4 _ _ _ _ _ _ H) as [(-> & ->)|[(-> & ->)|[(-> & ->)|(-> & ->)]]].
Lemma sep4 a b c d : (a = ENDPOINT_A /\ b = ENDPOINT_B \/ a = ENDPOINT_B /\ b = ENDPOINT_A) -> (c = ENDPOINT_A /\ d = ENDPOINT_B \/ c = ENDPOINT_B /\ d = ENDPOINT_A) ->
  separated swap_lines 2 [[(0%nat, a)]; [(0%nat, b)]; [(1%nat, c)]; [(1%nat, d)]] [[(0%nat, c)]; [(0%nat, d)]; [(1%nat, a)]; [(1%nat, b)]].
Proof.
  intros HA HC. split; [intros [|[|i]] [|[|j]]; cbn; intros; lia|]. split; [|split; [|split]].
  - intros k x Hk. four Hk; eexists; (split; [reflexivity|apply Permutation_refl]).
  - intros k x i ep Hk Hi. four Hk; destruct Hi as [E|[]]; injection E as <- <-; (split; [lia|]); destruct HA as [(-> & ->)|(-> & ->)], HC as [(-> & ->)|(-> & ->)]; auto.
  - intros k j x y p Hk Hj HX HY. assert (a <> b) by (destruct HA as [(-> & ->)|(-> & ->)]; discriminate). assert (c <> d) by (destruct HC as [(-> & ->)|(-> & ->)]; discriminate). four Hk; four Hj; try reflexivity; destruct HX as [<-|[]], HY as [E|[]]; congruence.
  - intros k' x i ep Hk _ _. four Hk; [exists 2%nat|exists 3%nat|exists 0%nat|exists 1%nat]; cbn; split; (reflexivity || lia).
Qed.
Lemma swap_found_l {A} (x y : A) : found (line_no swap_lines) [x; y] [y; x]. Proof. intros k z H. destruct (nth2 _ _ _ _ H) as [(-> & ->)|(-> & ->)]; reflexivity. Qed.
Lemma swap_found_p {A} (w x y z : A) : found (point_no swap_lines) [w; x; y; z] [y; z; w; x]. Proof. intros k u H. four H; reflexivity. Qed.
Lemma swapped a b : (a = inst1 /\ b = inst2 \/ a = inst2 /\ b = inst1) -> part_instance swap_lines 2 4 (beside a b) (beside b a).
Proof.
  intros [(-> & ->)|(-> & ->)]; unfold part_instance, beside; cbn [MStep.m_scheme MStep.m_dtM MStep.m_dtOut MStep.m_fail MStep.m_rows MStep.m_ts tt tl nst err boost env rr rd inst1 inst2]; (do 10 (split; [reflexivity|])).
  all: split; [|split; [cbn; apply Forall2_cons; [|apply Forall2_nil]|split; [reflexivity|]]].
  2, 5: unfold part_deriv, beside_deriv; cbn [d_rods d_bodies d_lines d_points app]; do 4 (split; [reflexivity|]); split; [apply swap_found_l|apply swap_found_p].
  2, 4: intros x x' H H'; cbn in H, H'; injection H as <-; injection H' as <-; unfold part_state, beside_state; cbn [s_rods s_bodies s_lines s_points app]; do 4 (split; [reflexivity|]); split; [apply swap_found_l|apply swap_found_p].
  all: unfold part_sys; cbn; do 4 (split; [reflexivity|]).
  all: split; [split; [reflexivity|split; [apply swap_found_l|intros L [<-|[<-|[]]]; cbn; lia]]|].
  all: split; [split; [reflexivity|apply swap_found_l]|].
  all: split; [split; [reflexivity|apply swap_found_p]|].
  all: split; [split; [reflexivity|intros [|[|[|[|k]]]] Hk; cbn in Hk |- *; try discriminate; try reflexivity; destruct k; discriminate]|].
  all: split; [|reflexivity].
  all: apply sep4; auto.
Qed.
(* ----- the stationary scheme: a free point pulled along, alone and beside a twin ----- *)
Definition calm (t : R) (p : v3) : MNodes.wkin := MNodes.Wk 0 vzero vzero 0.
Definition pulled (r : v3) (F : v3) : spoint := SPoint PFree r vzero 1 0 (V3 1 0 9.8) 0 0 [] F.
Definition lone : MStep.md mst mdst net :=
  MStep.Md _ _ _ (Ts _ _ _ 0 0 (MStep.Sys net [] [] [] [] (Net [] [pulled vzero vzero] 0 1 [Plain 0.25]))
    [Ms [] [St vzero vzero] [] []; Ms [] [St vzero vzero] [] []] [Md [] [Dr vzero vzero] [] []] 0 0 1) Stationary 1 1 [] [].
Lemma lone_wf : well_formed 0 1 lone.
Proof.
  unfold well_formed, part_instance, lone. cbn [MStep.m_scheme MStep.m_dtM MStep.m_dtOut MStep.m_fail MStep.m_rows MStep.m_ts tt tl nst err boost env rr rd]. do 10 (split; [reflexivity|]). split; [|split; [|split; [reflexivity|]]].
  - unfold part_sys. cbn. do 4 (split; [reflexivity|]). split; [split; [reflexivity|split; [apply found_self|intros L []]]|]. split; [split; [reflexivity|apply found_self]|]. split; [split; [reflexivity|apply found_self]|]. split; [split; [reflexivity|intros k Hk; reflexivity]|]. split; [|reflexivity].
    split; [cbn; intros; lia|]. split; [|split; [|split]].
    + intros k a Hk. exists a. split; [exact Hk|]. now rewrite same_map.
    + intros [|[|k]] a i ep Hk Hi; cbn in Hk; try discriminate. injection Hk as <-. destruct Hi.
    + intros [|[|k]] [|[|j]] a b x Hk Hj HA HB; cbn in Hk, Hj; try discriminate; reflexivity.
    + intros k' a' i ep Hk _ _. exists k'. split; [reflexivity|]. apply some_lt in Hk. exact Hk.
  - apply Forall2_cons; [|apply Forall2_nil]. unfold part_deriv. cbn. do 4 (split; [reflexivity|]). split; apply found_self.
  - intros x x' H H'. injection H as <-. injection H' as <-. unfold part_state. cbn. do 4 (split; [reflexivity|]). split; apply found_self.
Qed.
Lemma pulled_calc t r F d : point_calc calm demo_env t [] (pulled r F) d = Ok (pulled r (V3 1 0 0), Dr vzero (V3 1 0 0)).
Proof.
  unfold point_calc. cbn [pulled sp_type point_of omap sp_att obind]. unfold point_rhs, point_deriv. cbn [point_lines p_att p_type obind fst snd]. unfold point_rhs. cbn [point_lines p_att obind fst snd].
  set (FM1 := vadd _ _). set (M1 := madd _ _). assert (EF : FM1 = V3 1 0 0). { unfold FM1. generalize (vnormalized (vsub (MNodes.w_u (calm t (sp_r (pulled r F)))) vzero)). intros [a b c]. unfold vadd, vscale, demo_env, vsub, vzero. cbn. f_equal; lra. }
  assert (EM : M1 = mid). { unfold M1, mid, madd, mscale. cbn. unfold vadd, vscale. cbn. f_equal; f_equal; lra. } rewrite EF, EM.
  assert (DM : mdet mid = 1) by (cbv [mdet mid dot cross mr0 mr1 mr2 vx vy vz]; ring).
  unfold invertible. rewrite DM. destruct (Req_EM_T 1 0) as [E|_]; [lra|]. cbn [obind fst snd p_rd]. unfold minv. rewrite DM, Rinv_1. f_equal. unfold sp_force, pulled. cbn [sp_type sp_r sp_rd sp_M sp_V sp_F sp_CdA sp_Ca sp_att]. f_equal. f_equal. cbv [mmulv mscale madj mtr mid dot cross mr0 mr1 mr2 vx vy vz vscale]. f_equal; ring.
Qed.
Lemma norm_x x : 0 <= x -> norm (V3 x 0 0) = x.
Proof. intro H. unfold norm, dot. cbn. replace (x * x + 0 * 0 + 0 * 0) with (Rsqr x) by (unfold Rsqr; ring). now apply sqrt_Rsqr. Qed.
Lemma st_first S D E o upd cal lim (s s1 s2 s3 : tsch S D E) dt : update S D E upd s 0 0 = Ok s1 -> calc S D E cal s1 0 = Ok s2 -> err _ _ _ s2 = 0 -> make_stat S D E o s2 dt = Ok s3 -> boost _ _ _ s3 = 1 ->
  step_st S D E o upd cal lim s dt = obind (vget (rr _ _ _ s3) 0) (fun x => obind (put_r S D E s3 1 x) (fun s4 => obind (axpy S D E o s4 0 0 0 (lim (env _ _ _ s3) (1 * dt) (0.5 * dt * err _ _ _ s3))) (fun s5 => finish S D E upd (set_t _ _ _ s5 (tt _ _ _ s5 + dt)) dt))).
Proof.
  intros H1 H2 H3 H4 H5. unfold step_st. rewrite H1. cbn [obind]. rewrite H2. cbn [obind]. rewrite H4. cbn [obind]. rewrite H3. destruct (Req_EM_T 0 0) as [_|K]; [|lra]. cbn [obind]. rewrite H5. destruct (Rgt_dec 1 50); [lra|]. destruct (Rlt_dec 1 0.1); [lra|]. now rewrite H5.
Qed.
Notation UPD := (MStep.upd_sys mst net upd_net).
Notation CAL := (MStep.cal_sys mdst net (cal_net calm (fun _ _ => -20) demo_env)).
Definition twin_env (n : nat) (r F : v3) (t : R) : MStep.sys net := MStep.Sys net [] [] [] [] (Net [] (repeat (pulled r F) n) t 1 (repeat (Plain 0.25) n)).
Definition twin_ts (n : nat) (F : v3) (d : dpst) (er : R) : tsch mst mdst (MStep.sys net) :=
  Ts _ _ _ 0 0 (twin_env n vzero F 0) [Ms [] (repeat (St vzero vzero) n) [] []; Ms [] (repeat (St vzero vzero) n) [] []] [Md [] (repeat d n) [] []] 0 er 1.
Definition pull : v3 := V3 1 0 0.
Lemma twin_upd n : (n = 1%nat \/ n = 2%nat) -> update mst mdst _ UPD (twin_ts n vzero (Dr vzero vzero) 0) 0 0 = Ok (twin_ts n vzero (Dr vzero vzero) 0).
Proof. intros [->| ->]; reflexivity. Qed.
Lemma twin_calc n : (n = 1%nat \/ n = 2%nat) -> calc mst mdst _ CAL (twin_ts n vzero (Dr vzero vzero) 0) 0 = Ok (twin_ts n pull (Dr vzero pull) 0).
Proof.
  intros HN. unfold calc, twin_ts. cbn [rd vget nth_error obind env]. unfold MStep.cal_sys, cal_net, twin_env. cbn [MStep.e_rest MStep.e_lin n_lines with_lengths obind omap n_pts n_time map].
  destruct HN as [->| ->]; cbn [repeat length d_lines d_points Nat.eqb negb orb zipw]; rewrite !pulled_calc; reflexivity.
Qed.
Lemma twin_stat n : (n = 1%nat \/ n = 2%nat) -> make_stat mst mdst _ system_ops (twin_ts n pull (Dr vzero pull) 0) 1 = Ok (twin_ts n pull (Dr (vscale (0.5 * 1) pull) vzero) (INR n)).
Proof.
  intros [->| ->]; unfold make_stat, twin_ts; cbn; unfold mstat_d, pull; cbn; rewrite norm_x by lra; cbn; unfold set_rd, set_err; cbn; repeat f_equal; lra.
Qed.
Lemma twin_lim n e dt : (n = 1%nat \/ n = 2%nat) -> dt = 1 * 1 -> e = 0.5 * 1 * INR n -> lim_net (twin_env n vzero pull 0) dt e = 0.5 / INR n.
Proof.
  intros HN -> ->. unfold lim_net, twin_env. cbn [MStep.e_rest n_objs n_cfl]. destruct HN as [->| ->]; cbn [INR].
  - destruct (Req_EM_T _ 0); [lra|]. cbn [repeat fold_left cfl2dt_v length_of]. rewrite Rmin_right; lra.
  - destruct (Req_EM_T _ 0); [lra|]. cbn [repeat fold_left cfl2dt_v length_of]. rewrite (Rmin_right (1 * 1)) by lra. rewrite Rmin_left; lra.
Qed.
Definition twin_at (n : nat) : v3 := V3 (0.25 / INR n) 0 0.
Lemma twin_step n conv : (n = 1%nat \/ n = 2%nat) -> exists s, step mst mdst _ system_ops UPD CAL lim_net (MStep.msk_sys net (fun e _ => Ok (MStep.e_rest _ e))) conv Stationary (twin_ts n vzero (Dr vzero vzero) 0) 1 = Ok s /\
  exists v, nth_error (rr _ _ _ s) 0 = Some (Ms [] (repeat (St (twin_at n) v) n) [] []).
Proof.
  intro HN. unfold step. rewrite (st_first _ _ _ _ _ _ _ _ _ _ _ _ (twin_upd n HN) (twin_calc n HN) eq_refl (twin_stat n HN) eq_refl).
  cbn [env err twin_ts]. rewrite (twin_lim n _ _ HN eq_refl eq_refl). assert (EV : vadd vzero (vscale (0.5 / INR n) (vscale (0.5 * 1) pull)) = twin_at n). { unfold vadd, vscale, vzero, pull, twin_at. cbn. destruct HN as [->| ->]; cbn [INR]; f_equal; lra. }
  unfold twin_ts. cbn [rr vget nth_error obind put_r vset]. unfold put_r, axpy. cbn [rr rd vget nth_error obind set_rr vset]. 
  destruct HN as [->| ->]; cbn [repeat] in *; cbn.
  all: eexists; split; [reflexivity|]; exists (vadd vzero (vscale (0.5 / INR 1) vzero)).
  - cbn [INR] in EV |- *. cbn. unfold padd, pscale. cbn. rewrite EV. reflexivity.
  - cbn. unfold padd, pscale. cbn in EV |- *. rewrite EV. replace (vadd vzero (vscale (0.5 / (1 + 1)) vzero)) with (vadd vzero (vscale (0.5 / 1) vzero)) by (unfold vadd, vscale, vzero; cbn; f_equal; lra). reflexivity.
Qed.
Lemma twin_run n conv m : (n = 1%nat \/ n = 2%nat) -> m = MStep.Md _ _ _ (twin_ts n vzero (Dr vzero vzero) 0) Stationary 1 1 [] [] ->
  exists m' F v, net_run calm (fun _ _ => -20) demo_env conv 2 m [([], [], 1)] = Ok (m', F) /\ nth_error (rr _ _ _ (MStep.m_ts _ _ _ m')) 0 = Some (Ms [] (repeat (St (twin_at n) v) n) [] []).
Proof.
  intros HN ->. destruct (twin_step n conv HN) as (s & ES & v & EV). cbn [net_run]. unfold net_step, MStep.md_step. destruct (Rle_dec 1 0); [lra|]. cbn [MStep.m_ts MStep.m_scheme MStep.m_dtM MStep.m_dtOut MStep.m_fail MStep.m_rows].
  change (MStep.couple net (env mst mdst (MStep.sys net) (twin_ts n vzero (Dr vzero vzero) 0)) [] [] 1) with (Ok (twin_env n vzero vzero 0)). cbn [obind].
  rewrite (one_substep _ _ 0 1) by lra. unfold MStep.ts_step. match goal with |- context [MStep.next ?a ?b ?c ?x] => change (MStep.next a b c x) with (twin_ts n vzero (Dr vzero vzero) 0) end. rewrite ES. cbn [obind MStep.fail_loop fst snd].
  do 2 eexists. exists v. split; [reflexivity|]. cbn [MStep.m_ts]. exact EV.
Qed.
