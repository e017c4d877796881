(** Examples for parts of systems. *)
From Coq Require Import Reals List Arith ZArith Bool Lra Lia Permutation.
From Verif Require Import MErr MVec MStateOps MMat MInterp MLine MRod MBody MScheme MSys MCFL PMat PLine PLineB PDemo SPart PPart PPartB PPartC PPartD PPartE.
From Verif Require MStep MNodes.
Import ListNotations.
Open Scope R_scope.

(* ----- a line like that of PFrameI ten metres to the side, with the coupled point before the anchor ----- *)
Definition line2 : line :=
  Line 1 0.2 0.03 2000 2000 0 10 1 0 1.2 0.1 [] [] [] [] [] [] false (fun _ => 0)
    (fun i => match i with O => V3 0 10 (-20) | _ => V3 3 10 (-16) end) (fun _ => vzero) (fun _ => 4) (fun _ => 0.12) false false (V3 1 0 0) (V3 1 0 0).
Definition sys2 : MStep.sys net :=
  MStep.Sys net [] [] [MStep.Cpt (V3 3 10 (-16)) vzero (V3 3 10 (-16)) vzero] [MStep.Pline 4 4 0 [4]]
    (Net [line2] [SPoint PCoupled (V3 3 10 (-16)) vzero 0 0 vzero 0 0 [(0%nat, ENDPOINT_B)] vzero; SPoint PFixed (V3 0 10 (-20)) vzero 0 0 vzero 0 0 [(0%nat, ENDPOINT_A)] vzero] 0 1 []).
Definition inst2 : MStep.md mst mdst net :=
  MStep.Md _ _ _ (Ts _ _ _ 0 0 sys2 [Ms [St [] []] [St vzero vzero; St vzero vzero] [] []] [Md [Dr [] []] [Dr vzero vzero; Dr vzero vzero] [] []] 0 0 1) Euler 1 1 [] [].
Definition calls2 : list (list v3 * list v3 * R) := [([V3 3 12 (-16)], [V3 0 2 0], 1)].
Lemma nth2 {A} (x y : A) k z : nth_error [x; y] k = Some z -> (k = 0%nat /\ z = x) \/ (k = 1%nat /\ z = y).
Proof. destruct k as [|[|k]]; cbn; intro H; [left|right|destruct k; discriminate]; split; congruence. Qed.
Lemma sep2 e e' : e <> e' -> (e = ENDPOINT_A \/ e = ENDPOINT_B) -> (e' = ENDPOINT_A \/ e' = ENDPOINT_B) -> separated same_numbers 1 [[(0%nat, e)]; [(0%nat, e')]] [[(0%nat, e)]; [(0%nat, e')]].
Proof.
  intros NE HE HE'. split; [cbn; intros; lia|]. split; [|split; [|split]].
  - intros k a Hk. exists a. split; [exact Hk|]. now rewrite same_map.
  - intros k a i ep Hk Hi. destruct (nth2 _ _ _ _ Hk) as [(-> & ->)|(-> & ->)]; destruct Hi as [E|[]]; injection E as <- <-; split; auto.
  - intros k j a b x Hk Hj HA HB. destruct (nth2 _ _ _ _ Hk) as [(-> & ->)|(-> & ->)], (nth2 _ _ _ _ Hj) as [(-> & ->)|(-> & ->)]; destruct HA as [E|[]], HB as [E'|[]]; congruence || reflexivity.
  - intros k' a' i ep Hk _ _. exists k'. split; [reflexivity|]. apply some_lt in Hk. exact Hk.
Qed.
Lemma wf_sys L p1 p2 c : (0 < lN L)%nat -> coupled_count [sp_type p1; sp_type p2] = 1%nat -> separated same_numbers 1 [sp_att p1; sp_att p2] [sp_att p1; sp_att p2] ->
  part_sys same_numbers 1 2 (MStep.Sys net [] [] [c] [MStep.Pline 4 4 0 [4]] (Net [L] [p1; p2] 0 1 [])) (MStep.Sys net [] [] [c] [MStep.Pline 4 4 0 [4]] (Net [L] [p1; p2] 0 1 [])).
Proof.
  intros HN HC HS. unfold part_sys. cbv zeta. cbn [MStep.e_bod MStep.e_rod MStep.e_pts MStep.e_lin MStep.e_rest n_pts n_lines n_time]. repeat (split; [reflexivity|]). split; [split; [reflexivity|split; [apply found_self|intros X [<-|[]]; exact HN]]|]. split; [split; [reflexivity|apply found_self]|]. split; [split; [reflexivity|apply found_self]|]. split; [split; [symmetry; exact HC|intros k Hk; reflexivity]|]. split; [exact HS|reflexivity].
Qed.
Lemma wf1 : well_formed 1 2 inst1.
Proof.
  unfold well_formed, part_instance, inst1. cbn [MStep.m_scheme MStep.m_dtM MStep.m_dtOut MStep.m_fail MStep.m_rows MStep.m_ts tt tl nst err boost env rr rd]. repeat (split; [reflexivity|]). split; [apply wf_sys; [cbn; lia|reflexivity|apply sep2; [discriminate|now left|now right]]|]. split; [constructor; [|constructor]; repeat split; cbn; auto; apply found_self|]. split; [reflexivity|]. intros x x' H H'. injection H as <-. injection H' as <-. repeat split; cbn; auto; apply found_self.
Qed.
Lemma wf2 : well_formed 1 2 inst2.
Proof.
  unfold well_formed, part_instance, inst2. cbn [MStep.m_scheme MStep.m_dtM MStep.m_dtOut MStep.m_fail MStep.m_rows MStep.m_ts tt tl nst err boost env rr rd]. repeat (split; [reflexivity|]). split; [apply wf_sys; [cbn; lia|reflexivity|apply sep2; [discriminate|now right|now left]]|]. split; [constructor; [|constructor]; repeat split; cbn; auto; apply found_self|]. split; [reflexivity|]. intros x x' H H'. injection H as <-. injection H' as <-. repeat split; cbn; auto; apply found_self.
Qed.
Lemma settings12 : same_settings inst1 inst2. Proof. repeat split. Qed.
Ltac line_by E := match goal with |- context [line_calc sea1 ?d demo_env ?t ?L] => let F := fresh in let M := fresh in destruct (calc1 t L demo_env eq_refl eq_refl eq_refl eq_refl) as (F & M & E); rewrite E; clear E end.
Ltac fixed_pt := match goal with |- context [point_calc sea1 demo_env ?t ?o (SPoint PFixed ?a ?b ?c ?d ?e ?f ?g ?h ?i) ?D] => change (point_calc sea1 demo_env t o (SPoint PFixed a b c d e f g h i) D) with (Ok (SPoint PFixed a b c d e f g h i, D)) end.
Ltac coupled_pt := match goal with |- context [point_calc sea1 demo_env ?t ?o (SPoint PCoupled ?a ?b ?c ?d ?e ?f ?g ?h ?i) ?D] => let E := fresh in let F := fresh in assert (E : exists F, point_calc sea1 demo_env t o (SPoint PCoupled a b c d e f g h i) D = Ok (sp_force (SPoint PCoupled a b c d e f g h i) F, D)) by (unfold point_calc; cbn; eauto); destruct E as (F & E); rewrite E; clear E end.
Lemma one_substep X (stp : X -> R -> outcome X) n dt x : 0 < dt -> MStep.sub_loop R X MStep.Rltb Rminus 0 stp (S (S n)) dt x dt = stp x dt.
Proof.
  intro H. cbn [MStep.sub_loop]. unfold MStep.Rltb. destruct (Rlt_dec 0 dt) as [_|K]; [|lra]. destruct (Rlt_dec dt dt) as [K|_]; [lra|]. cbv zeta. destruct (stp x dt); cbn [obind]; try reflexivity. rewrite Rminus_diag_eq by reflexivity. destruct (Rlt_dec 0 0) as [K|_]; [lra|reflexivity].
Qed.
Lemma runs12 conv : exists m f, net_run sea1 (fun _ _ => -20) demo_env conv 2 (beside inst1 inst2) (map to_call (map (fun x => beside_call (fst x) (snd x)) (combine calls1 calls2))) = Ok (m, [f]) /\ length f = 6%nat.
Proof.
  unfold calls1, calls2. cbn [combine map fst snd beside_call to_call app]. unfold to_call. cbn [fst snd]. cbn [net_run]. unfold net_step, MStep.md_step. change (MStep.m_dtM _ _ _ (beside inst1 inst2)) with 1.
  match goal with |- context [obind (MStep.couple ?a ?b ?c ?d ?e) ?k] => set (kk := k) end. unfold MStep.couple. 
  assert (KK : forall e, kk e = obind (MStep.ts_step mst mdst net system_ops upd_net (cal_net sea1 (fun _ _ => -20) demo_env) lim_net (fun e0 _ => Ok (MStep.e_rest _ e0)) conv Euler (MStep.next _ _ _ (set_env _ _ _ (MStep.m_ts _ _ _ (beside inst1 inst2)) e)) 1) (fun s => obind (MStep.fail_loop net (fun _ _ => Throw ExNonImplemented) 0 (tt _ _ _ s) [] (env _ _ _ s)) (fun fe => Ok (MStep.Md _ _ _ (set_env _ _ _ s (snd fe)) Euler 1 1 (fst fe) (if MStep.row_due 1 (tt _ _ _ s) 1 then [] ++ [tt _ _ _ s] else []), MStep.get_forces net frc_net (snd fe))))).
  { intro e. unfold kk. rewrite (one_substep _ _ 0 1) by lra. reflexivity. }
  clearbody kk.
  cbv -[line_calc point_calc MStep.row_due Rplus Rminus Rmult Rdiv Ropp Rinv IZR Rle_dec Rlt_dec Req_EM_T sea1 demo_env].
  rewrite KK. clear KK.
  cbv -[line_calc point_calc MStep.row_due Rplus Rminus Rmult Rdiv Ropp Rinv IZR Rle_dec Rlt_dec Req_EM_T sea1 demo_env].
  line_by E. cbv beta iota. line_by E. cbv beta iota.
  fixed_pt. cbv beta iota. coupled_pt. cbv beta iota. coupled_pt. cbv beta iota. fixed_pt. cbv beta iota.
  cbv beta iota delta [fst snd sp_force]. cbv beta iota delta [sp_type sp_r sp_rd sp_M sp_V sp_F sp_CdA sp_Ca sp_att sp_Fnet].
  destruct (Rle_dec 1 0) as [H6|_]; [lra|]. cbv beta iota. do 2 eexists. split; reflexivity.
Qed.
