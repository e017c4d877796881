(** Simulations of systems of lines and points commute with isometries of the horizontal plane. *)
From Coq Require Import Reals List Arith ZArith Bool Lra Lia.
From Verif Require Import MErr MVec MStateOps MMat MInterp MLine MRod MBody MScheme MSys SMat SLine SFrame PMat PLine PFrame PFrameB PFrameF PFrameG PSymm PDemo.
From Verif Require MStep MNodes.
Import ListNotations.
Open Scope R_scope.

Lemma sub_loop_rel {T X X'} (Q : X -> X' -> Prop) lt sub (zero : T) stp stp' : (forall x x' d, Q x x' -> orel Q (stp x d) (stp' x' d)) ->
  forall fuel dtM x x' target, Q x x' -> orel Q (MStep.sub_loop T X lt sub zero stp fuel dtM x target) (MStep.sub_loop T X' lt sub zero stp' fuel dtM x' target).
Proof.
  intro H. induction fuel as [|n IH]; intros dtM x x' target HX; cbn [MStep.sub_loop]; [exact I|]. destruct (lt zero target); [|exact HX]. cbv zeta. eapply orel_bind; [apply H, HX|]. intros. now apply IH.
Qed.
Section H.
Variable g : plane.
Hypothesis HG : isometry g.
Notation T := (turn g). Notation P := (place g). Notation MC := (moved_cpt g).
Variables (sea sea' : R -> v3 -> MNodes.wkin) (depth depth' : R -> R -> R) (ec : envc).
Hypothesis HSea : moved_sea g sea sea'.
Hypothesis HDep : moved_depth g depth depth'.
Notation sys := (MStep.sys net).
Notation msk := (fun (e : sys) (_ : R) => Ok (MStep.e_rest _ e)).
Notation UPD := (MStep.upd_sys mst net upd_net).
Notation CAL := (MStep.cal_sys mdst net (cal_net sea depth ec)).
Notation CAL' := (MStep.cal_sys mdst net (cal_net sea' depth' ec)).
Notation MSK := (MStep.msk_sys net msk).
Lemma upd_moved e e' t l x x' : moved_sys g e e' -> moved_state g x x' -> orel (moved_sys g) (UPD e t l x) (UPD e' t l x').
Proof.
  intros HE HX. unfold MStep.upd_sys. destruct HE as (B1 & B2 & ->). cbv zeta. cbn [MStep.e_bod MStep.e_rod MStep.e_pts MStep.e_lin MStep.e_rest]. rewrite B1, B2. cbn [map].
  set (e1 := MStep.Sys net [] [] (map (MStep.fairlead_p l) (MStep.e_pts _ e)) (map (MStep.update_length l) (MStep.e_lin _ e)) (MStep.e_rest _ e)).
  assert (M1 : moved_sys g e1 (MStep.Sys net [] [] (map (MStep.fairlead_p l) (map MC (MStep.e_pts _ e))) (map (MStep.update_length l) (MStep.e_lin _ e)) (moved_net g (MStep.e_rest _ e)))).
  { split; [reflexivity|]. split; [reflexivity|]. cbn. f_equal. rewrite !map_map. apply map_ext. intro c. unfold MStep.fairlead_p, moved_cpt. cbn. f_equal. rewrite <- (p_add g), <- (t_scale g). reflexivity. }
  rewrite (upd_net_moved g _ _ t l x x' M1 HX). destruct (upd_net e1 t l x) as [r| | |]; cbn; auto. destruct M1 as (_ & _ & M1). unfold MStep.set_rest. cbn. split; [reflexivity|]. split; [reflexivity|]. cbn. f_equal. injection M1 as M1. exact M1.
Qed.
Lemma cal_moved e e' d d' : moved_sys g e e' -> moved_deriv g d d' -> orel (fun p p' => moved_sys g (fst p) (fst p') /\ moved_deriv g (snd p) (snd p')) (CAL e d) (CAL' e' d').
Proof.
  intros HE HD. unfold MStep.cal_sys. eapply orel_bind; [apply (cal_net_moved g HG sea sea' depth depth' ec HSea HDep); eassumption|]. cbv beta. intros p p' (H1 & H2). destruct HE as (B1 & B2 & ->). cbn. split; [|exact H2]. unfold MStep.set_rest. cbn. split; [exact B1|]. split; [exact B2|]. cbn. now rewrite H1.
Qed.
Lemma lim_moved e e' a b : moved_sys g e e' -> lim_net e a b = lim_net e' a b.
Proof. intros (B1 & B2 & ->). reflexivity. Qed.
Variable conv : mdst -> mdst -> bool.
Definition blind : Prop := forall a a' b b', moved_deriv g a a' -> moved_deriv g b b' -> conv a b = conv a' b'.
Notation SR := (srel mst mdst sys (moved_state g) (moved_deriv g) (moved_sys g)).
Notation STEP := (MStep.ts_step mst mdst net system_ops upd_net (cal_net sea depth ec) lim_net msk conv).
Notation STEP' := (MStep.ts_step mst mdst net system_ops upd_net (cal_net sea' depth' ec) lim_net msk conv).
Definition places_ok (c : scheme) (s s' : tsch mst mdst sys) : Prop := SR (places mst mdst sys c s) s s'.
Lemma ts_step_moved c s s' dt : unmasked c -> (match c with AndersonEuler _ _ => blind | _ => True end) -> places_ok c s s' -> orel (places_ok c) (STEP c s dt) (STEP' c s' dt).
Proof.
  intros HU HB H. unfold MStep.ts_step.
  pose proof (step_rel mst mdst sys system_ops UPD UPD CAL CAL' lim_net lim_net MSK MSK conv (moved_state g) (moved_incr g) (moved_deriv g) (moved_sys g)
    (Hadd g) (Hsub g) (Hmix g) (Hscale g) (Hdadd g) (Hdsub g) (Hdmix g) (Hnm g) (Hwi g) (Hst g HG) upd_moved cal_moved lim_moved c s s' dt HU HB H) as R.
  eapply orel_weak; [|exact R]. intros x x' HX. unfold places_ok. eapply srel_weak; [|exact HX]. destruct c; cbn [places]; try lia. destruct (Req_EM_T _ _); lia.
Qed.
Lemma take_pts_moved cs k ps vs : orel (fun p p' => fst p' = map MC (fst p) /\ snd p' = snd p)
  (MStep.take_pts cs (flat_map MStep.lst3 ps) (flat_map MStep.lst3 vs) (3 * k)) (MStep.take_pts (map MC cs) (flat_map MStep.lst3 (map P ps)) (flat_map MStep.lst3 (map T vs)) (3 * k)).
Proof.
  revert k. induction cs as [|c cs IH]; intro k; cbn [MStep.take_pts map]; [split; reflexivity|]. rewrite !rd3_flat, !nth_error_map. destruct (nth_error ps k) as [p|]; cbn [option_map obind orel]; [|exact I]. destruct (nth_error vs k) as [v|]; cbn [option_map obind orel]; [|exact I].
  replace (3 * k + 3)%nat with (3 * S k)%nat by lia. eapply orel_bind; [apply IH|]. cbv beta. intros r r' (H1 & H2). cbn. split; [|exact H2]. now rewrite H1.
Qed.
Lemma couple_moved e e' ps vs dt : moved_sys g e e' -> orel (moved_sys g) (MStep.couple net e (flat_map MStep.lst3 ps) (flat_map MStep.lst3 vs) dt) (MStep.couple net e' (flat_map MStep.lst3 (map P ps)) (flat_map MStep.lst3 (map T vs)) dt).
Proof.
  intros (B1 & B2 & ->). unfold MStep.couple. cbv zeta. cbn [MStep.e_bod MStep.e_rod MStep.e_pts MStep.e_lin MStep.e_rest]. rewrite B1, B2. cbn [MStep.take_objs obind snd fst]. eapply orel_bind; [exact (take_pts_moved _ 0 ps vs)|]. cbv beta. intros p p' (H1 & _). cbn. split; [reflexivity|]. split; [reflexivity|]. cbn. now rewrite H1.
Qed.
Definition forces_rel (f f' : list R) : Prop := exists fs, f = flat_map MStep.lst3 fs /\ f' = flat_map MStep.lst3 (map T fs).
Lemma forces_moved e e' : moved_sys g e e' -> forces_rel (MStep.get_forces net frc_net e) (MStep.get_forces net frc_net e').
Proof.
  intros (B1 & B2 & ->). exists (map sp_Fnet (filter is_coupled (n_pts (MStep.e_rest _ e)))). unfold MStep.get_forces. cbn [frc_net MStep.e_bod MStep.e_rod MStep.e_rest]. rewrite B1, B2. unfold MStep.put_objs. cbn [combine flat_map app]. split; [reflexivity|]. unfold MStep.put_pts. f_equal. cbn [n_pts moved_net].
  induction (n_pts (MStep.e_rest _ e)) as [|p l IH]; cbn; [reflexivity|]. change (is_coupled (moved_spoint g p)) with (is_coupled p). destruct (is_coupled p); cbn; now rewrite IH.
Qed.
Lemma fail_moved i t fs e e' : moved_sys g e e' -> orel (fun p p' => fst p' = fst p /\ moved_sys g (snd p) (snd p')) (MStep.fail_loop net (fun _ _ => Throw ExNonImplemented) i t fs e) (MStep.fail_loop net (fun _ _ => Throw ExNonImplemented) i t fs e').
Proof.
  intro HE. revert i. induction fs as [|f fs IH]; intro i; cbn [MStep.fail_loop]; [split; [reflexivity|exact HE]|]. destruct (orb _ _); [|reflexivity]. eapply orel_bind; [apply IH|]. cbv beta. intros r r' (H1 & H2). cbn. split; [now rewrite H1|exact H2].
Qed.
Lemma inst_iff m m' : moved_instance g m m' <-> MStep.m_scheme _ _ _ m' = MStep.m_scheme _ _ _ m /\ MStep.m_dtM _ _ _ m' = MStep.m_dtM _ _ _ m /\ MStep.m_dtOut _ _ _ m' = MStep.m_dtOut _ _ _ m /\
  MStep.m_fail _ _ _ m' = MStep.m_fail _ _ _ m /\ MStep.m_rows _ _ _ m' = MStep.m_rows _ _ _ m /\ places_ok (MStep.m_scheme _ _ _ m) (MStep.m_ts _ _ _ m) (MStep.m_ts _ _ _ m').
Proof.
  unfold moved_instance, places_ok, srel. change (places mst mdst sys (MStep.m_scheme _ _ _ m) (MStep.m_ts _ _ _ m)) with (current m). cbv zeta.
  split; intros (A & B & C & D & E & F & G & H & I1 & J & K & L & M & N); repeat (split; [assumption || (symmetry; assumption)|]).
  - intros i Hi. unfold vget. destruct (nth_error (rr _ _ _ (MStep.m_ts _ _ _ m)) i) as [x|] eqn:E1, (nth_error (rr _ _ _ (MStep.m_ts _ _ _ m')) i) as [x'|] eqn:E2; cbn; auto.
    + now apply (N i).
    + assert (i < length (rr _ _ _ (MStep.m_ts _ _ _ m)))%nat by (apply nth_error_Some; congruence). apply nth_error_None in E2. lia.
    + assert (i < length (rr _ _ _ (MStep.m_ts _ _ _ m')))%nat by (apply nth_error_Some; congruence). apply nth_error_None in E1. lia.
  - intros i x x' Hi E1 E2. specialize (N i Hi). unfold vget in N. rewrite E1, E2 in N. exact N.
Qed.
Lemma step_moved fuel m m' ps vs dt : unmasked (MStep.m_scheme _ _ _ m) -> (match MStep.m_scheme _ _ _ m with AndersonEuler _ _ => blind | _ => True end) -> moved_instance g m m' ->
  orel (fun r r' => moved_instance g (fst r) (fst r') /\ MStep.m_scheme _ _ _ (fst r) = MStep.m_scheme _ _ _ m /\ forces_rel (snd r) (snd r'))
    (net_step sea depth ec conv fuel m (flat_map MStep.lst3 ps) (flat_map MStep.lst3 vs) dt) (net_step sea' depth' ec conv fuel m' (flat_map MStep.lst3 (map P ps)) (flat_map MStep.lst3 (map T vs)) dt).
Proof.
  intros HU HB HM. pose proof (proj1 (inst_iff m m') HM) as (A & B & C & D & E & F). unfold net_step, MStep.md_step. destruct (Rle_dec dt 0).
  - cbn. split; [exact HM|]. split; [reflexivity|]. apply forces_moved. apply F.
  - eapply orel_bind; [apply couple_moved; apply F|]. intros e e' He. rewrite A, B, C, D, E. eapply orel_bind.
    + apply (sub_loop_rel (places_ok (MStep.m_scheme _ _ _ m))).
      * intros x x' d HX. now apply ts_step_moved.
      * unfold places_ok, MStep.next. destruct F as (F1 & F2 & F3 & F4 & F5 & F6 & F7 & F8 & F9).
        destruct (MStep.m_ts _ _ _ m), (MStep.m_ts _ _ _ m'); cbn in *. unfold places in F9 |- *. unfold srel. cbn. assert (HE' : moved_sys g (MStep.Sys net (MStep.e_bod net e) (MStep.e_rod net e) (MStep.e_pts net e) (map (MStep.update_length 0) (MStep.e_lin net e)) (MStep.e_rest net e)) (MStep.Sys net (MStep.e_bod net e') (MStep.e_rod net e') (MStep.e_pts net e') (map (MStep.update_length 0) (MStep.e_lin net e')) (MStep.e_rest net e'))) by (destruct He as (E1 & E2 & ->); cbn; split; [exact E1|split; [exact E2|reflexivity]]). repeat (split; [assumption || reflexivity|]). exact F9.
    + cbv beta. intros s s' HS. assert (ET : tt _ _ _ s' = tt _ _ _ s) by (symmetry; apply HS). rewrite ET. eapply orel_bind; [apply fail_moved; apply HS|]. cbv beta. intros fe fe' (H1 & H2). cbn. split; [|split; [reflexivity|now apply forces_moved]].
      apply inst_iff. cbn. rewrite H1. repeat (split; [reflexivity|]). unfold places_ok in *. destruct HS as (F1 & F2 & F3 & F4 & F5 & F6 & F7 & F8 & F9). destruct s, s'. cbn in *. unfold places in *. unfold srel. cbn in *. repeat (split; [assumption|]). exact F9.
Qed.
Lemma run_moved fuel calls : forall m m', unmasked (MStep.m_scheme _ _ _ m) -> (match MStep.m_scheme _ _ _ m with AndersonEuler _ _ => blind | _ => True end) -> moved_instance g m m' ->
  orel (fun r r' => moved_instance g (fst r) (fst r') /\ Forall2 forces_rel (snd r) (snd r'))
    (net_run sea depth ec conv fuel m (map (fun c : list v3 * list v3 * R => coupling (fst (fst c)) (snd (fst c)) (snd c)) calls))
    (net_run sea' depth' ec conv fuel m' (map (fun c => coupling (map P (fst (fst c))) (map T (snd (fst c))) (snd c)) calls)).
Proof.
  induction calls as [|[[ps vs] dt] calls IH]; intros m m' HU HB HM; cbn [net_run map]; [split; [exact HM|constructor]|]. cbn [fst snd coupling]. eapply orel_bind; [now apply step_moved|]. cbv beta. intros r r' (H1 & H2 & H3).
  eapply orel_bind; [apply IH; [now rewrite H2|now rewrite H2|exact H1]|]. cbv beta. intros q q' (Q1 & Q2). cbn. split; [exact Q1|]. now constructor.
Qed.
End H.
