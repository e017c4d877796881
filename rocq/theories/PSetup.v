(** Proofs about the options of waves and currents. *)
From Coq Require Import List Arith ZArith Bool Reals Lra Lia.
From Verif Require Import MErr MVec MStateOps MNodes SNodes PNodes MSetup SSetup.
Import ListNotations.
Local Open Scope Z_scope.

Lemma plus_zero w : plus w (vzero, vzero) = w.
Proof. destruct w as [z [a b c] [d e f] p]. unfold plus, vadd, vzero. cbn. f_equal; f_equal; lra. Qed.
Lemma zero_plus c : plus wzero c = Wk 0 (fst c) (snd c) 0.
Proof. destruct c as [[a b c] [d e f]]. unfold plus, wzero, vadd, vzero. cbn. f_equal; f_equal; lra. Qed.
Section S.
Variables WG CG : Type.
Variable wfield : WG -> v3 -> R -> wkin.
Variable cfield : CG -> v3 -> R -> v3 * v3.
Variables fft elev : R -> outcome WG.
Variable comp : R -> outcome (list R * (v3 -> R -> wkin)).
Variables st dy g4 : R -> outcome CG.
Variable unify : Z -> WG -> CG -> outcome WG.
Variable ndebug : bool.
Notation sim := (simulation WG CG fft elev comp st dy g4 unify ndebug).
Notation setupm := (setup WG CG fft elev comp st dy g4 unify ndebug).
Notation wst0 := (Wst WG CG None None None).
Definition fl {A} (floor : option A) (f : A -> R) (d : R) : R := match floor with Some x => f x | None => d end.
(** case analysis on an integer *)
Ltac cases z := destruct (Z.eqb_spec z 0) as [E0|E0]; [|destruct (Z.eqb_spec z 1) as [E1|E1]; [|destruct (Z.eqb_spec z 2) as [E2|E2]; [|destruct (Z.eqb_spec z 3) as [E3|E3]; [|
   destruct (Z.eqb_spec z 4) as [E4|E4]; [|destruct (Z.eqb_spec z 5) as [E5|E5]; [|destruct (Z.eqb_spec z 6) as [E6|E6]; [|destruct (Z.eqb_spec z 7) as [E7|E7]]]]]]]].
Definition kept (x : water_files WG CG) (o : options) : wst WG CG :=
  match wave_grid WG CG x (o_wave o), the_current WG CG x (o_curr o), o_unify o with
  | Some g, Some c, true => Wst WG CG (Some (FromGrid WG (x_both WG CG x (o_curr o) g c))) None None
  | Some g, c, _ => Wst WG CG (Some (FromGrid WG g)) c None
  | None, c, _ => Wst WG CG (if o_wave o =? 7 then Some (FromSum WG (x_sum WG CG x)) else None) c None
  end.
Definition valid_one (wm cm : Z) : outcome fin :=
  if (wm =? 0) && (cm =? 0) then Ok Returned else if negb (compatible wm cm) then Throw ExInvalidValue
  else if ndebug || (existsb (Z.eqb wm) [0; 1; 2; 3; 7] && (existsb (Z.eqb cm) [0; 1; 2; 5] || existsb (Z.eqb wm) [2; 3; 7])) then Ok Returned else Ok Aborted.
Lemma one_setup d x o s : readable WG CG fft elev comp st dy g4 unify d o x -> ws_grid WG CG s = None ->
  exists s', setupm d o s = (s', valid_one (o_wave o) (o_curr o)) /\ ws_grid WG CG s' = None /\ (forall r, valid_one (o_wave o) (o_curr o) = Ok r -> r = Returned -> s' = kept x o).
Proof.
  intros (H2 & H3 & H7 & C1 & C2 & C5 & HU) HG. destruct o as [wm cm un]. unfold setup, valid_one, kept. cbn [o_wave o_curr o_unify] in *. rewrite HG.
  destruct (Z.eqb_spec wm 0) as [W0|W0]; destruct (Z.eqb_spec cm 0) as [K0|K0]; subst; cbn [andb];
    try (eexists; split; [reflexivity|]; split; [reflexivity|]; intros; reflexivity).
  all: destruct (compatible _ _) eqn:EC; cbn [negb]; [|eexists; split; [reflexivity|]; split; [reflexivity|]; discriminate].
  - (* no waves *)
    unfold setup_waves, setup_currents, add_current, wave_grid, the_current. cbn [Z.eqb obind ws_grid ws_wave ws_curr].
    destruct (Z.eqb_spec cm 1) as [->|K1]; [rewrite (C1 eq_refl)|destruct (Z.eqb_spec cm 2) as [->|K2]; [rewrite (C2 eq_refl)|destruct (Z.eqb_spec cm 5) as [->|K5]; [rewrite (C5 eq_refl)|]]];
      cbn [obind ws_grid ws_wave ws_curr Z.eqb]; eexists; (split; [f_equal|]); cbn [ws_grid]; try (split; [reflexivity|intros; reflexivity]); try (cbn; now rewrite orb_true_r).
    + unfold asserts. cbn [some ws_grid ws_wave ws_curr negb andb orb xorb Z.eqb existsb]. apply Z.eqb_neq in K0, K1, K2, K5. rewrite K0, K1, K2, K5. reflexivity.
  - (* no currents *)
    unfold setup_waves, setup_currents, wave_grid, the_current. cbn [Z.eqb].
    destruct (Z.eqb_spec wm 7) as [->|W7]; [destruct (H7 eq_refl) as (ws & H7'); rewrite H7'; cbn [obind fst snd]; destruct (Req_EM_T 0 0) as [_|Hx]; [|lra]|destruct (Z.eqb_spec wm 2) as [->|W2]; [rewrite (H2 eq_refl)|destruct (Z.eqb_spec wm 3) as [->|W3]; [rewrite (H3 eq_refl)|]]];
      cbn [obind ws_grid ws_wave ws_curr Z.eqb]; eexists; (split; [f_equal|]); cbn [ws_grid]; try (split; [reflexivity|intros; reflexivity]); try (cbn; now rewrite orb_true_r).
    + unfold asserts. cbn [some ws_grid ws_wave ws_curr negb andb orb xorb Z.eqb existsb]. apply Z.eqb_neq in W0, W7, W2, W3. rewrite W0, W2, W3, W7. destruct (wm =? 1); reflexivity.
  - (* both *)
    unfold setup_waves, setup_currents, add_current, wave_grid, the_current.
    destruct (Z.eqb_spec wm 7) as [->|W7]; [destruct (H7 eq_refl) as (ws & H7'); rewrite H7'; cbn [obind fst snd]; destruct (Req_EM_T 0 0) as [_|Hx]; [|lra]|destruct (Z.eqb_spec wm 2) as [->|W2]; [rewrite (H2 eq_refl)|destruct (Z.eqb_spec wm 3) as [->|W3]; [rewrite (H3 eq_refl)|]]];
      cbn [obind ws_grid ws_wave ws_curr Z.eqb];
      (destruct (Z.eqb_spec cm 1) as [->|K1]; [rewrite (C1 eq_refl)|destruct (Z.eqb_spec cm 2) as [->|K2]; [rewrite (C2 eq_refl)|destruct (Z.eqb_spec cm 5) as [->|K5]; [rewrite (C5 eq_refl)|]]]);
      cbn [obind ws_grid ws_wave ws_curr Z.eqb]; try (destruct un; try rewrite (HU _ _ eq_refl eq_refl eq_refl); cbn [obind ws_grid ws_wave ws_curr Z.eqb]);
      eexists; (split; [f_equal|]); cbn [ws_grid]; try (split; [reflexivity|intros; reflexivity]); try (cbn; now rewrite orb_true_r);
      unfold asserts; cbn [some ws_grid ws_wave ws_curr negb andb orb xorb Z.eqb existsb];
      repeat match goal with H : ?a <> ?b |- _ => apply Z.eqb_neq in H end;
      repeat match goal with H : (_ =? _) = _ |- _ => rewrite H end; try reflexivity;
      repeat match goal with |- context [?a =? 1] => destruct (a =? 1) end; destruct ndebug; reflexivity.
Qed.
Lemma verdict_two o : verdict ndebug o = match valid_one 0 (o_curr o) with Ok Returned => valid_one (o_wave o) (o_curr o) | r => r end.
Proof.
  destruct o as [wm cm un]. unfold verdict, documented, refused, valid_one, compatible. cbn [o_wave o_curr existsb].
  assert (B : (cm =? 0) || (cm =? 1) || (cm =? 2) || (cm =? 3) || (cm =? 4) || (cm =? 5) = negb ((cm <? 0) || (5 <? cm))).
  { destruct (Z.ltb_spec cm 0); destruct (Z.ltb_spec 5 cm); cbn [negb orb]; repeat match goal with |- context [?a =? ?b] => destruct (Z.eqb_spec a b) end; cbn; try reflexivity; lia. }
  destruct (Z.ltb_spec cm 0) as [L|L]; destruct (Z.ltb_spec 5 cm) as [U|U]; cbn [negb orb andb] in *; try lia.
  - repeat (rewrite (proj2 (Z.eqb_neq cm _)) by lia). cbn. now rewrite !andb_false_r.
  - repeat (rewrite (proj2 (Z.eqb_neq cm _)) by lia). cbn. now rewrite !andb_false_r.
  - assert (H : cm = 0 \/ cm = 1 \/ cm = 2 \/ cm = 3 \/ cm = 4 \/ cm = 5) by lia.
    destruct H as [->|[->|[->|[->|[->| ->]]]]]; cbn [Z.eqb Pos.eqb orb andb negb];
    repeat match goal with |- context [wm =? ?b] => let E := fresh in destruct (Z.eqb_spec wm b) as [E|E]; [try (exfalso; lia)|try (exfalso; lia)]; cbn [orb andb negb] end; destruct ndebug; try reflexivity; subst; try (exfalso; lia); reflexivity.
Qed.
Lemma simulated floor depth o x : readable WG CG fft elev comp st dy g4 unify (fl floor Ropp depth) o x ->
  exists d s, sim floor depth o = (d, s, verdict ndebug o) /\ (verdict ndebug o = Ok Returned -> d = depth /\ s = kept x o).
Proof.
  intro HR. rewrite verdict_two. unfold simulation, reading, setup_in_env. fold (fl floor Ropp depth).
  assert (HR0 : readable WG CG fft elev comp st dy g4 unify (fl floor Ropp depth) (Options 0 (o_curr o) (o_unify o)) x).
  { destruct HR as (H2 & H3 & H7 & C1 & C2 & C5 & HU). repeat split; try discriminate; assumption. }
  destruct (one_setup _ x (Options 0 (o_curr o) (o_unify o)) wst0 HR0 eq_refl) as (s1 & E1 & G1 & _). cbn [o_wave o_curr] in E1. rewrite E1. fold (fl floor Ropp depth) in *.
  destruct (valid_one 0 (o_curr o)) as [[]|e| |]; cbn beta iota; try (eexists; eexists; split; [reflexivity|discriminate]).
  destruct (one_setup _ x o s1 HR G1) as (s2 & E2 & _ & K). change (match floor with Some f => (- f)%R | None => depth end) with (fl floor Ropp depth). rewrite E2.
  destruct (valid_one (o_wave o) (o_curr o)) as [r|e| |]; try (eexists; eexists; split; [reflexivity|discriminate]).
  eexists; eexists. split; [reflexivity|]. intro Hr. injection Hr as ->. split; [reflexivity|]. now apply (K Returned).
Qed.
(** the flow kept is the motion asked for *)
Lemma kept_motion x o p t : kin_at WG CG wfield cfield (kept x o) p t = motion WG CG wfield cfield x o p t.
Proof.
  destruct o as [wm cm un]. unfold kept, motion, wave_flow, current_flow. cbn [o_wave o_curr o_unify].
  assert (G : forall w c, (w = None -> c = None -> False) -> kin_at WG CG wfield cfield (Wst WG CG w c None) p t =
    plus (match w with Some w => flow WG wfield w p t | None => wzero end) (match c with Some c => cfield c p t | None => (vzero, vzero) end)).
  { intros [w|] [c|] H; try reflexivity. exfalso; auto. }
  destruct (wave_grid WG CG x wm) as [g|]; destruct (the_current WG CG x cm) as [c|] eqn:EC; try (destruct un); try (destruct (wm =? 7)); cbn [ws_wave ws_curr];
    try (rewrite G by discriminate; cbn [flow]; rewrite ?plus_zero; reflexivity). 
  all: unfold kin_at; cbn [ws_wave ws_curr]; now rewrite plus_zero.
Qed.
Lemma kept_wave x o : existsb (Z.eqb (o_wave o)) [2; 3; 7] = false -> ws_wave WG CG (kept x o) = None.
Proof.
  destruct o as [wm cm un]. unfold kept, wave_grid. cbn [o_wave o_curr o_unify existsb]. intro H.
  destruct (wm =? 2); [discriminate|]. destruct (wm =? 3); [discriminate|]. destruct (wm =? 7); [discriminate|]. now destruct (the_current WG CG x cm).
Qed.
Lemma kept_wave' x o : ws_wave WG CG (kept x o) = None -> existsb (Z.eqb (o_wave o)) [2; 3; 7] = false.
Proof.
  destruct o as [wm cm un]. unfold kept, wave_grid. cbn [o_wave o_curr o_unify existsb]. intro H.
  destruct (wm =? 2); [destruct (the_current WG CG x cm), un; discriminate|]. destruct (wm =? 3); [destruct (the_current WG CG x cm), un; discriminate|]. destruct (wm =? 7); [destruct (the_current WG CG x cm); discriminate|reflexivity].
Qed.
Lemma kept_curr x o : existsb (Z.eqb (o_wave o)) [2; 3; 7] = false -> ws_curr WG CG (kept x o) = the_current WG CG x (o_curr o).
Proof.
  destruct o as [wm cm un]. unfold kept, wave_grid. cbn [o_wave o_curr o_unify existsb]. intro H.
  destruct (wm =? 2); [discriminate|]. destruct (wm =? 3); [discriminate|]. now destruct (the_current WG CG x cm).
Qed.
Lemma curr_none x cm : the_current WG CG x cm = None -> existsb (Z.eqb cm) [1; 2; 5] = false.
Proof. unfold the_current. cbn. destruct (cm =? 1); [discriminate|]. destruct (cm =? 2); [discriminate|]. destruct (cm =? 5); [discriminate|reflexivity]. Qed.
(** nodes, not external *)
Lemma nodes_motion x o nd tab wtb tm : (o_wave o =? 1) = false -> fits nd tab -> calm o tab ->
  exists w', update_waves nd tm (as_waves WG CG wfield cfield o (kept x o) tab wtb) = Ok w' /\ fits nd (nodeKin w') /\
  forall a p, position nd a = Some p -> water (nodeKin w') a = Some (motion WG CG wfield cfield x o p tm).
Proof.
  intros He F HC. unfold update_waves, as_waves. cbn [external currK waveK nodeKin]. rewrite He.
  assert (KM := fun p => kept_motion x o p tm). unfold kin_at in KM.
  destruct (ws_wave WG CG (kept x o)) as [w|] eqn:EW; destruct (ws_curr WG CG (kept x o)) as [c|] eqn:EK; cbn [option_map].
  - destruct (unit_nodes (node_wave (flow WG wfield w) (cfield c) tm) (fun p _ => motion WG CG wfield cfield x o p tm) nd tab) as (t' & -> & F' & I).
    { intros p v u. unfold node_wave. now rewrite <- KM. }
    { exact F. }
    eexists. split; [reflexivity|]. split; [exact F'|]. intros a p Hp. destruct (fits_water _ _ _ _ F Hp) as (v & Hv). exact (I a p v Hp Hv).
  - destruct (unit_nodes (node_wave_only (flow WG wfield w) tm) (fun p _ => motion WG CG wfield cfield x o p tm) nd tab) as (t' & -> & F' & I).
    { intros p v u. unfold node_wave_only. rewrite <- KM. cbn [fst snd]. f_equal. f_equal. exact (eq_sym (plus_zero _)). }
    { exact F. }
    eexists. split; [reflexivity|]. split; [exact F'|]. intros a p Hp. destruct (fits_water _ _ _ _ F Hp) as (v & Hv). exact (I a p v Hp Hv).
  - destruct (unit_nodes (node_curr_only (cfield c) tm) (fun p v => Wk (w_zeta v) (fst (cfield c p tm)) (snd (cfield c p tm)) (w_pdyn v)) nd tab) as (t' & -> & F' & I); [reflexivity|exact F|].
    eexists. split; [reflexivity|]. split; [exact F'|]. intros a p Hp. destruct (fits_water _ _ _ _ F Hp) as (v & Hv). specialize (I a p v Hp Hv). cbn [nodeKin set_nodeKin]. rewrite I. f_equal. rewrite <- KM.
    destruct (HC a v Hv) as [Hz _]. destruct (Hz (kept_wave' x o EW)) as [-> ->]. symmetry. exact (zero_plus (cfield c p tm)).
  - eexists. split; [reflexivity|]. split; [exact F|]. intros a p Hp. destruct (fits_water _ _ _ _ F Hp) as (v & Hv). cbn [nodeKin]. rewrite Hv. f_equal. rewrite <- KM.
    destruct (HC a v Hv) as [Hz Hu]. pose proof (kept_wave' x o EW) as E2. destruct (Hz E2) as [Z1 Z2]. rewrite (kept_curr x o E2) in EK. destruct (Hu E2 (curr_none x _ EK)) as [U1 U2]. destruct v as [z u ud p0]. cbn in *. subst. reflexivity.
Qed.
Lemma motion_calm x o nd tab tm : existsb (Z.eqb (o_wave o)) [2; 3; 7] = false -> (forall a w, water tab a = Some w -> exists p, position nd a = Some p /\ w = motion WG CG wfield cfield x o p tm) -> calm o tab.
Proof.
  intros Hn H a w Ha. destruct (H a w Ha) as (p & _ & ->). unfold motion, wave_flow, current_flow, wave_grid, the_current. cbn [existsb] in *.
  destruct (o_wave o =? 2); [discriminate|]. destruct (o_wave o =? 3); [discriminate|]. destruct (o_wave o =? 7); [discriminate|]. cbn [orb].
  split; [split; reflexivity|]. intros _ Hc. destruct (o_curr o =? 1); [discriminate|]. destruct (o_curr o =? 2); [discriminate|]. destruct (o_curr o =? 5); [discriminate|]. rewrite plus_zero. split; reflexivity.
Qed.
(** nodes, external *)
Lemma nodes_external x o nd tab wtb tm : o_wave o = 1 -> fits nd tab -> fits nd wtb ->
  match the_current WG CG x (o_curr o) with
  | None => update_waves nd tm (as_waves WG CG wfield cfield o (kept x o) tab wtb) = Ok (as_waves WG CG wfield cfield o (kept x o) tab wtb)
  | Some c => exists w', update_waves nd tm (as_waves WG CG wfield cfield o (kept x o) tab wtb) = Ok w' /\
      forall a p v, position nd a = Some p -> water wtb a = Some v -> exists y, water (nodeKin w') a = Some y /\ w_u y = vadd (w_u v) (fst (cfield c p tm)) /\ w_ud y = vadd (w_ud v) (snd (cfield c p tm))
  end.
Proof.
  intros He F1 F2. assert (E2 : existsb (Z.eqb (o_wave o)) [2; 3; 7] = false) by now rewrite He. pose proof (kept_curr x o E2) as EK. pose proof (kept_wave x o E2) as EW.
  destruct (the_current WG CG x (o_curr o)) as [c|] eqn:EC.
  - destruct (update_external nd tm (as_waves WG CG wfield cfield o (kept x o) tab wtb) (cfield c)) as (w' & E & H); unfold as_waves; cbn [external currK waveKin nodeKin]; [now rewrite He|now rewrite EK|exact F2|exact F1|].
    exists w'. split; [exact E|]. destruct H as (_ & _ & H). intros a p v Hp Hv. destruct (fits_water _ _ _ _ F1 Hp) as (n & Hn). eexists. split; [exact (H a p v n Hp Hv Hn)|]. split; reflexivity.
  - unfold update_waves, as_waves. cbn [external currK waveK]. rewrite EK, EW, He. reflexivity.
Qed.
(** success needs the files *)
Lemma setup_needs d o s s' : setupm d o s = (s', Ok Returned) ->
  (o_wave o = 2 -> exists g, fft d = Ok g) /\ (o_wave o = 3 -> exists g, elev d = Ok g) /\ (o_wave o = 7 -> exists ws f, comp d = Ok (0%R :: ws, f)) /\
  (o_curr o = 1 -> exists c, st d = Ok c) /\ (o_curr o = 2 -> exists c, dy d = Ok c) /\ (o_curr o = 5 -> exists c, g4 d = Ok c).
Proof.
  destruct o as [wm cm un]. unfold setup. cbn [o_wave o_curr o_unify].
  destruct ((wm =? 0) && (cm =? 0)) eqn:E0. { apply andb_true_iff in E0 as [E1 E2]. apply Z.eqb_eq in E1, E2. subst. intros _. repeat split; discriminate. }
  destruct (compatible wm cm); cbn [negb]; [|intro H; discriminate H].
  destruct (setup_waves WG CG fft elev comp d wm (Wst WG CG None None (ws_grid WG CG s))) as [s1|e| |] eqn:EW; cbn [obind]; intro H; try discriminate H.
  destruct (setup_currents WG CG st dy g4 unify d cm un s1) as [s2|e| |] eqn:EK; cbn [obind] in H; try discriminate H. clear H.
  split; [|split; [|split; [|split; [|split]]]]; intros ->; cbn in EW, EK.
  - destruct (fft d); try discriminate EW. eauto.
  - destruct (elev d); try discriminate EW. eauto.
  - destruct (comp d) as [[[|w ws] f]|e| |]; try discriminate EW. cbn in EW. destruct (Req_EM_T w 0) as [->|]; [eauto|discriminate EW].
  - unfold add_current in EK. destruct (st d); try discriminate EK. eauto.
  - unfold add_current in EK. destruct (dy d); try discriminate EK. eauto.
  - unfold add_current in EK. destruct (g4 d); try discriminate EK. eauto.
Qed.
Lemma simulation_needs floor depth o d s : sim floor depth o = (d, s, Ok Returned) -> let dd := fl floor Ropp depth in
  (o_wave o = 2 -> exists g, fft dd = Ok g) /\ (o_wave o = 3 -> exists g, elev dd = Ok g) /\ (o_wave o = 7 -> exists ws f, comp dd = Ok (0%R :: ws, f)) /\
  (o_curr o = 1 -> exists c, st dd = Ok c) /\ (o_curr o = 2 -> exists c, dy dd = Ok c) /\ (o_curr o = 5 -> exists c, g4 dd = Ok c).
Proof.
  unfold simulation, reading, setup_in_env. fold (fl floor Ropp depth). destruct (setupm (fl floor Ropp depth) (Options 0 (o_curr o) (o_unify o)) wst0) as [s1 r1]. destruct r1 as [[]|e| |]; cbn beta iota; intro H; try discriminate H.
  change (match floor with Some f => (- f)%R | None => depth end) with (fl floor Ropp depth) in H. destruct (setupm (fl floor Ropp depth) o s1) as [s2 r2] eqn:E2. assert (r2 = Ok Returned) as -> by (destruct r2; try discriminate H; congruence). exact (setup_needs _ _ _ _ E2).
Qed.
End S.
