(** C110: at every moment a caller can observe, everything attached is where its holder is and moves with it *)
From Coq Require Import Reals List Lra Lia Arith ZArith.
From Verif Require Import MErr MVec MStateOps MMat MInterp MLine MRod MBody MEnd MRodS MScheme MFull SMat SRod SRodS PMat PRate PInterp PEnd SEnd SFull PFull PFullB PFullC PFullD PFullE.
Import ListNotations.
Open Scope R_scope.
Notation scheme_state := (tsch mst mdst full).
Notation objects := (env mst mdst full).

(** One Update, from any moment of a run (also in the middle of a step, when not everything is in place): afterwards everything is in place,
    bodies, rods, points and lines are where the vessel leads them and where the state has them, and nothing was attached or detached *)
Theorem C110_update : forall opposed K F t tl x F', well_formed F -> fixed_in_place F -> upd_full opposed K F t tl x = Ok F' ->
  in_place F' /\ follows F' tl x /\ shape F F' /\ vsame F F'.
Proof.
  intros op K F t tl x F' W FI H. destruct (upd_base op K F t tl x F' (fixed_base F W FI) H) as ((W' & _) & (S & V) & E & FL).
  split; [exact (placed_of F' E W')|]. split; [exact FL|now split].
Qed.
Print Assumptions C110_update.

(** Such an update does not fail if the state has an entry for every object and every rod has a segment (a rod without segments
    can divide by zero, see C100) *)
Theorem C110_total : forall opposed K F t tl x, well_formed F -> (forall i, (i < f_nr F)%nat -> (0 < k_n (f_rod F i))%nat) ->
  (forall i, (i < f_nb F)%nat -> exists s, nth_error (s_bodies x) i = Some s) -> (forall i, (i < f_nr F)%nat -> exists s, nth_error (s_rods x) i = Some s) ->
  (forall i, (i < f_np F)%nat -> exists s, nth_error (s_points x) i = Some s) ->
  (forall i, (i < f_nl F)%nat -> exists s, nth_error (s_lines x) i = Some s /\ length (pos s) = (lN (f_line F i) - 1)%nat /\ length (vel s) = (lN (f_line F i) - 1)%nat) ->
  exists F', upd_full opposed K F t tl x = Ok F'.
Proof. intros op K F t tl x W N B R P L. destruct (update_ok op K F W N t tl x B R P L) as (F' & E & _). now exists F'. Qed.
Print Assumptions C110_total.

(** What the vessel says about an object at the start of a coupling step is what will lead that object and no other, and saying it moves nothing out of place *)
Theorem C110_boundary : forall K c F F', well_formed F -> in_place F -> impose K c F = Ok F' -> imposed c F F' /\ well_formed F' /\ in_place F' /\ shape F F'.
Proof.
  intros K c F F' W P H. pose proof (impose_core K c F F' W H) as C. assert (W' := wf_shape _ _ (proj1 C) W). split; [exact (impose_heard K c F F' H)|]. split; [exact W'|]. split; [|exact (proj1 C)].
  exact (placed_of F' (core_everything _ _ C (of_placed F P W)) W').
Qed.
Print Assumptions C110_boundary.

(** One step of any time scheme, of any length, whatever the forces: it ends with everything in place, at the positions and velocities of the state it kept,
    the coupled objects at the place the vessel leads them to after the time elapsed since the coupling step began *)
Theorem C110_step : forall opposed K deriv lim conv c s dt s', well_formed (objects s) -> fixed_in_place (objects s) ->
  scheme_step opposed K deriv lim conv c s dt = Ok s' ->
  well_formed (objects s') /\ in_place (objects s') /\ shape (objects s) (objects s') /\ vsame (objects s) (objects s') /\
  exists x, nth_error (rr mst mdst full s') 0 = Some x /\ follows (objects s') (tl mst mdst full s + dt) x.
Proof.
  intros op K de lim conv c s dt s' W FI H. destruct (step_shown op K de lim conv c s dt s' (fixed_base _ W FI) H) as ((W' & _) & (S & V) & E & (x & X1 & X2) & T).
  split; [exact W'|]. split; [exact (placed_of _ E W')|]. split; [exact S|]. split; [exact V|]. exists x. rewrite <- T. now split.
Qed.
Print Assumptions C110_step.

(** One coupling step: the vessel speaks, then steps of the scheme follow; the last of them leaves the coupled objects where the vessel leads them
    after the sum of the steps *)
Theorem C110_coupling : forall opposed K deriv lim conv c s bc dts s', well_formed (objects s) -> fixed_in_place (objects s) -> dts <> [] ->
  coupling_step opposed K deriv lim conv c s bc dts = Ok s' ->
  well_formed (objects s') /\ in_place (objects s') /\ shape (objects s) (objects s') /\
  exists F x, impose_all K bc (objects s) = Ok F /\ vsame F (objects s') /\ nth_error (rr mst mdst full s') 0 = Some x /\ follows (objects s') (fold_left Rplus dts 0) x.
Proof.
  intros op K de lim conv c s bc dts s' W FI HN H. destruct (coupling_shown op K de lim conv c s bc dts s' (fixed_base _ W FI) H) as (F & EI & _ & (W' & _) & (S & V) & E & A & T).
  split; [exact W'|]. split; [apply (placed_of _ (E (or_introl HN)) W')|]. split; [exact S|]. destruct (A HN) as (x & X1 & X2). exists F, x. rewrite <- T. repeat (split; [assumption|]). exact X2.
Qed.
Print Assumptions C110_coupling.

(** Whole runs, with any number of coupling steps: whenever everything was in place at the beginning, it is at the end of every
    coupling step; otherwise from the first step of the scheme on *)
Theorem C110_run : forall opposed K deriv lim conv c s l s', well_formed (objects s) -> coupling_steps opposed K deriv lim conv c s l = Ok s' ->
  in_place (objects s) \/ (fixed_in_place (objects s) /\ exists bc dts, In (bc, dts) l /\ dts <> []) ->
  well_formed (objects s') /\ in_place (objects s') /\ shape (objects s) (objects s').
Proof.
  intros op K de lim conv c s l s' W H HP.
  assert (B : base (objects s)) by (apply fixed_base; [exact W|]; destruct HP as [HP|[HP _]]; [now apply placed_fixed|exact HP]).
  destruct (couplings_shown op K de lim conv c l s s' B H) as ((W' & _) & S & E). split; [exact W'|]. split; [|exact S]. apply placed_of; [|exact W']. apply E.
  destruct HP as [HP|[_ HP]]; [right; now apply of_placed|now left].
Qed.
Print Assumptions C110_run.

(* ----- a system: an anchor on the ground, a coupled body with a point and a rod, a free point; one line from the anchor to the lower end of the rod, one from
   the point of the body to the free point ----- *)
Definition a_line : line := Line 2 1 1 1 1 0 1 1 0 1 0 [] [] [] [] [] [] false (fun _ => 0) (fun _ => vzero) (fun _ => vzero) (fun _ => 1) (fun _ => 1) false false vzero vzero.
Definition still : v6 * v6 * v6 := (v6zero, v6zero, v6zero).
Definition ground : bodyk := Bodyk BodyFixed true (XQ vzero qident) v6zero v6zero (qrot (qnormalized qident)) still [(0%nat, V3 10 0 (-20))] [].
Definition platform : bodyk := Bodyk BodyCoupled false (XQ vzero qident) v6zero v6zero (qrot (qnormalized qident)) still [(1%nat, V3 1 0 0)] [(0%nat, V6 (V3 0 0 (-5)) (V3 0 0 1))].
Definition column : rodk := Rodk RodFixed 3 5 (V3 0 0 1) (V3 0 0 1) (XQ vzero qident) v6zero v6zero still vzero vzero vzero vzero [(0%nat, ENDPOINT_B)] [].
Definition pt (t : ptype) (a : attachments) : pointk := Pointk t vzero vzero (vzero, vzero) a.
Definition the_system : full := Full 1 1 3 2 ground (fun _ => platform) (fun _ => column)
  (fun i => match i with O => pt PFixed [(0%nat, ENDPOINT_A)] | S O => pt PFixed [(1%nat, ENDPOINT_A)] | _ => pt PFree [(1%nat, ENDPOINT_B)] end) (fun _ => a_line).
Definition the_state : mst := Ms [St [V3 5 0 (-12)] [vzero]; St [V3 2 0 (-1)] [vzero]] [St vzero vzero; St vzero vzero; St (V3 3 0 (-2)) (V3 1 0 0)] [St (XQ vzero qident) v6zero] [St (XQ vzero qident) v6zero].
Definition at_rest : mdst := Md [Dr [vzero] [vzero]; Dr [vzero] [vzero]] [Dr vzero vzero; Dr vzero vzero; Dr (V3 1 0 0) vzero] [Dr (XQ vzero qident) v6zero] [Dr (XQ vzero qident) v6zero].
Lemma the_system_well_formed : well_formed the_system.
Proof.
  unfold well_formed. cbn [the_system f_ground f_line f_nl].
  assert (H3 : forall i, (i < 3)%nat -> i = 0%nat \/ i = 1%nat \/ i = 2%nat) by lia. assert (H1 : forall i, (i < 1)%nat -> i = 0%nat) by lia.
  assert (HH : forall h x, real_holder the_system h -> In x (held the_system h) ->
    (h = HPoint 0 /\ x = (0%nat, ENDPOINT_A)) \/ (h = HPoint 1 /\ x = (1%nat, ENDPOINT_A)) \/ (h = HPoint 2 /\ x = (1%nat, ENDPOINT_B)) \/ (h = HRod 0 /\ x = (0%nat, ENDPOINT_B))).
  { intros [i|i] x Hr Hx; cbn in Hr, Hx; [destruct (H3 i Hr) as [->|[->| ->]]; cbn in Hx; destruct Hx as [<-|[]]; tauto|rewrite (H1 i Hr); destruct Hx as [<-|[]]; tauto]. }
  assert (HC : forall c i rel, real_carrier the_system c -> In (i, rel) (b_pts (the_body the_system c)) -> (c = CGround /\ i = 0%nat /\ rel = V3 10 0 (-20)) \/ (c = CBody 0 /\ i = 1%nat /\ rel = V3 1 0 0)).
  { intros [|j] i rel Hc [Hi|[]]; [left|right; cbn in Hc; rewrite (H1 j Hc)]; (split; [reflexivity|]; split; congruence). }
  assert (HR : forall c i rel, real_carrier the_system c -> In (i, rel) (b_rods (the_body the_system c)) -> c = CBody 0 /\ i = 0%nat /\ rel = V6 (V3 0 0 (-5)) (V3 0 0 1)).
  { intros [|j] i rel Hc Hi; [destruct Hi|]. cbn in Hc. rewrite (H1 j Hc). destruct Hi as [Hi|[]]. split; [reflexivity|]. split; congruence. }
  split; [reflexivity|]. split; [|split; [|split; [|split; [|split; [|split; [|split; [|split]]]]]]].
  - intros h i ep Hr Hx. destruct (HH h (i, ep) Hr Hx) as [[_ E]|[[_ E]|[[_ E]|[_ E]]]]; injection E as -> ->; (split; [lia|split; [|cbn; lia]]; unfold an_end; tauto).
  - intros h h' x Hr Hr' Hx Hx'. destruct (HH h x Hr Hx) as [[-> E]|[[-> E]|[[-> E]|[-> E]]]]; destruct (HH h' x Hr' Hx') as [[-> E']|[[-> E']|[[-> E']|[-> E']]]]; try reflexivity; rewrite E in E'; discriminate.
  - intros [i|i] Hr; cbn in Hr; [destruct (H3 i Hr) as [->|[->| ->]]|]; cbn; repeat constructor; intros [].
  - intros c i rel Hc Hi. destruct (HC c i rel Hc Hi) as [(-> & -> & _)|(-> & -> & _)]; split; cbn; (lia || reflexivity).
  - intros c c' i rel rel' Hc Hc' Hi Hi'. destruct (HC c i rel Hc Hi) as [(-> & -> & ->)|(-> & -> & ->)]; destruct (HC c' _ rel' Hc' Hi') as [(-> & E & ->)|(-> & E & ->)]; try discriminate; now split.
  - intros i Hi HT. cbn in Hi. destruct (H3 i Hi) as [->|[->| ->]]; [exists CGround|exists (CBody 0)|discriminate]; eexists; (split; [cbn; (exact Logic.I || lia)|left; reflexivity]).
  - intros c i rel Hc Hi. destruct (HR c i rel Hc Hi) as (-> & -> & ->). split; [cbn; lia|]. split; [now left|]. intros _. split; [reflexivity|]. unfold dot. cbn. lra.
  - intros c c' i rel rel' Hc Hc' Hi Hi'. destruct (HR c i rel Hc Hi) as (-> & -> & ->). destruct (HR c' _ rel' Hc' Hi') as (-> & _ & ->). now split.
  - intros i Hi HT. cbn in Hi. rewrite (H1 i Hi). exists (CBody 0). eexists. split; [cbn; lia|left; reflexivity].
Qed.
Lemma the_system_fixed : fixed_in_place the_system.
Proof. split; [reflexivity|]. intros i Hi b HT. discriminate. Qed.
Lemma euler_ok (S D Env : Type) (o : sops S D) upd cal lim msk conv (t l : R) (e : Env) (x : S) (d : D) n er b dt e1 e2 d2 z w e3 :
  upd e t (0 + l) x = Ok e1 -> cal e1 d = Ok (e2, d2) -> o_scale o d2 dt = Ok z -> o_sadd o x z = Ok w -> upd e2 (t + dt) (dt + l) w = Ok e3 ->
  exists s', step S D Env o upd cal lim msk conv Euler (Ts S D Env t l e [x] [d] n er b) dt = Ok s' /\ env _ _ _ s' = e3 /\ rr _ _ _ s' = [w].
Proof.
  intros E1 E2 E3 E4 E5. cbn [step]. unfold step_euler, update, calc, axpy, finish, put_d, put_r, update. cbn. rewrite E1. cbn. rewrite E2. cbn. rewrite E3. cbn. rewrite E4. cbn. rewrite E5. cbn. eexists. split; [reflexivity|]. split; reflexivity.
Qed.
Lemma euler_full op K de lim conv (t l : R) (e : full) x d n er b dt e1 e2 d2 z w e3 :
  upd_full op K e t (0 + l) x = Ok e1 -> cal_full op K de e1 d = Ok (e2, d2) -> o_scale system_ops d2 dt = Ok z -> o_sadd system_ops x z = Ok w -> upd_full op K e2 (t + dt) (dt + l) w = Ok e3 ->
  exists s', scheme_step op K de lim conv Euler (Ts mst mdst full t l e [x] [d] n er b) dt = Ok s' /\ objects s' = e3 /\ rr _ _ _ s' = [w].
Proof. unfold scheme_step. apply euler_ok. Qed.
Lemma coupling_one op K de lim conv c s bc h F s' : impose_all K bc (objects s) = Ok F -> scheme_step op K de lim conv c (set_tl _ _ _ (set_env _ _ _ s F) 0) h = Ok s' -> coupling_step op K de lim conv c s bc [h] = Ok s'.
Proof. intros E1 E2. unfold coupling_step. rewrite E1. cbn [obind scheme_steps]. rewrite E2. reflexivity. Qed.
Lemma moved_ok h : exists z w, o_scale system_ops at_rest h = Ok z /\ o_sadd system_ops the_state z = Ok w /\
  (forall i, (i < 1)%nat -> exists s, nth_error (s_bodies w) i = Some s) /\ (forall i, (i < 1)%nat -> exists s, nth_error (s_rods w) i = Some s) /\
  (forall i, (i < 3)%nat -> exists s, nth_error (s_points w) i = Some s) /\ (forall i, (i < 2)%nat -> exists s, nth_error (s_lines w) i = Some s /\ length (pos s) = 1%nat /\ length (vel s) = 1%nat) /\
  exists s, nth_error (s_points w) 2 = Some s /\ pos s = vadd (V3 3 0 (-2)) (vscale h (V3 1 0 0)).
Proof.
  assert (X0 : forall i, (i < 1)%nat -> i = 0%nat) by lia. assert (X2 : forall i, (i < 2)%nat -> i = 0%nat \/ i = 1%nat) by lia. assert (X3 : forall i, (i < 3)%nat -> i = 0%nat \/ i = 1%nat \/ i = 2%nat) by lia.
  eexists. eexists. split; [reflexivity|]. split; [reflexivity|]. split; [|split; [|split; [|split]]].
  - intros i Hi. rewrite (X0 i Hi). now eexists.
  - intros i Hi. rewrite (X0 i Hi). now eexists.
  - intros i Hi. destruct (X3 i Hi) as [->|[->| ->]]; now eexists.
  - intros i Hi. destruct (X2 i Hi) as [->| ->]; eexists; repeat split.
  - eexists. split; reflexivity.
Qed.
(** before the first update nothing of it is in place; a step of the Euler scheme succeeds, and by the theorem puts everything in place *)
Example C110_case : well_formed the_system /\ fixed_in_place the_system /\ ~ in_place the_system /\
  forall opposed K lim conv h, exists s', coupling_step opposed K (fun _ d => Ok (fun _ => v6zero, fun _ => v6zero, d)) lim conv Euler
    (Ts _ _ _ 0 0 the_system [the_state] [at_rest] 0 0 1) [BcBody 0 (V6 (V3 1 2 3) vzero) (V6 (V3 1 0 0) vzero) v6zero] [h] = Ok s' /\
    q_r (f_pt (objects s') 2) = vadd (V3 3 0 (-2)) (vscale h (V3 1 0 0)) /\ xq_pos (b_r7 (f_body (objects s') 0)) = V3 (1 + h) 2 3.
Proof.
  split; [exact the_system_well_formed|]. split; [exact the_system_fixed|]. split.
  - intros (P & _). destruct (P CGround Logic.I) as (_ & Q & _). destruct (Q 0%nat (V3 10 0 (-20)) (or_introl eq_refl)) as [Q1 _].
    assert (O : qnormalized qident = qident). { unfold qnormalized, qident. cbn [qw qx qy qz]. destruct (Rlt_dec _ _); [|reflexivity]. replace (1 * 1 + 0 * 0 + 0 * 0 + 0 * 0) with 1 by ring. rewrite sqrt_1. unfold qscale. cbn [qw qx qy qz]. f_equal; field. }
    cbn [the_system f_pt pt q_r the_body f_ground ground b_or b_r7 xq_pos] in Q1. rewrite O in Q1. unfold placed, qrot, mmulv, qident, vadd, vzero, dot in Q1. cbn in Q1. injection Q1. intros. lra.
  - intros op K lim conv h. set (de := fun (_ : full) (d : mdst) => Ok (fun _ : nat => v6zero, fun _ : nat => v6zero, d)).
    set (F1 := put_body the_system 0 (body_ves platform (V6 (V3 1 2 3) vzero, V6 (V3 1 0 0) vzero, v6zero))).
    assert (S1 : shape the_system F1) by (apply (body_shape the_system (CBody 0)); repeat split).
    assert (EI : impose_all K [BcBody 0 (V6 (V3 1 2 3) vzero) (V6 (V3 1 0 0) vzero) v6zero] the_system = Ok F1) by reflexivity.
    assert (W1 := wf_shape _ _ S1 the_system_well_formed).
    assert (U : forall F t l x, shape the_system F -> well_formed F -> (forall i, (i < 1)%nat -> exists s, nth_error (s_bodies x) i = Some s) -> (forall i, (i < 1)%nat -> exists s, nth_error (s_rods x) i = Some s) ->
      (forall i, (i < 3)%nat -> exists s, nth_error (s_points x) i = Some s) -> (forall i, (i < 2)%nat -> exists s, nth_error (s_lines x) i = Some s /\ length (pos s) = 1%nat /\ length (vel s) = 1%nat) ->
      exists F', upd_full op K F t l x = Ok F' /\ shape the_system F').
    { intros F t l x S W XB XR XP XL. pose proof S as ((N1 & N2 & N3 & N4) & _ & SR & _ & SL). cbn in N1, N2, N3, N4.
      destruct (C110_total op K F t l x W) as (F' & E).
      - intros i _. destruct (SR i) as (_ & -> & _). cbn. lia.
      - rewrite N1. exact XB.
      - rewrite N2. exact XR.
      - rewrite N3. exact XP.
      - rewrite N4. intros i Hi. rewrite SL. exact (XL i Hi).
      - exists F'. split; [exact E|]. destruct (update_ok op K F W) with (t := t) (tl := l) (x := x) as (G & EG & SG).
        + intros i _. destruct (SR i) as (_ & -> & _). cbn. lia.
        + rewrite N1. exact XB.
        + rewrite N2. exact XR.
        + rewrite N3. exact XP.
        + rewrite N4. intros i Hi. rewrite SL. exact (XL i Hi).
        + rewrite E in EG. assert (F' = G) by congruence. subst G. exact (shape_trans _ _ _ S SG). }
    assert (X0 : forall i, (i < 1)%nat -> i = 0%nat) by lia. assert (X2 : forall i, (i < 2)%nat -> i = 0%nat \/ i = 1%nat) by lia. assert (X3 : forall i, (i < 3)%nat -> i = 0%nat \/ i = 1%nat \/ i = 2%nat) by lia.
    destruct (U F1 0 (0 + 0) the_state S1 W1) as (F2 & E2 & S2).
    { intros i Hi. rewrite (X0 i Hi). now eexists. } { intros i Hi. rewrite (X0 i Hi). now eexists. } { intros i Hi. destruct (X3 i Hi) as [->|[->| ->]]; now eexists. } { intros i Hi. destruct (X2 i Hi) as [->| ->]; eexists; repeat split. }
    assert (W2 := wf_shape _ _ S2 the_system_well_formed).
    set (F3 := with_acc F2 (fun _ => v6zero) (fun _ => v6zero)). assert (S3 : shape the_system F3) by exact (shape_trans _ _ _ S2 (proj1 (acc_core F2 _ _))).
    destruct (deps_ok op K the_system the_system_well_formed) with (F := F3) (c := CGround) (b := f_ground F3) as (F4 & E4 & S4); [intros i _; cbn; lia|exact S3|exact Logic.I|apply (proj1 (proj2 S3) CGround)|].
    assert (W4 := wf_shape _ _ S4 the_system_well_formed).
    destruct (moved_ok h) as (z & x1 & Z1 & Z2 & M1 & M2 & M3 & M4 & M5).
    destruct (U F4 (0 + h) (h + 0) x1 S4 W4 M1 M2 M3 M4) as (F5 & E5 & S5).
    assert (EC : cal_full op K de F2 at_rest = Ok (F4, at_rest)) by (unfold cal_full, de; cbn [obind fst snd]; fold F3; rewrite E4; reflexivity).
    destruct (euler_full op K de lim conv 0 0 F1 the_state at_rest 0 0 1 h F2 F4 at_rest z x1 F5 E2 EC Z1 Z2 E5) as (s' & ES & EF & ER).
    exists s'. split; [exact (coupling_one op K de lim conv Euler (Ts mst mdst full 0 0 the_system [the_state] [at_rest] 0 0 1) _ h F1 s' EI ES)|]. rewrite EF.
    destruct (C110_step op K de lim conv Euler (Ts mst mdst full 0 0 F1 [the_state] [at_rest] 0 0 1) h s' W1) as (_ & _ & _ & V & x & EX & FL); [|exact ES|].
    + split; [reflexivity|]. intros i Hi b HT. exfalso. unfold b in HT. cbn in Hi. rewrite (X0 i Hi) in HT. discriminate.
    + rewrite ER in EX. cbn in EX. assert (x = x1) by congruence. subst x. rewrite EF in FL, V. cbn [env tl] in FL, V. pose proof S5 as ((N1 & _ & N3 & _) & SB & _ & SP & _). destruct FL as (_ & FB & _ & _ & FP & _). split.
      * destruct M5 as (p & M5 & M6). destruct (FP 2%nat p) as [-> _]; [rewrite N3; cbn; lia|exact M5|rewrite (proj1 (SP 2%nat)); reflexivity|exact M6].
      * destruct (FB 0%nat) as [-> _]; [rewrite N1; cbn; lia|exact (proj1 (SB (CBody 0%nat)))|]. pose proof (proj1 V (CBody 0)) as VB. cbn [the_body] in VB. rewrite VB. cbn. unfold vadd, vscale, vzero. cbn. apply v3eq; cbn [vx vy vz]; lra.
Qed.
