(** Proofs about whole systems (MFull): derivatives, boundary conditions, steps of the time schemes and whole runs *)
From Coq Require Import Reals List Lra Lia Arith ZArith.
From Verif Require Import MErr MVec MStateOps MMat MInterp MLine MRod MBody MEnd MRodS MScheme MFull SMat SLine SRod SRodS PMat PEuler PLine PRod PRodB PRodC PEnd PEndB PRodS PRate PInterp PScheme PStepJ SEnd SFull PFull PFullB PFullC.
From Verif Require MSys.
Import ListNotations.
Open Scope R_scope.

(* ----- between the facts and the specification ----- *)
Lemma placed_of F : everything F -> well_formed F -> in_place F.
Proof.
  intros (A & B & C & D) W. split; [|split].
  - intros c Hc. destruct (A c Hc) as (A1 & A2 & A3). split; [exact A1|]. split; [exact A2|]. intros i rel Hi.
    assert (Hr : (i < f_nr F)%nat) by (destruct W as (_ & _ & _ & _ & _ & _ & _ & W7 & _); apply (W7 c i rel Hc Hi)).
    destruct (D i Hr) as [D1 D2]. destruct (A3 i rel Hi) as (X1 & X2 & X3). split; [congruence|]. split; [congruence|exact X3].
  - exact B.
  - intros i Hi. destruct (D i Hi) as [D1 D2]. split; [exact D1|]. split; [exact D2|]. exact (C i Hi).
Qed.
Lemma of_placed F : in_place F -> well_formed F -> everything F.
Proof.
  intros (A & B & C) W. split; [|split; [exact B|split]].
  - intros c Hc. destruct (A c Hc) as (A1 & A2 & A3). split; [exact A1|]. split; [exact A2|]. intros i rel Hi.
    assert (Hr : (i < f_nr F)%nat) by (destruct W as (_ & _ & _ & _ & _ & _ & _ & W7 & _); apply (W7 c i rel Hc Hi)).
    destruct (C i Hr) as (D1 & D2 & _). destruct (A3 i rel Hi) as (X1 & X2 & X3). split; [congruence|]. split; [congruence|exact X3].
  - intros i Hi. apply (C i Hi).
  - intros i Hi. destruct (C i Hi) as (D1 & D2 & _). now split.
Qed.
Lemma placed_fixed F : well_formed F -> in_place F -> fixed_in_place F.
Proof.
  intros W (A & B & C). split; [apply (A CGround Logic.I)|]. intros i Hi b HT. destruct (A (CBody i) Hi) as [A1 A2]. split; [exact A1|]. split; [exact A2|].
  destruct W as (_ & _ & _ & _ & W4 & _ & _ & W7 & _). split; intros j rel Hj; [apply B; apply (W4 (CBody i) j rel Hi Hj)|apply C; apply (W7 (CBody i) j rel Hi Hj)].
Qed.
Definition base (F : full) : Prop := well_formed F /\ settled F /\ good_or (f_ground F).
Lemma fixed_base F : well_formed F -> fixed_in_place F -> base F.
Proof.
  intros W (G & A). split; [exact W|]. split; [|exact G]. intros i Hi HT. destruct (A i Hi HT) as (A1 & A2 & A3 & A4). split; [|split].
  - intros _. split; [exact A1|]. split; [apply A2|]. intros j rel Hj. destruct (A4 j rel Hj) as (D1 & D2 & _). destruct A2 as [_ A2]. destruct (A2 j rel Hj) as (X1 & X2 & X3). cbn [the_body]. split; [congruence|]. split; [congruence|exact X3].
  - intros j rel Hj _. exact (A3 j rel Hj).
  - intros j rel Hj _. destruct (A4 j rel Hj) as (D1 & D2 & D3). split; intros _; [exact D3|now split].
Qed.

(* ----- what is kept when only what the vessel says changes ----- *)
Definition core (F F' : full) : Prop :=
  shape F F' /\ (good_or (f_ground F) -> good_or (f_ground F')) /\
  forall x, (match x with FCar _ | FPt _ | FRl _ | FRa _ => True | _ => False end) -> holds F x -> holds F' x.
Lemma core_refl F : core F F. Proof. split; [apply shape_refl|]. split; auto. Qed.
Lemma core_trans F G H : core F G -> core G H -> core F H.
Proof. intros (A1 & A2 & A3) (B1 & B2 & B3). split; [eapply shape_trans; eassumption|]. split; auto. Qed.
Lemma core_everything F F' : core F F' -> everything F -> everything F'.
Proof. intros (_ & _ & K) (A & B & C & D). split; [|split; [|split]]; intros i; apply K; try exact Logic.I; auto. Qed.
Lemma settled_by F F' : shape F F' -> (forall i, (i < f_nb F)%nat -> b_type (f_body F i) = BodyFixed -> done F (CBody i) F -> done F (CBody i) F') -> settled F -> settled F'.
Proof.
  intros S K H i Hi HT. pose proof S as ((N1 & _) & SB & SR & _). rewrite N1 in Hi. destruct (SB (CBody i)) as (T1 & T2 & T3). cbn [the_body] in T1. rewrite T1 in HT.
  destruct (K i Hi HT (H i Hi HT)) as (D1 & D2 & D3). split; [exact D1|]. split.
  - intros j rel Hj. rewrite T2 in Hj. exact (D2 j rel Hj).
  - intros j rel Hj HF. rewrite T3 in Hj. destruct (SR j) as (U & _). rewrite U in HF. exact (D3 j rel Hj HF).
Qed.
Lemma core_base F F' : core F F' -> base F -> base F'.
Proof.
  intros (S & G & K) (W & H & O). split; [exact (wf_shape _ _ S W)|]. split; [|exact (G O)]. apply (settled_by F F' S); [|exact H].
  intros i Hi HT (D1 & D2 & D3). split; [apply K; [exact Logic.I|exact D1]|]. split; [intros j rel Hj; apply K; [exact Logic.I|exact (D2 j rel Hj)]|].
  intros j rel Hj HF. destruct (D3 j rel Hj HF). split; apply K; try exact Logic.I; assumption.
Qed.

Section Run.
Variable opposed : v3 -> v3 -> quat.
Variable K : nat -> Z -> R.

Lemma upd_base F t tl x F' : base F -> upd_full opposed K F t tl x = Ok F' -> base F' /\ (shape F F' /\ vsame F F') /\ everything F' /\ follows F' tl x.
Proof.
  intros (W & H & _) HU. destruct (updated opposed K F t tl x F' W H HU) as (S & V & E & FL). split; [|split; [now split|now split]]. split; [exact (wf_shape _ _ S W)|].
  pose proof E as (A & B & C & D). split.
  - intros i Hi HT. split; [apply A|]. split; [intros; apply B|]. intros; split; [apply C|apply D].
  - apply (A CGround Logic.I).
Qed.

(* the derivatives *)
Variable deriv : full -> mdst -> outcome ((nat -> v6) * (nat -> v6) * mdst).
Lemma acc_core F ab ar : core F (with_acc F ab ar).
Proof.
  split; [|split].
  - split; [repeat split|]. split; [destruct c; repeat split|]. repeat split.
  - exact (fun H => H).
  - intros [c|i|i|i|c Q|i Q|i Q]; cbn [holds]; try contradiction; intros _ H.
    + destruct c; exact H.
    + exact H.
    + exact H.
    + exact H.
Qed.
Lemma cal_base F d F' d' : base F -> cal_full opposed K deriv F d = Ok (F', d') -> base F' /\ shape F F' /\ vsame F F'.
Proof.
  intros B H. unfold cal_full in H. destruct (deriv F d) as [r|e| |]; cbn [obind] in H; try discriminate. cbv zeta in H. set (F1 := with_acc F (fst (fst r)) (snd (fst r))) in *.
  assert (B1 : base F1) by exact (core_base _ _ (acc_core F _ _) B). assert (S1 : shape F F1) by exact (proj1 (acc_core F _ _)). assert (V1 : vsame F F1) by (split; [destruct c; reflexivity|now split]). clearbody F1. clear B. destruct B1 as (W & HS & O).
  destruct (body_dependents opposed K (f_ground F1) F1) as [F2|e| |] eqn:E; cbn [obind] in H; try discriminate. assert (F' = F2) by congruence. subst F2.
  destruct (deps opposed K F1 CGround F1 F' W (shape_refl _) Logic.I O E) as (P & _ & PB).
  split; [|split; [exact (shape_trans _ _ _ S1 (proj1 P))|exact (vsame_trans _ _ _ V1 (proj1 (proj2 P)))]].
  split; [exact (pres_wf _ _ _ P W)|]. split; [|pose proof (PB CGround) as Z; cbn [the_body] in Z; now rewrite Z]. apply (settled_by F1 F' (proj1 P)); [|exact HS]. intros i Hi HT D.
  apply (done_pres (Xd F1) F1 (CBody i) F1 F' P); try exact D; cbn [Xd]; [tauto|tauto|tauto|intros j HF Z; congruence].
Qed.

(* the boundary conditions *)
Lemma rod_keep F i k' ls : well_formed F -> (i < f_nr F)%nat -> same_rod (f_rod F i) k' -> (forall c, ~ carried_rod F c i) -> only_ends (held F (HRod i)) (f_line F) ls ->
  (rod_lines (f_rod F i) (f_line F) -> rod_lines k' ls) -> (anchored (f_rod F i) -> anchored k') -> core F (put_rod F i k' ls).
Proof.
  intros W Hi HS HC O HL HA. set (F' := put_rod F i k' ls).
  assert (P1 : forall j, j <> i -> f_rod F' j = f_rod F j) by (intros j Hj; cbn; now apply fput_other).
  assert (P2 : f_rod F' i = k') by (cbn; apply fput_same).
  split; [|split; [exact (fun z => z)|]].
  - split; [repeat split|]. split; [destruct c; repeat split|]. split; [|split; [repeat split|intro j; cbn; apply (proj1 O j)]].
    intro j. destruct (Nat.eq_dec j i) as [->|Hj]; [rewrite P2; exact HS|rewrite P1 by exact Hj; repeat split].
  - intros x Hx Hh. destruct x as [c|j|j|j|c Q|j Q|j Q]; try contradiction.
    + intro Hc. assert (Hc' : real_carrier F c) by (destruct c; exact Hc). assert (EB : the_body F' c = the_body F c) by (destruct c; reflexivity). rewrite EB. destruct (Hh Hc') as (U1 & U2 & U3). split; [exact U1|]. split.
      * intros j rel Hj. now apply U2.
      * intros j rel Hj. rewrite P1; [now apply U3|]. intros ->. apply (HC c). split; [exact Hc'|now exists rel].
    + intro Hr. cbn [f_line f_pt F' put_rod]. apply (point_other _ _ (f_line F) ls (proj2 O)); [|now apply Hh]. apply (others F (HRod i) (HPoint j) W Hi Hr). congruence.
    + destruct (Nat.eq_dec j i) as [->|Hj]; [intro Hr; rewrite P2; apply HL; now apply Hh|]. intro Hr. rewrite P1 by exact Hj. cbn [f_line F' put_rod].
      apply (rod_other _ _ (f_line F) ls (proj2 O)); [|now apply Hh]. apply (others F (HRod i) (HRod j) W Hi Hr). congruence.
    + destruct (Nat.eq_dec j i) as [->|Hj]; [intro Hr; rewrite P2; apply HA; now apply Hh|]. intro Hr. rewrite P1 by exact Hj. now apply Hh.
Qed.
Lemma impose_core c F F' : well_formed F -> impose K c F = Ok F' -> core F F'.
Proof.
  intros W H. destruct c as [i r rd rdd|i r rd rdd|i r rd]; cbn [impose] in H.
  - destruct (Nat.ltb_spec i (f_nb F)); [|discriminate]. unfold body_initiateStep, body_initiate in H. set (b := f_body F i) in *.
    assert (M : exists s, F' = put_body F i (body_ves b s)).
    { destruct (b_type b); cbn [obind] in H; try discriminate.
      - eexists; symmetry; injection H; intros <-; reflexivity.
      - eexists; symmetry; injection H; intros <-; reflexivity.
      - destruct (b_ves b) as [[r0 rd0] rdd0]. cbn [obind] in H. eexists; symmetry; injection H; intros <-; reflexivity. }
    destruct M as [s ->]. set (F' := put_body F i (body_ves b s)).
    assert (P : forall d, exists s', the_body F' d = body_ves (the_body F d) s').
    { intros [|j]; [exists (b_ves (f_ground F)); cbn; now destruct (f_ground F)|]. cbn. destruct (Nat.eq_dec j i) as [->|Hj]; [exists s; now rewrite fput_same|exists (b_ves (f_body F j)); rewrite fput_other by exact Hj; now destruct (f_body F j)]. }
    split; [|split; [exact (fun z => z)|]].
    + split; [repeat split|]. split; [intro d; destruct (P d) as [s' ->]; repeat split|]. repeat split.
    + intros [d|j|j|j|d Q|j Q|j Q] Hx Hh; try contradiction; try exact Hh. intro Hd. destruct (P d) as [s' ->]. apply Hh. destruct d; exact Hd.
  - destruct (Nat.ltb_spec i (f_nr F)); [|discriminate]. unfold on_rod, rod_initiateStep in H. set (k := f_rod F i) in *. destruct (k_type k) eqn:ET; cbn [obind] in H; try discriminate.
    + destruct (rod_dependent K (with_ves k (r, rd, rdd)) (f_line F)) as [[k2 ls]|e| |] eqn:E; cbn [obind fst snd] in H; try discriminate.
      destruct (dep_facts K F i (with_ves k (r, rd, rdd)) ls k2 W H0 ltac:(repeat split) E) as (q & EK & HQ & O & L & AN).
      assert (EF : F' = put_rod F i k2 ls) by congruence. rewrite EF. apply rod_keep; try assumption; try (intros _; assumption).
      * rewrite EK. repeat split.
      * intro c. apply uncarried; [exact W|]. fold k. rewrite ET. split; discriminate.
    + destruct (k_ves k) as [[r0 rd0] rdd0]. cbn [obind fst snd] in H.
      match type of H with Ok (put_rod _ _ ?kk _) = _ => set (k1 := kk) in * end. assert (EF : F' = put_rod F i k1 (f_line F)) by congruence. rewrite EF. apply rod_keep; try assumption.
      * repeat split.
      * intro c. apply uncarried; [exact W|]. fold k. rewrite ET. split; discriminate.
      * apply only_refl.
      * exact (fun z => z).
      * exact (fun z => z).
  - destruct (Nat.ltb_spec i (f_np F)); [|discriminate]. unfold point_initiateStep in H. set (p := f_pt F i) in *. destruct (q_type p) eqn:ET; try discriminate. cbv zeta in H.
    match type of H with Ok (put_pt _ _ ?pp _) = _ => set (p1 := pp) in * end. assert (EF : F' = put_pt F i p1 (f_line F)) by congruence. rewrite EF.
    assert (UP : forall c, ~ carried_pt F c i) by (intro c; apply uncarried_pt; [exact W|fold p; congruence]).
    assert (P : forall j, exists s, f_pt (put_pt F i p1 (f_line F)) j = Pointk (q_type (f_pt F j)) (q_r (f_pt F j)) (q_rd (f_pt F j)) s (q_att (f_pt F j))).
    { intro j. cbn. destruct (Nat.eq_dec j i) as [->|Hj]; [exists (r, rd); rewrite fput_same; unfold p1; fold p; now rewrite <- ET|exists (q_ves (f_pt F j)); rewrite fput_other by exact Hj; now destruct (f_pt F j)]. }
    split; [|split; [exact (fun z => z)|]].
    + split; [repeat split|]. split; [destruct c; repeat split|]. split; [repeat split|]. split; [|repeat split]. intro j. destruct (P j) as [s ->]. repeat split.
    + intros [d|j|j|j|d Q|j Q|j Q] Hx Hh; try contradiction; try exact Hh.
      * intro Hd. assert (Hd' : real_carrier F d) by (destruct d; exact Hd). assert (EB : the_body (put_pt F i p1 (f_line F)) d = the_body F d) by (destruct d; reflexivity). rewrite EB.
        destruct (Hh Hd') as (U1 & U2 & U3). split; [exact U1|]. split; [|exact U3]. intros j rel Hj. destruct (P j) as [s ->]. exact (U2 j rel Hj).
      * intro Hj. destruct (P j) as [s ->]. exact (Hh Hj).
Qed.
Lemma impose_all_core cs : forall F F', well_formed F -> impose_all K cs F = Ok F' -> core F F'.
Proof.
  induction cs as [|c cs IH]; intros F F' W H; cbn [impose_all] in H; [assert (F = F') by congruence; subst; apply core_refl|].
  destruct (impose K c F) as [F1|e| |] eqn:E; cbn [obind] in H; try discriminate. pose proof (impose_core c F F1 W E) as C. eapply core_trans; [exact C|]. apply IH; [exact (wf_shape _ _ (proj1 C) W)|exact H].
Qed.

(* steps of the schemes *)
Variable lim : full -> R -> R -> R.
Variable conv : mdst -> mdst -> bool.
Notation ENV := (env mst mdst full).
Notation TL := (tl mst mdst full).
Notation RR := (rr mst mdst full).
Definition at_state (s : tsch mst mdst full) : Prop := exists x, nth_error (RR s) 0 = Some x /\ follows (ENV s) (TL s) x.
Lemma step_shown c s dt s' : base (ENV s) -> scheme_step opposed K deriv lim conv c s dt = Ok s' ->
  base (ENV s') /\ (shape (ENV s) (ENV s') /\ vsame (ENV s) (ENV s')) /\ everything (ENV s') /\ at_state s' /\ TL s' = TL s + dt.
Proof.
  intros B H. unfold scheme_step in H. pose proof (step_time _ _ _ _ _ _ _ _ _ _ _ _ _ H) as (_ & ET & _).
  destruct (step_J mst mdst full system_ops (upd_full opposed K) (cal_full opposed K deriv) lim (fun F _ => Ok F) conv (fun e => base e /\ shape (ENV s) e /\ vsame (ENV s) e)) with (c := c) (s := s) (dt := dt) (s' := s') as (e & x & (B1 & S1 & V1) & G & U).
  - intros e t l x e' (Be & Se & Ve) He. destruct (upd_base e t l x e' Be He) as (B2 & (S2 & V2) & _). split; [exact B2|]. split; [exact (shape_trans _ _ _ Se S2)|exact (vsame_trans _ _ _ Ve V2)].
  - intros e d e' d' (Be & Se & Ve) He. destruct (cal_base e d e' d' Be He) as (B2 & S2 & V2). split; [exact B2|]. split; [exact (shape_trans _ _ _ Se S2)|exact (vsame_trans _ _ _ Ve V2)].
  - intros e d e' Be He. assert (e = e') by congruence. now subst.
  - split; [exact B|]. split; [apply shape_refl|apply vsame_refl].
  - exact H.
  - destruct (upd_base e _ _ x _ B1 U) as (B2 & (S2 & V2) & E & FL). split; [exact B2|]. split; [split; [exact (shape_trans _ _ _ S1 S2)|exact (vsame_trans _ _ _ V1 V2)]|]. split; [exact E|]. split; [|exact ET].
    exists x. split; [|exact FL]. unfold vget in G. destruct (nth_error (RR s') 0); congruence.
Qed.
Lemma steps_shown c dts : forall s s', base (ENV s) -> scheme_steps opposed K deriv lim conv c dts s = Ok s' ->
  base (ENV s') /\ (shape (ENV s) (ENV s') /\ vsame (ENV s) (ENV s')) /\ (dts <> [] \/ everything (ENV s) -> everything (ENV s')) /\ (dts <> [] -> at_state s') /\ TL s' = fold_left Rplus dts (TL s).
Proof.
  induction dts as [|dt l IH]; intros s s' B H; cbn [scheme_steps] in H.
  - assert (s = s') by congruence. subst. split; [exact B|]. split; [split; [apply shape_refl|apply vsame_refl]|]. split; [tauto|]. split; [tauto|reflexivity].
  - destruct (scheme_step opposed K deriv lim conv c s dt) as [s1|e| |] eqn:E; cbn [obind] in H; try discriminate. destruct (step_shown c s dt s1 B E) as (B1 & (S1 & V1) & E1 & A1 & T1).
    destruct (IH s1 s' B1 H) as (B2 & (S2 & V2) & E2 & A2 & T2). split; [exact B2|]. split; [split; [exact (shape_trans _ _ _ S1 S2)|exact (vsame_trans _ _ _ V1 V2)]|]. split; [intros _; apply E2; now right|]. split.
    + intros _. destruct l as [|d l]; [|apply A2; discriminate]. cbn [scheme_steps] in H. assert (s1 = s') by congruence. now subst.
    + rewrite T2. cbn [fold_left]. now rewrite T1.
Qed.
Lemma coupling_shown c s bc dts s' : base (ENV s) -> coupling_step opposed K deriv lim conv c s bc dts = Ok s' ->
  exists F, impose_all K bc (ENV s) = Ok F /\ base F /\ base (ENV s') /\ (shape (ENV s) (ENV s') /\ vsame F (ENV s')) /\ (dts <> [] \/ everything (ENV s) -> everything (ENV s')) /\ (dts <> [] -> at_state s') /\ TL s' = fold_left Rplus dts 0.
Proof.
  intros B H. unfold coupling_step in H. destruct (impose_all K bc (ENV s)) as [F|e| |] eqn:E; cbn [obind] in H; try discriminate. exists F. split; [reflexivity|].
  pose proof (impose_all_core bc _ _ (proj1 B) E) as C. pose proof (core_base _ _ C B) as BF. split; [exact BF|]. apply steps_shown in H; [|exact BF]. cbn [env tl set_tl set_env] in H. destruct H as (H1 & (S2 & V2) & H2 & H3 & H4).
  split; [exact H1|]. split; [split; [exact (shape_trans _ _ _ (proj1 C) S2)|exact V2]|]. split; [|now split]. intros [Z|Z]; apply H2; [now left|right; exact (core_everything _ _ C Z)].
Qed.
Lemma couplings_shown c l : forall s s', base (ENV s) -> coupling_steps opposed K deriv lim conv c s l = Ok s' ->
  base (ENV s') /\ shape (ENV s) (ENV s') /\ ((exists bc dts, In (bc, dts) l /\ dts <> []) \/ everything (ENV s) -> everything (ENV s')).
Proof.
  induction l as [|[bc dts] l IH]; intros s s' B H; cbn [coupling_steps] in H.
  - assert (s = s') by congruence. subst. split; [exact B|]. split; [apply shape_refl|]. intros [(bc & dts & [] & _)|Z]; exact Z.
  - destruct (coupling_step opposed K deriv lim conv c s bc dts) as [s1|e| |] eqn:E; cbn [obind] in H; try discriminate. destruct (coupling_shown c s bc dts s1 B E) as (_ & _ & _ & B1 & (S1 & _) & E1 & _).
    destruct (IH s1 s' B1 H) as (B2 & S2 & E2). split; [exact B2|]. split; [exact (shape_trans _ _ _ S1 S2)|]. intros [(bc' & dts' & [Z|Z] & N)|Z]; apply E2.
    + right. apply E1. left. congruence.
    + left. now exists bc', dts'.
    + right. apply E1. now right.
Qed.
(* what the vessel says is heard *)
Lemma impose_heard c F F' : impose K c F = Ok F' -> imposed c F F'.
Proof.
  intro H. destruct c as [i r rd rdd|i r rd rdd|i r rd]; cbn [impose] in H.
  - destruct (Nat.ltb_spec i (f_nb F)) as [Hi|]; [|discriminate]. unfold body_initiateStep, body_initiate in H. set (b := f_body F i) in *.
    assert (G : forall s, F' = put_body F i (body_ves b s) -> (match b_type b with BodyCoupled => heard true s r rd | BodyCpldPin => heard false s r rd | BodyFixed => True | BodyFree => False end) -> imposed (BcBody i r rd rdd) F F').
    { intros s -> Hs. cbn [imposed]. split; [exact Hi|]. split; [|split; [reflexivity|split; [reflexivity|]]].
      - intros [|j] Hd; [reflexivity|]. cbn. rewrite fput_other by congruence. reflexivity.
      - cbn [put_body f_body]. rewrite fput_same. cbn [body_ves b_ves]. exact Hs. }
    destruct (b_type b) eqn:ET; cbn [obind] in H; try discriminate.
    + eapply G; [symmetry; injection H; intros <-; reflexivity|exact Logic.I].
    + apply (G (r, rd, rdd)); [congruence|]. cbn. intro; reflexivity.
    + destruct (b_ves b) as [[r0 rd0] rdd0]. cbn [obind] in H. eapply G; [symmetry; injection H; intros <-; reflexivity|]. cbn. intro; split; reflexivity.
  - destruct (Nat.ltb_spec i (f_nr F)) as [Hi|]; [|discriminate]. unfold on_rod, rod_initiateStep in H. set (k := f_rod F i) in *.
    assert (G : forall k' ls, F' = put_rod F i k' ls -> (match k_type k with RodCoupled => heard true (k_ves k') r rd | RodCpldPin => heard false (k_ves k') r rd | _ => False end) -> imposed (BcRod i r rd rdd) F F').
    { intros k' ls -> Hs. cbn [imposed]. split; [exact Hi|]. split; [destruct d; reflexivity|]. split; [|split; [reflexivity|]].
      - intros j Hj. cbn. now rewrite fput_other.
      - cbn [put_rod f_rod]. rewrite fput_same. exact Hs. }
    destruct (k_type k) eqn:ET; cbn [obind] in H; try discriminate.
    + unfold rod_dependent in H. cbv zeta in H. match type of H with obind (obind (setDependentStates K ?d ?l) _) _ = _ => destruct (setDependentStates K d l) as [[q l4]|e| |] end; cbn [obind fst snd] in H; try discriminate.
      eapply G; [symmetry; injection H; intros <-; reflexivity|]. cbn. intro; reflexivity.
    + destruct (k_ves k) as [[r0 rd0] rdd0]. cbn [obind fst snd] in H. eapply G; [symmetry; injection H; intros <-; reflexivity|]. cbn. intro; split; reflexivity.
  - destruct (Nat.ltb_spec i (f_np F)) as [Hi|]; [|discriminate]. unfold point_initiateStep in H. destruct (q_type (f_pt F i)) eqn:ET; try discriminate. cbv zeta in H.
    match type of H with Ok ?G = Ok F' => assert (EF : F' = G) by congruence end. rewrite EF. cbn [imposed]. split; [exact Hi|]. split; [destruct d; reflexivity|]. split; [reflexivity|]. split.
    + intros j Hj. cbn. now rewrite fput_other.
    + split; [exact ET|]. cbn. now rewrite fput_same.
Qed.
End Run.
