(** Proofs about whole systems (MFull): one update, phase by phase *)
From Coq Require Import Reals List Lra Lia Arith ZArith.
From Verif Require Import MErr MVec MStateOps MMat MInterp MLine MRod MBody MEnd MRodS MFull SMat SLine SRod SRodS PMat PEuler PLine PRod PRodB PRodC PEnd PEndB PRodS PRate SEnd SFull PFull.
From Verif Require MSys.
Import ListNotations.
Open Scope R_scope.

Lemma each2 f (I0 : full -> Prop) (P Q : nat -> full -> Prop) : forall l, NoDup l ->
  (forall i F F', In i l -> I0 F -> P i F -> f i F = Ok F' -> I0 F' /\ Q i F' /\ forall j, j <> i -> (P j F -> P j F') /\ (Q j F -> Q j F')) ->
  forall F F', I0 F -> (forall i, In i l -> P i F) -> each f l F = Ok F' -> I0 F' /\ (forall i, In i l -> Q i F').
Proof.
  induction l as [|i l IH]; intros ND ST F F' HI HP H; cbn [each] in H.
  - assert (F = F') by congruence. subst. split; [exact HI|contradiction].
  - apply NoDup_cons_iff in ND as [NI ND]. destruct (f i F) as [F1|e| |] eqn:E; cbn [obind] in H; try discriminate.
    destruct (ST i F F1 (or_introl eq_refl) HI (HP i (or_introl eq_refl)) E) as (I1 & Q1 & K1).
    assert (G : forall l' F F', (forall j, In j l' -> j <> i) -> incl l' l -> I0 F -> Q i F -> (forall j, In j l' -> P j F) -> NoDup l' -> each f l' F = Ok F' -> Q i F').
    { clear -ST. induction l' as [|j l' IH]; intros F F' HJ HIn HI HQ HP ND H; cbn [each] in H; [congruence|]. apply NoDup_cons_iff in ND as [NI ND]. destruct (f j F) as [F1|e| |] eqn:E; cbn [obind] in H; try discriminate.
      destruct (ST j F F1 (or_intror (HIn j (or_introl eq_refl))) HI (HP j (or_introl eq_refl)) E) as (I1 & Q1 & K1).
      apply (IH F1 F'); [intros; apply HJ; now right|intros x Hx; apply HIn; now right|exact I1|apply K1; [apply not_eq_sym; apply HJ; now left|exact HQ]| |exact ND|exact H].
      intros n Hn. apply K1; [intros ->; contradiction|apply HP; now right]. }
    assert (HP1 : forall j, In j l -> P j F1) by (intros j Hj; apply K1; [intros ->; contradiction|apply HP; now right]).
    destruct (IH ND) with (F := F1) (F' := F') as [J1 J2]; [intros; eapply ST; eauto; now right|exact I1|exact HP1|exact H|].
    split; [exact J1|]. intros j [<-|Hj]; [|now apply J2]. apply (G l F1 F'); try assumption; [intros j Hj ->; contradiction|apply incl_refl].
Qed.
Lemma seq_in n i : In i (seq 0 n) <-> (i < n)%nat. Proof. rewrite in_seq. lia. Qed.

(* ----- a body is set ----- *)
Definition put_car (F : full) (c : carrier) (b : bodyk) : full := match c with CGround => put_ground F b | CBody i => put_body F i b end.
Lemma put_car_same F c b : the_body (put_car F c b) c = b. Proof. destruct c; cbn; [reflexivity|apply fput_same]. Qed.
Lemma put_car_other F c d b : d <> c -> the_body (put_car F c b) d = the_body F d.
Proof. intro H. destruct c, d; cbn; try reflexivity; try congruence. apply fput_other. congruence. Qed.
Lemma car_dec (c d : carrier) : c = d \/ c <> d.
Proof. destruct c, d; try (right; discriminate); [now left|]. destruct (Nat.eq_dec i i0) as [->|H]; [now left|right; congruence]. Qed.
Definition Xbody (c : carrier) (x : fact) : Prop := match x with FCar d => d = c | FCarV d _ => d = c | _ => False end.
Lemma body_put F c b' : same_body (the_body F c) b' -> b_ves b' = b_ves (the_body F c) -> pres (Xbody c) F (put_car F c b').
Proof.
  intros HS HV.
  assert (SH : shape F (put_car F c b')). { split; [destruct c; repeat split|]. split; [|destruct c; repeat split]. intro d. destruct (car_dec d c) as [->|Hd]; [now rewrite put_car_same|rewrite put_car_other by exact Hd; repeat split]. }
  split; [exact SH|]. split.
  - split; [|destruct c; split; reflexivity]. intro d. destruct (car_dec d c) as [->|Hd]; [now rewrite put_car_same|now rewrite put_car_other].
  - intros x Hx Hf. destruct x as [d|j|j|j|d Q|j Q|j Q]; cbn [Xbody] in Hx; try (destruct c; exact Hf).
    + intro Hd. apply (shape_real_c _ _ d SH) in Hd. rewrite put_car_other by exact Hx. destruct (Hf Hd) as (U1 & U2 & U3). split; [exact U1|]. destruct c; split; assumption.
    + cbn [holds]. now rewrite put_car_other.
Qed.
Definition Xm (F0 : full) (c : carrier) (x : fact) : Prop := Xd F0 x \/ match x with FCarV d _ => d = c | _ => False end.

Section Phases.
Variable opposed : v3 -> v3 -> quat.
Variable K : nat -> Z -> R.
Lemma body_moves F0 c b' F F' : well_formed F -> shape F0 F -> real_carrier F c -> same_body (the_body F c) b' -> b_ves b' = b_ves (the_body F c) -> good_or b' ->
  body_dependents opposed K b' (put_car F c b') = Ok F' -> pres (Xm F0 c) F F' /\ done F0 c F' /\ the_body F' c = b'.
Proof.
  intros W S0 Hc HS HV HO H. pose proof (body_put F c b' HS HV) as P. set (F1 := put_car F c b') in *. assert (EB : the_body F1 c = b') by apply put_car_same.
  destruct (deps opposed K F0 c F1 F') as (D1 & D2 & D3); [exact (pres_wf _ _ _ P W)|exact (shape_trans _ _ _ S0 (proj1 P))|apply (shape_real_c _ _ c (proj1 P)); exact Hc|rewrite EB; exact HO|rewrite EB; exact H|].
  split; [|split; [exact D2|rewrite D3; exact EB]].
  assert (PP : pres (fun x => Xm F0 c x \/ x = FCar c) F F').
  { apply (pres_trans _ F F1 F').
    - eapply pres_weak; [|exact P]. intros [d|j|j|j|d Q|j Q|j Q]; unfold Xm; cbn; try tauto. intros ->. now right.
    - eapply pres_weak; [|exact D1]. intros x Hx. left. now left. }
  destruct PP as (Z1 & Z2 & Z3). split; [exact Z1|]. split; [exact Z2|]. intros x Hx Hf.
  destruct x as [d|j|j|j|d Q|j Q|j Q]; try (apply Z3; [intros [Z|Z]; [now apply Hx|discriminate]|exact Hf]).
  destruct (car_dec d c) as [->|D]; [exact (proj1 D2)|]. apply Z3; [intros [Z|Z]; [now apply Hx|congruence]|exact Hf].
Qed.

(* 1: the ground *)
Lemma phase1 F0 t F F' : well_formed F -> shape F0 F -> ground_updateFairlead opposed K t F = Ok F' -> pres (Xm F0 CGround) F F' /\ done F0 CGround F'.
Proof.
  intros W S0 H. unfold ground_updateFairlead, body_led in H. pose proof W as (T & _). rewrite T in H. destruct (b_ves (f_ground F)) as [[r rd] rdd] eqn:EV. cbn [obind fst snd] in H. cbv zeta in H.
  match type of H with body_dependents _ _ ?b _ = _ => set (b' := b) in *; destruct (body_moves F0 CGround b' F F') as (A & B & _) end; try assumption; try (repeat split; fail). now split.
Qed.

(* 2: the coupled bodies *)
Definition led_body (b : bodyk) (tl : R) : Prop :=
  (b_type b = BodyCoupled -> b_r7 b = fromVec6 (fst (led (b_ves b) tl)) /\ b_v6 b = snd (led (b_ves b) tl)) /\
  (b_type b = BodyCpldPin -> xq_pos (b_r7 b) = v6hd (fst (led (b_ves b) tl)) /\ v6hd (b_v6 b) = v6hd (snd (led (b_ves b) tl))).
Definition X2 (F0 : full) (x : fact) : Prop :=
  Xd F0 x \/ match x with FCarV (CBody i) _ => is_led (b_type (f_body F0 i)) = true | FCar (CBody i) => b_type (f_body F0 i) = BodyCpldPin | _ => False end.
Lemma done_m F0 c d F F' : pres (Xm F0 c) F F' -> done F0 d F -> done F0 d F'.
Proof. intros P. apply (done_pres _ F0 d F F' P); unfold Xm; cbn; try tauto; intros; intros [Z|Z]; tauto || congruence. Qed.
Lemma phase2 F0 tl F F' : well_formed F -> shape F0 F ->
  each (fun i F => if is_led (b_type (f_body F i)) then body_updateFairlead opposed K tl i F else Ok F) (seq 0 (f_nb F)) F = Ok F' ->
  pres (X2 F0) F F' /\ forall i, (i < f_nb F0)%nat -> led_body (f_body F' i) tl /\ (b_type (f_body F0 i) = BodyCoupled -> done F0 (CBody i) F').
Proof.
  intros W S0 H. set (Q := fun i G => led_body (f_body G i) tl /\ (b_type (f_body F0 i) = BodyCoupled -> done F0 (CBody i) G)).
  match type of H with each ?ff _ _ = _ => destruct (each2 ff (fun G => pres (X2 F0) F G) (fun _ _ => True) Q (seq 0 (f_nb F)) (seq_NoDup _ _)) with (F := F) (F' := F') as [A B] end; [|apply pres_refl|trivial|exact H|].
  - intros i G G' Hi HG _ HE. apply seq_in in Hi. assert (WG := pres_wf _ _ _ HG W). assert (SG := shape_trans _ _ _ S0 (proj1 HG)).
    assert (Hc : real_carrier G (CBody i)) by (apply (shape_real_c _ _ (CBody i) (proj1 HG)); exact Hi).
    assert (ET : b_type (f_body G i) = b_type (f_body F0 i)) by (destruct SG as (_ & SB & _); apply (SB (CBody i))).
    destruct (is_led (b_type (f_body G i))) eqn:EL.
    2: { assert (G = G') by congruence. subst G'. split; [exact HG|]. split; [|tauto]. split; [split; intro Z; rewrite Z in EL; discriminate|]. rewrite ET in EL. intro Z. rewrite Z in EL. discriminate. }
    unfold body_updateFairlead, body_led in HE. destruct (b_ves (f_body G i)) as [[r rd] rdd] eqn:EV.
    destruct (b_type (f_body G i)) eqn:ETY; cbn [is_led] in EL; try discriminate; cbn [obind fst snd] in HE; cbv zeta in HE.
    + match type of HE with body_dependents _ _ ?b _ = _ => set (b' := b) in *; destruct (body_moves F0 (CBody i) b' G G') as (M1 & M2 & M3) end; try assumption; try (repeat split; fail).
      assert (HP : pres (X2 F0) G G'). { eapply pres_weak; [|exact M1]. intros x [Z|Z]; [now left|]. right. destruct x as [d|j|j|j|d QQ|j QQ|j QQ]; try contradiction. subst d. now rewrite <- ET. }
      split; [eapply pres_trans; eassumption|]. split.
      * unfold Q. cbn [the_body] in M3. rewrite M3. split; [|intros _; exact M2]. unfold led_body, b'. cbn [move_body b_type b_ves b_r7 b_v6]. rewrite EV, ETY. cbn [led fst snd]. split; [now split|discriminate].
      * intros j Hj. split; [trivial|]. intros [U1 U2]. split.
        -- assert (Z : holds G' (FCarV (CBody j) (fun b => led_body b tl))) by (apply M1; [intros [Z|Z]; [exact Z|congruence]|exact U1]). exact Z.
        -- intro HT. eapply done_m; [exact M1|now apply U2].
    + assert (EG : G' = put_car G (CBody i) (move_body (f_body G i) (XQ (vadd (v6hd r) (vscale tl (v6hd rd))) (xq_quat (b_r7 (f_body G i)))) (V6 (v6hd rd) (v6tl (b_v6 (f_body G i)))) (V6 (v6hd rdd) (v6tl (b_a6 (f_body G i)))) (b_or (f_body G i)))) by (cbn [put_car]; congruence).
      match type of EG with _ = put_car _ _ ?b => set (b' := b) in *; pose proof (body_put G (CBody i) b') as P end. assert (P1 : pres (Xbody (CBody i)) G G') by (rewrite EG; apply P; [repeat split|reflexivity]). clear P.
      assert (HP : pres (X2 F0) G G'). { eapply pres_weak; [|exact P1]. intros x Z. right. destruct x as [d|j|j|j|d QQ|j QQ|j QQ]; try contradiction; cbn in Z; subst d; rewrite <- ET; reflexivity. }
      split; [eapply pres_trans; eassumption|]. split.
      * unfold Q. split; [|intro Z; congruence]. assert (EB : f_body G' i = b') by (rewrite EG; exact (put_car_same G (CBody i) b')). rewrite EB. unfold led_body, b'. cbn [move_body b_type b_ves b_r7 b_v6 xq_pos v6hd]. rewrite EV, ETY. cbn [led fst snd]. split; [discriminate|]. intros _. split; reflexivity.
      * intros j Hj. split; [trivial|]. intros [U1 U2]. split.
        -- assert (Z : holds G' (FCarV (CBody j) (fun b => led_body b tl))) by (apply P1; [cbn; congruence|exact U1]). exact Z.
        -- intro HT. eapply done_pres; [exact P1| | | | |now apply U2]; cbn; try tauto. congruence.
  - split; [exact A|]. intros i Hi. apply B. apply seq_in. destruct S0 as ((N & _) & _). now rewrite N.
Qed.

(* 3: the coupled rods *)
Definition led_rod (k : rodk) (tl : R) : Prop :=
  (k_type k = RodCoupled -> k_r7 k = fromVec6 (fst (led (k_ves k) tl)) /\ k_v6 k = snd (led (k_ves k) tl)) /\
  (k_type k = RodCpldPin -> xq_pos (k_r7 k) = v6hd (fst (led (k_ves k) tl)) /\ v6hd (k_v6 k) = v6hd (snd (led (k_ves k) tl))).
Definition X3 (F0 : full) (x : fact) : Prop := match x with FRodV i _ => rod_is_led (k_type (f_rod F0 i)) = true | FRa i => k_type (f_rod F0 i) = RodCpldPin | _ => False end.
Lemma uncarried F i c : well_formed F -> (k_type (f_rod F i) <> RodFixed /\ k_type (f_rod F i) <> RodPinned) -> ~ carried_rod F c i.
Proof. intros (_ & _ & _ & _ & _ & _ & _ & W7 & _) [H1 H2] [Hc [rel Hr]]. destruct (W7 c i rel Hc Hr) as (_ & [Z|Z] & _); contradiction. Qed.
Lemma uncarried_pt F i c : well_formed F -> q_type (f_pt F i) <> PFixed -> ~ carried_pt F c i.
Proof. intros (_ & _ & _ & _ & W4 & _) H1 [Hc [rel Hr]]. destruct (W4 c i rel Hc Hr) as (_ & Z). contradiction. Qed.
Lemma phase3 F0 tl F F' : well_formed F -> shape F0 F ->
  each (fun i F => if rod_is_led (k_type (f_rod F i)) then on_rod i F (rod_updateFairlead K (f_rod F i) tl (f_line F)) else Ok F) (seq 0 (f_nr F)) F = Ok F' ->
  pres (X3 F0) F F' /\ forall i, (i < f_nr F0)%nat -> led_rod (f_rod F' i) tl /\ (k_type (f_rod F0 i) = RodCoupled -> holds F' (FRl i) /\ holds F' (FRa i)).
Proof.
  intros W S0 H. set (Q := fun i G => led_rod (f_rod G i) tl /\ (k_type (f_rod F0 i) = RodCoupled -> holds G (FRl i) /\ holds G (FRa i))).
  match type of H with each ?ff _ _ = _ => destruct (each2 ff (fun G => pres (X3 F0) F G) (fun _ _ => True) Q (seq 0 (f_nr F)) (seq_NoDup _ _)) with (F := F) (F' := F') as [A B] end; [|apply pres_refl|trivial|exact H|].
  - intros i G G' Hi HG _ HE. apply seq_in in Hi. assert (WG := pres_wf _ _ _ HG W). assert (SG := shape_trans _ _ _ S0 (proj1 HG)).
    assert (Hr : (i < f_nr G)%nat) by (destruct HG as (((_ & N & _) & _) & _); now rewrite N).
    assert (ET : k_type (f_rod G i) = k_type (f_rod F0 i)) by (destruct SG as (_ & _ & SR & _); apply (SR i)).
    destruct (rod_is_led (k_type (f_rod G i))) eqn:EL.
    2: { assert (G = G') by congruence. subst G'. split; [exact HG|]. split; [|tauto]. split; [split; intro Z; rewrite Z in EL; discriminate|]. rewrite ET in EL. intro Z. rewrite Z in EL. discriminate. }
    assert (UC : forall c, ~ carried_rod G c i) by (intro c; apply uncarried; [exact WG|]; split; intro Z; rewrite Z in EL; discriminate).
    unfold on_rod, rod_updateFairlead in HE. set (k := f_rod G i) in *. destruct (k_ves k) as [[r rd] rdd] eqn:EV.
    destruct (k_type k) eqn:ETY; cbn [rod_is_led] in EL; try discriminate.
    + set (k1 := with_motion k (fromVec6 (v6add r (v6scale tl rd))) rd rdd) in *.
      destruct (rod_dependent K k1 (f_line G)) as [[k2 ls]|e| |] eqn:E; cbn [obind fst snd] in HE; try discriminate.
      destruct (dep_facts K G i k1 ls k2 WG Hr ltac:(repeat split) E) as (q & EK & HQ & O & L & AN). assert (EF : G' = put_rod G i k2 ls) by congruence.
      destruct (rod_put G i k2 ls WG Hr ltac:(rewrite EK; repeat split) ltac:(rewrite EK; reflexivity) O (fun _ => L)) as (P1 & _ & P3 & P4). rewrite <- EF in *.
      assert (HA : holds G' (FRa i)) by (intros _; rewrite P4; exact AN). assert (HL : holds G' (FRl i)) by (intros _; rewrite P4; rewrite EF; exact L).
      assert (HP : pres (X3 F0) G G').
      { destruct P1 as (Z1 & Z2 & Z3). split; [exact Z1|]. split; [exact Z2|]. intros x Hx Hf. destruct x as [d|j|j|j|d QQ|j QQ|j QQ]; try (apply Z3; [cbn [Xrod]; solve [auto]|exact Hf]).
        - destruct (Nat.eq_dec j i) as [->|Hj]; [exact HA|apply Z3; [exact Hj|exact Hf]].
        - apply Z3; [|exact Hf]. cbn [Xrod]. intros ->. apply Hx. cbn [X3]. now rewrite <- ET. }
      split; [eapply pres_trans; eassumption|]. split.
      * split; [|intros _; now split]. rewrite P4, EK. unfold led_rod, k1. cbn [with_ends with_motion k_type k_ves k_r7 k_v6]. rewrite EV, ETY. cbn [led fst snd]. split; [now split|discriminate].
      * intros j Hj. split; [trivial|]. intros [U1 U2]. split; [rewrite P3 by exact Hj; exact U1|]. intro HT. destruct (U2 HT) as [V1 V2]. split; [apply P1; [intro Z; exact Z|exact V1]|apply P1; [exact Hj|exact V2]].
    + cbn [obind fst snd] in HE. match type of HE with Ok (put_rod _ _ ?kk _) = _ => set (k1 := kk) in * end. assert (EF : G' = put_rod G i k1 (f_line G)) by congruence.
      destruct (rod_put G i k1 (f_line G) WG Hr ltac:(repeat split) eq_refl (only_refl _ _) (fun Z => Z)) as (P1 & _ & P3 & P4). rewrite <- EF in *.
      assert (HP : pres (X3 F0) G G').
      { destruct P1 as (Z1 & Z2 & Z3). split; [exact Z1|]. split; [exact Z2|]. intros x Hx Hf. destruct x as [d|j|j|j|d QQ|j QQ|j QQ]; try (apply Z3; [cbn [Xrod]; solve [auto]|exact Hf]).
        - apply Z3; [|exact Hf]. cbn [Xrod]. intros ->. apply Hx. cbn [X3]. now rewrite <- ET.
        - apply Z3; [|exact Hf]. cbn [Xrod]. intros ->. apply Hx. cbn [X3]. now rewrite <- ET. }
      split; [eapply pres_trans; eassumption|]. split.
      * split; [|intro Z; congruence]. rewrite P4. unfold led_rod, k1. cbn [with_motion k_type k_ves k_r7 k_v6 xq_pos v6hd]. rewrite EV, ETY. cbn [led fst snd]. split; [discriminate|]. intros _. split; reflexivity.
      * intros j Hj. split; [trivial|]. intros [U1 U2]. split; [rewrite P3 by exact Hj; exact U1|]. intro HT. destruct (U2 HT) as [V1 V2]. split; [apply P1; [intro Z; exact Z|exact V1]|apply P1; [exact Hj|exact V2]].
  - split; [exact A|]. intros i Hi. apply B. apply seq_in. destruct S0 as ((_ & N & _) & _). now rewrite N.
Qed.

(* 4 and 7: points *)
Definition X4 (F0 : full) (t : ptype) (x : fact) : Prop := match x with FPtV i _ => q_type (f_pt F0 i) = t | _ => False end.
Definition led_pt (p : pointk) (tl : R) : Prop := q_type p = PCoupled -> q_r p = vadd (fst (q_ves p)) (vscale tl (snd (q_ves p))) /\ q_rd p = snd (q_ves p).
Lemma phase_pt F0 t (step : nat -> full -> outcome full) (Qp : nat -> pointk -> Prop) F F' : t <> PFixed -> well_formed F -> shape F0 F ->
  (forall i G G', (i < f_np G)%nat -> q_type (f_pt G i) = t -> step i G = Ok G' -> exists r rd, point_to i r rd G = Ok G' /\ Qp i (move_pt (f_pt G i) r rd)) ->
  (forall i G G', q_type (f_pt G i) <> t -> step i G = Ok G' -> G = G') ->
  each step (seq 0 (f_np F)) F = Ok F' ->
  pres (X4 F0 t) F F' /\ forall i, (i < f_np F0)%nat -> q_type (f_pt F0 i) = t -> Qp i (f_pt F' i) /\ holds F' (FPt i).
Proof.
  intros HF W S0 H1 H2 H. set (Q := fun i G => q_type (f_pt F0 i) = t -> Qp i (f_pt G i) /\ holds G (FPt i)).
  match type of H with each ?ff _ _ = _ => destruct (each2 ff (fun G => pres (X4 F0 t) F G) (fun _ _ => True) Q (seq 0 (f_np F)) (seq_NoDup _ _)) with (F := F) (F' := F') as [A B] end; [|apply pres_refl|trivial|exact H|].
  - intros i G G' Hi HG _ HE. apply seq_in in Hi. assert (WG := pres_wf _ _ _ HG W). assert (SG := shape_trans _ _ _ S0 (proj1 HG)).
    assert (Hr : (i < f_np G)%nat) by (destruct HG as (((_ & _ & N & _) & _) & _); now rewrite N).
    assert (ET : q_type (f_pt G i) = q_type (f_pt F0 i)) by (destruct SG as (_ & _ & _ & SP & _); apply (SP i)).
    assert (D : q_type (f_pt G i) = t \/ q_type (f_pt G i) <> t) by (destruct (q_type (f_pt G i)), t; (now left) || (right; discriminate)).
    destruct D as [D|D]; [|assert (G = G') by exact (H2 i G G' D HE); subst G'; split; [exact HG|]; split; [intro Z; congruence|tauto]].
    destruct (H1 i G G' Hr D HE) as (r & rd & E & HQ). destruct (pt_moves G i r rd G' WG Hr E) as (P1 & _ & P3 & P4 & P5 & _).
    assert (HP : pres (X4 F0 t) G G').
    { destruct P1 as (Z1 & Z2 & Z3). split; [exact Z1|]. split; [exact Z2|]. intros x Hx Hf. destruct x as [d|j|j|j|d QQ|j QQ|j QQ]; try (apply Z3; [cbn [Xpt]; solve [auto]|exact Hf]).
      - apply Z3; [|exact Hf]. cbn [Xpt]. apply uncarried_pt; [exact WG|]. congruence.
      - apply Z3; [|exact Hf]. cbn [Xpt]. intros ->. apply Hx. cbn [X4]. congruence. }
    split; [eapply pres_trans; eassumption|]. split; [intros _; split; [rewrite P4; exact HQ|exact P5]|]. intros j Hj. split; [trivial|]. intros U HT. destruct (U HT) as [U1 U2]. split; [rewrite P3 by exact Hj; exact U1|]. apply P1; [intro Z; exact Z|exact U2].
  - split; [exact A|]. intros i Hi. apply B. apply seq_in. destruct S0 as ((_ & _ & N & _) & _). now rewrite N.
Qed.
Lemma phase4 F0 tl F F' : well_formed F -> shape F0 F ->
  each (fun i F => match q_type (f_pt F i) with PCoupled => point_updateFairlead tl i F | _ => Ok F end) (seq 0 (f_np F)) F = Ok F' ->
  pres (X4 F0 PCoupled) F F' /\ forall i, (i < f_np F0)%nat -> q_type (f_pt F0 i) = PCoupled -> led_pt (f_pt F' i) tl /\ holds F' (FPt i).
Proof.
  intros W S0 H. apply (phase_pt F0 PCoupled (fun i F => match q_type (f_pt F i) with PCoupled => point_updateFairlead tl i F | _ => Ok F end) (fun _ p => led_pt p tl) F F'); try assumption; [discriminate| |].
  - intros i G G' Hi HT HE. rewrite HT in HE. unfold point_updateFairlead in HE. destruct (q_ves (f_pt G i)) as [r rd] eqn:EV. rewrite HT in HE. exists (vadd r (vscale tl rd)), rd. split; [exact HE|]. intros _. cbn [move_pt q_r q_rd q_ves]. rewrite EV. now split.
  - intros i G G' HT HE. destruct (q_type (f_pt G i)); congruence.
Qed.
Lemma phase7 F0 x F F' : well_formed F -> shape F0 F ->
  each (fun i F => match q_type (f_pt F i) with PFree => s <- vget (s_points x) i ;; point_setState i s F | _ => Ok F end) (seq 0 (f_np F)) F = Ok F' ->
  pres (X4 F0 PFree) F F' /\ forall i, (i < f_np F0)%nat -> q_type (f_pt F0 i) = PFree -> (exists s, nth_error (s_points x) i = Some s /\ q_r (f_pt F' i) = pos s /\ q_rd (f_pt F' i) = vel s) /\ holds F' (FPt i).
Proof.
  intros W S0 H. apply (phase_pt F0 PFree (fun i F => match q_type (f_pt F i) with PFree => s <- vget (s_points x) i ;; point_setState i s F | _ => Ok F end) (fun i p => exists s, nth_error (s_points x) i = Some s /\ q_r p = pos s /\ q_rd p = vel s) F F'); try assumption; [discriminate| |].
  - intros i G G' Hi HT HE. rewrite HT in HE. unfold vget in HE. destruct (nth_error (s_points x) i) as [s|] eqn:EN; cbn [obind] in HE; [|discriminate]. unfold point_setState in HE. rewrite HT in HE. exists (pos s), (vel s). split; [exact HE|]. exists s. repeat split.
  - intros i G G' HT HE. destruct (q_type (f_pt G i)); congruence.
Qed.

(* 5: bodies with a state *)
Definition state_body (b : bodyk) (s : rst) : Prop :=
  match b_type b with BodyFree => b_r7 b = pos s /\ b_v6 b = vel s | _ => xq_quat (b_r7 b) = xq_quat (pos s) /\ v6tl (b_v6 b) = v6tl (vel s) end.
Definition X5 (F0 : full) (x : fact) : Prop := Xd F0 x \/ match x with FCarV (CBody i) _ => has_state (b_type (f_body F0 i)) = true | _ => False end.
Lemma phase5 F0 tl x F F' : well_formed F -> shape F0 F -> (forall i, (i < f_nb F0)%nat -> led_body (f_body F i) tl) ->
  each (fun i F => if has_state (b_type (f_body F i)) then s <- vget (s_bodies x) i ;; body_setState opposed K i s F else Ok F) (seq 0 (f_nb F)) F = Ok F' ->
  pres (X5 F0) F F' /\ forall i, (i < f_nb F0)%nat -> led_body (f_body F' i) tl /\
    (has_state (b_type (f_body F0 i)) = true -> done F0 (CBody i) F' /\ exists s, nth_error (s_bodies x) i = Some s /\ state_body (f_body F' i) s).
Proof.
  intros W S0 HLED H. set (P := fun i G => (i < f_nb F0)%nat -> led_body (f_body G i) tl).
  set (Q := fun i G => led_body (f_body G i) tl /\ (has_state (b_type (f_body F0 i)) = true -> done F0 (CBody i) G /\ exists s, nth_error (s_bodies x) i = Some s /\ state_body (f_body G i) s)).
  match type of H with each ?ff _ _ = _ => destruct (each2 ff (fun G => pres (X5 F0) F G) P Q (seq 0 (f_nb F)) (seq_NoDup _ _)) with (F := F) (F' := F') as [A B] end; [|apply pres_refl|intros i _ Hi; now apply HLED|exact H|].
  - intros i G G' Hi HG HPi HE. apply seq_in in Hi. assert (WG := pres_wf _ _ _ HG W). assert (SG := shape_trans _ _ _ S0 (proj1 HG)).
    assert (Hi0 : (i < f_nb F0)%nat) by (destruct S0 as ((N & _) & _); now rewrite <- N).
    assert (Hc : real_carrier G (CBody i)) by (apply (shape_real_c _ _ (CBody i) (proj1 HG)); exact Hi).
    assert (ET : b_type (f_body G i) = b_type (f_body F0 i)) by (destruct SG as (_ & SB & _); apply (SB (CBody i))).
    specialize (HPi Hi0). destruct (has_state (b_type (f_body G i))) eqn:EL.
    2: { assert (G = G') by congruence. subst G'. split; [exact HG|]. split; [|tauto]. split; [exact HPi|]. rewrite ET in EL. intro Z. rewrite Z in EL. discriminate. }
    unfold vget in HE. destruct (nth_error (s_bodies x) i) as [s|] eqn:EN; cbn [obind] in HE; [|discriminate]. unfold body_setState in HE. set (b := f_body G i) in *.
    assert (M : exists b', same_body b b' /\ b_ves b' = b_ves b /\ good_or b' /\ state_body b' s /\ (b_type b = BodyCpldPin -> xq_pos (b_r7 b') = xq_pos (b_r7 b) /\ v6hd (b_v6 b') = v6hd (b_v6 b)) /\ body_dependents opposed K b' (put_car G (CBody i) b') = Ok G').
    { destruct (b_type b) eqn:ETY; cbn [has_state] in EL; try discriminate; cbn [obind] in HE; eexists; (split; [|split; [|split; [|split; [|split; [|exact HE]]]]]); try reflexivity; try (repeat split; fail); try discriminate; unfold state_body; cbn [move_body b_type b_r7 b_v6]; rewrite ETY; split; reflexivity. }
    destruct M as (b' & M1 & M2 & M3 & M4 & M5 & M6). destruct (body_moves F0 (CBody i) b' G G' WG SG Hc M1 M2 M3 M6) as (P1 & P2 & P3). cbn [the_body] in P3.
    assert (HP : pres (X5 F0) G G'). { eapply pres_weak; [|exact P1]. intros y [Z|Z]; [now left|]. right. destruct y as [d|j|j|j|d QQ|j QQ|j QQ]; try contradiction. subst d. now rewrite <- ET. }
    split; [eapply pres_trans; eassumption|]. split.
    + unfold Q. rewrite P3. split; [|intros _; split; [exact P2|exists s; now split]]. destruct M1 as (T & _). unfold led_body. rewrite T, M2. destruct HPi as [L1 L2]. split; [intro Z; rewrite Z in EL; discriminate|]. intro Z. destruct (M5 Z) as [-> ->]. now apply L2.
    + intros j Hj. split.
      * intros U Hj0. assert (Z : holds G' (FCarV (CBody j) (fun b => led_body b tl))) by (apply P1; [intros [Z|Z]; [exact Z|congruence]|now apply U]). exact Z.
      * intros [U1 U2]. split.
        -- assert (Z : holds G' (FCarV (CBody j) (fun b => led_body b tl))) by (apply P1; [intros [Z|Z]; [exact Z|congruence]|exact U1]). exact Z.
        -- intro HT. destruct (U2 HT) as (V1 & s' & V2 & V3). split; [eapply done_m; eassumption|]. exists s'. split; [exact V2|].
           assert (Z : holds G' (FCarV (CBody j) (fun b => state_body b s'))) by (apply P1; [intros [Z|Z]; [exact Z|congruence]|exact V3]). exact Z.
  - split; [exact A|]. intros i Hi. apply B. apply seq_in. destruct S0 as ((N & _) & _). now rewrite N.
Qed.
End Phases.
