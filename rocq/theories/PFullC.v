(** Proofs about whole systems (MFull): rods with a state, lines, and a whole update *)
From Coq Require Import Reals List Lra Lia Arith ZArith.
From Verif Require Import MErr MVec MStateOps MMat MInterp MLine MRod MBody MEnd MRodS MFull SMat SLine SRod SRodS PMat PEuler PLine PRod PRodB PRodC PEnd PEndB PRodS PRate SEnd SFull PFull PFullB.
From Verif Require MSys.
Import ListNotations.
Open Scope R_scope.

Section Update.
Variable opposed : v3 -> v3 -> quat.
Variable K : nat -> Z -> R.

(* Rod::setState *)
Definition state_rod (k : rodk) (s : rst) : Prop :=
  (k_type k = RodFree -> xq_pos (k_r7 k) = xq_pos (pos s) /\ v6hd (k_v6 k) = v6hd (vel s)) /\
  ((0 < k_n k)%nat -> xq_quat (k_r7 k) = xq_quat (pos s) /\ v6tl (k_v6 k) = v6tl (vel s)).
Lemma state_facts F i s F' : well_formed F -> (i < f_nr F)%nat -> on_rod i F (rod_setState K (f_rod F i) (pos s) (vel s) (f_line F)) = Ok F' ->
  pres (Xrod F i) F F' /\ (forall j, j <> i -> f_rod F' j = f_rod F j) /\ (forall c, the_body F' c = the_body F c) /\ f_pt F' = f_pt F /\
  holds F' (FRl i) /\ holds F' (FRa i) /\ state_rod (f_rod F' i) s /\
  (k_type (f_rod F i) <> RodFree -> xq_pos (k_r7 (f_rod F' i)) = xq_pos (k_r7 (f_rod F i)) /\ v6hd (k_v6 (f_rod F' i)) = v6hd (k_v6 (f_rod F i))).
Proof.
  intros W Hi H. set (k := f_rod F i) in *. unfold on_rod, rod_setState in H.
  assert (M : exists k1, same_rod k k1 /\ k_ves k1 = k_ves k /\ state_rod k1 s /\ (k_type k <> RodFree -> xq_pos (k_r7 k1) = xq_pos (k_r7 k) /\ v6hd (k_v6 k1) = v6hd (k_v6 k)) /\
    (kl <- (res <- rod_dependent K k1 (f_line F) ;; let k2 := fst res in
       let k3 := if Nat.eqb (k_n k2) 0 then with_motion k2 (XQ (xq_pos (k_r7 k2)) qident) (V6 (v6hd (k_v6 k2)) vzero) (k_acc k2) else k2 in
       Ok (with_q k3 (rod_dir k3), snd res)) ;; Ok (put_rod F i (fst kl) (snd kl))) = Ok F').
  { destruct (k_type k) eqn:ET; cbn [obind] in H; try discriminate; eexists; (split; [|split; [|split; [|split; [|exact H]]]]); try reflexivity; try (repeat split; fail); try congruence;
      unfold state_rod; cbn [with_motion k_type k_r7 k_v6 xq_pos xq_quat v6hd v6tl]; rewrite ET; split; try discriminate; intros; split; reflexivity. }
  destruct M as (k1 & S1 & V1 & ST & HP & HE). clear H.
  destruct (rod_dependent K k1 (f_line F)) as [[k2 ls]|e| |] eqn:E; cbn [obind fst snd] in HE; try discriminate. cbv zeta in HE.
  destruct (dep_facts K F i k1 ls k2 W Hi S1 E) as (q & EK & HQ & O & L & A).
  match type of HE with Ok (put_rod _ _ (with_q ?kk _) _) = _ => set (k3 := kk) in * end. set (k4 := with_q k3 (rod_dir k3)) in *. assert (EF : F' = put_rod F i k4 ls) by congruence.
  assert (FA : same_rod k1 k4 /\ k_ves k4 = k_ves k1 /\ anchored k4 /\ rod_lines k4 ls /\ state_rod k4 s /\ xq_pos (k_r7 k4) = xq_pos (k_r7 k1) /\ v6hd (k_v6 k4) = v6hd (k_v6 k1)).
  { assert (EN : k_n k2 = k_n k1) by (rewrite EK; reflexivity). unfold k4, k3. destruct (Nat.eqb_spec (k_n k2) 0) as [Z|Z].
    - destruct L as [L1 L2]. rewrite Z in L2. cbn [Nat.eqb] in L2. destruct L2 as (L2 & L3 & L4).
      split; [rewrite EK; repeat split|]. split; [rewrite EK; reflexivity|]. split; [exact A|]. split; [|split; [|split; rewrite EK; reflexivity]].
      + split; [exact L1|]. cbn [with_q with_motion k_n k_rA k_rB k_rdA k_rdB k_attA k_attB]. rewrite Z. cbn [Nat.eqb]. split; [exact L2|]. split; [exact L3|exact L4].
      + destruct ST as [T1 T2]. split; [rewrite EK; exact T1|]. cbn [with_q with_motion k_n]. rewrite Z. lia.
    - assert (QQ : k_q k2 = rod_dir k2) by (rewrite EK; cbn [with_ends k_q]; rewrite HQ by lia; reflexivity).
      assert (EW : with_q k2 (rod_dir k2) = k2) by (rewrite <- QQ; destruct k2; reflexivity). rewrite EW.
      split; [rewrite EK; repeat split|]. split; [rewrite EK; reflexivity|]. split; [exact A|]. split; [exact L|]. split; [rewrite EK; exact ST|]. split; rewrite EK; reflexivity. }
  destruct FA as (S4 & V4 & A4 & L4 & T4 & X4 & Y4).
  assert (SK : same_rod (f_rod F i) k4). { fold k. destruct S1 as (a1 & a2 & a3 & a4 & a5 & a6), S4 as (b1 & b2 & b3 & b4 & b5 & b6). repeat split; congruence. }
  destruct (rod_put F i k4 ls W Hi SK ltac:(fold k; congruence) O (fun _ => L4)) as (P1 & _ & P3 & P4). rewrite <- EF in *.
  split; [exact P1|]. split; [exact P3|]. split; [rewrite EF; destruct c; reflexivity|]. split; [rewrite EF; reflexivity|]. split; [intros _; rewrite P4; rewrite EF; exact L4|]. split; [intros _; rewrite P4; exact A4|]. rewrite P4. split; [exact T4|].
  intro Z. destruct (HP Z) as [Z1 Z2]. split; congruence.
Qed.
Definition X6 (F0 : full) (x : fact) : Prop := match x with FRodV i _ => rod_has_state (k_type (f_rod F0 i)) = true | _ => False end.
Lemma phase6 F0 tl x F F' : well_formed F -> shape F0 F -> (forall i, (i < f_nr F0)%nat -> led_rod (f_rod F i) tl) ->
  each (fun i F => if rod_has_state (k_type (f_rod F i)) then s <- vget (s_rods x) i ;; on_rod i F (rod_setState K (f_rod F i) (pos s) (vel s) (f_line F)) else Ok F) (seq 0 (f_nr F)) F = Ok F' ->
  pres (X6 F0) F F' /\ forall i, (i < f_nr F0)%nat -> led_rod (f_rod F' i) tl /\
    (rod_has_state (k_type (f_rod F0 i)) = true -> holds F' (FRl i) /\ holds F' (FRa i) /\ exists s, nth_error (s_rods x) i = Some s /\ state_rod (f_rod F' i) s).
Proof.
  intros W S0 HLED H. set (P := fun i G => (i < f_nr F0)%nat -> led_rod (f_rod G i) tl).
  set (Q := fun i G => led_rod (f_rod G i) tl /\ (rod_has_state (k_type (f_rod F0 i)) = true -> holds G (FRl i) /\ holds G (FRa i) /\ exists s, nth_error (s_rods x) i = Some s /\ state_rod (f_rod G i) s)).
  match type of H with each ?ff _ _ = _ => destruct (each2 ff (fun G => pres (X6 F0) F G) P Q (seq 0 (f_nr F)) (seq_NoDup _ _)) with (F := F) (F' := F') as [A B] end; [|apply pres_refl|intros i _ Hi; now apply HLED|exact H|].
  - intros i G G' Hi HG HPi HE. apply seq_in in Hi. assert (WG := pres_wf _ _ _ HG W). assert (SG := shape_trans _ _ _ S0 (proj1 HG)).
    assert (Hi0 : (i < f_nr F0)%nat) by (destruct S0 as ((_ & N & _) & _); now rewrite <- N). specialize (HPi Hi0).
    assert (Hr : (i < f_nr G)%nat) by (destruct HG as (((_ & N & _) & _) & _); now rewrite N).
    assert (ET : k_type (f_rod G i) = k_type (f_rod F0 i)) by (destruct SG as (_ & _ & SR & _); apply (SR i)).
    destruct (rod_has_state (k_type (f_rod G i))) eqn:EL.
    2: { assert (G = G') by congruence. subst G'. split; [exact HG|]. split; [|tauto]. split; [exact HPi|]. rewrite ET in EL. intro Z. rewrite Z in EL. discriminate. }
    unfold vget in HE. destruct (nth_error (s_rods x) i) as [s|] eqn:EN; cbn [obind] in HE; [|discriminate].
    destruct (state_facts G i s G' WG Hr HE) as (P1 & P2 & PB & PP & P3 & P4 & P5 & P6).
    assert (SR : same_rod (f_rod G i) (f_rod G' i)) by (destruct P1 as ((_ & _ & Z & _) & _); apply Z).
    assert (HP : pres (X6 F0) G G').
    { destruct P1 as (Z1 & Z2 & Z3). split; [exact Z1|]. split; [exact Z2|]. intros y Hx Hf. destruct y as [d|j|j|j|d QQ|j QQ|j QQ]; try (apply Z3; [cbn [Xrod]; solve [auto]|exact Hf]).
      - intro Hd. apply (shape_real_c _ _ d Z1) in Hd. rewrite PB. destruct (Hf Hd) as (U1 & U2 & U3). split; [exact U1|]. split; [intros j rel Hj; rewrite PP; now apply U2|]. intros j rel Hj. destruct (Nat.eq_dec j i) as [->|Hn]; [|rewrite P2 by exact Hn; now apply U3].
        destruct (U3 i rel Hj) as (V1 & V2 & V3). destruct WG as (_ & _ & _ & _ & _ & _ & _ & W7 & _). destruct (W7 d i rel Hd Hj) as (_ & HT & _).
        assert (HN : k_type (f_rod G i) <> RodFree) by (destruct HT as [Z|Z]; rewrite Z; discriminate). destruct (P6 HN) as [Y1 Y2]. unfold car_rod. rewrite Y1, Y2. split; [exact V1|]. split; [exact V2|]. destruct SR as (T & _). rewrite T. intro Z. rewrite Z in EL. discriminate.
      - destruct (Nat.eq_dec j i) as [->|Hn]; [exact P4|apply Z3; [exact Hn|exact Hf]].
      - apply Z3; [|exact Hf]. cbn [Xrod]. intros ->. apply Hx. cbn [X6]. now rewrite <- ET. }
    assert (HV : k_ves (f_rod G' i) = k_ves (f_rod G i)) by (destruct HP as (_ & (_ & Z & _) & _); apply Z).
    split; [eapply pres_trans; eassumption|]. split.
    + unfold Q. split; [|intros _; split; [exact P3|split; [exact P4|exists s; now split]]]. unfold led_rod. destruct SR as (T & _). rewrite T, HV. destruct HPi as [L1 L2]. split; [intro Z; rewrite Z in EL; discriminate|]. intro Z. destruct P6 as [-> ->]; [rewrite Z; discriminate|]. now apply L2.
    + intros j Hj. split; [intros U Hj0; rewrite P2 by exact Hj; now apply U|]. intros [U1 U2]. split; [rewrite P2 by exact Hj; exact U1|]. intro HT. destruct (U2 HT) as (V1 & V2 & V3). split; [apply P1; [intro Z; exact Z|exact V1]|]. split; [apply P1; [exact Hj|exact V2]|]. rewrite P2 by exact Hj. exact V3.
  - split; [exact A|]. intros i Hi. apply B. apply seq_in. destruct S0 as ((_ & N & _) & _). now rewrite N.
Qed.

(* 8: the inner nodes of the lines *)
Lemma phase8 F0 x F F' : well_formed F -> shape F0 F ->
  each (fun i F => s <- vget (s_lines x) i ;; L <- MSys.line_set_state (f_line F i) s ;; Ok (put_line F i L)) (seq 0 (f_nl F)) F = Ok F' ->
  pres (fun _ => False) F F' /\ forall i, (i < f_nl F0)%nat -> exists s, nth_error (s_lines x) i = Some s /\
    forall j, (0 < j < lN (f_line F' i))%nat -> nth_error (pos s) (j - 1) = Some (lr (f_line F' i) j) /\ nth_error (vel s) (j - 1) = Some (lrd (f_line F' i) j).
Proof.
  intros W S0 H. set (Q := fun i G => exists s, nth_error (s_lines x) i = Some s /\
    forall j, (0 < j < lN (f_line G i))%nat -> nth_error (pos s) (j - 1) = Some (lr (f_line G i) j) /\ nth_error (vel s) (j - 1) = Some (lrd (f_line G i) j)).
  match type of H with each ?ff _ _ = _ => destruct (each2 ff (fun G => pres (fun _ => False) F G) (fun _ _ => True) Q (seq 0 (f_nl F)) (seq_NoDup _ _)) with (F := F) (F' := F') as [A B] end; [|apply pres_refl|trivial|exact H|].
  - intros i G G' Hi HG _ HE. apply seq_in in Hi. assert (WG := pres_wf _ _ _ HG W).
    unfold vget in HE. destruct (nth_error (s_lines x) i) as [s|] eqn:EN; cbn [obind] in HE; [|discriminate]. unfold MSys.line_set_state in HE. set (L := f_line G i) in *.
    destruct (Nat.eqb_spec (length (pos s)) (lN L - 1)) as [N1|N1]; cbn [negb orb] in HE; [|discriminate]. destruct (Nat.eqb_spec (length (vel s)) (lN L - 1)) as [N2|N2]; cbn [negb orb] in HE; [|discriminate]. cbn [obind] in HE.
    match type of HE with Ok (put_line _ _ ?l) = _ => set (L' := l) in * end. assert (EG : G' = put_line G i L') by congruence.
    assert (EE : forall ep, an_end ep -> end_same L L' ep).
    { intros ep He. unfold end_same, end_pos, end_vel, end_clamped, end_dir, end_node, L', MSys.set_inner. cbn -[Nat.ltb]. destruct He as [-> | ->]; cbn -[Nat.ltb]; [repeat split|]. rewrite (Nat.ltb_irrefl (lN L)), Bool.andb_false_r. repeat split. }
    assert (O : ends_only [] (f_line G) (f_line G')). { intros j ep He _. rewrite EG. cbn [put_line f_line]. destruct (Nat.eq_dec j i) as [->|Hj]; [rewrite fput_same; now apply EE|rewrite fput_other by exact Hj; repeat split]. }
    assert (HP : pres (fun _ => False) G G').
    { split; [|split; [rewrite EG; split; [destruct c; reflexivity|split; reflexivity]|]].
      - rewrite EG. split; [repeat split|]. split; [destruct c; repeat split|]. split; [repeat split|]. split; [repeat split|]. intro j. cbn. destruct (Nat.eq_dec j i) as [->|Hj]; [now rewrite fput_same|now rewrite fput_other].
      - assert (G1 : forall h, real_holder G h -> forall j ep, In (j, ep) (held G h) -> an_end ep /\ ~ In (j, ep) (@nil (nat * Z))). { intros h Hh j ep Hj. destruct WG as (_ & W1 & _). split; [apply (W1 h j ep Hh Hj)|intro Z; exact Z]. }
        intros y _ Hf. destruct y as [d|j|j|j|d QQ|j QQ|j QQ]; try (rewrite EG; exact Hf).
        + intro Hj. assert (Hj' : (j < f_np G)%nat) by (rewrite EG in Hj; exact Hj). assert (EP : f_pt G' = f_pt G) by (rewrite EG; reflexivity). rewrite EP. apply (point_other _ [] _ _ O); [exact (G1 (HPoint j) Hj')|now apply Hf].
        + intro Hj. assert (Hj' : (j < f_nr G)%nat) by (rewrite EG in Hj; exact Hj). assert (EP : f_rod G' = f_rod G) by (rewrite EG; reflexivity). rewrite EP. apply (rod_other _ [] _ _ O); [exact (G1 (HRod j) Hj')|now apply Hf]. }
    split; [eapply pres_trans; eassumption|]. split.
    + exists s. split; [exact EN|]. intros j. rewrite EG. cbn [put_line f_line]. rewrite fput_same. unfold L'. cbn -[Nat.ltb MSys.set_inner nth_error]. intro Hj. unfold MSys.set_inner. rewrite (proj2 (Nat.ltb_lt 0 j)), (proj2 (Nat.ltb_lt j (lN L))) by lia. cbn [andb]. split; apply nth_error_nth'; lia.
    + intros j Hj. split; [trivial|]. unfold Q. rewrite EG. cbn [put_line f_line]. rewrite fput_other by exact Hj. tauto.
  - split; [exact A|]. intros i Hi. apply B. apply seq_in. destruct S0 as ((_ & _ & _ & N) & _). now rewrite N.
Qed.

(* ----- a whole update ----- *)
Definition settled (F : full) : Prop := forall i, (i < f_nb F)%nat -> b_type (f_body F i) = BodyFixed -> done F (CBody i) F.
Definition everything (F : full) : Prop :=
  (forall c, holds F (FCar c)) /\ (forall i, holds F (FPt i)) /\ (forall i, holds F (FRl i)) /\ (forall i, holds F (FRa i)).
Lemma updated F0 t tl x F : well_formed F0 -> settled F0 -> upd_full opposed K F0 t tl x = Ok F -> shape F0 F /\ vsame F0 F /\ everything F /\ follows F tl x.
Proof.
  intros W0 HS H. unfold upd_full in H.
  destruct (ground_updateFairlead opposed K t F0) as [F1|e| |] eqn:E1; cbn [obind] in H; try discriminate. destruct (phase1 opposed K F0 t F0 F1 W0 (shape_refl _) E1) as (P1 & D1).
  assert (W1 := pres_wf _ _ _ P1 W0). assert (S1 := proj1 P1). cbn [obind] in H.
  match type of H with obind ?o _ = _ => destruct o as [F2|e| |] eqn:E2 end; cbn [obind] in H; try discriminate. destruct (phase2 opposed K F0 tl F1 F2 W1 S1 E2) as (P2 & D2). clear E2.
  assert (W2 := pres_wf _ _ _ P2 W1). assert (S2 := shape_trans _ _ _ S1 (proj1 P2)).
  match type of H with obind ?o _ = _ => destruct o as [F3|e| |] eqn:E3 end; cbn [obind] in H; try discriminate. destruct (phase3 K F0 tl F2 F3 W2 S2 E3) as (P3 & D3). clear E3.
  assert (W3 := pres_wf _ _ _ P3 W2). assert (S3 := shape_trans _ _ _ S2 (proj1 P3)).
  match type of H with obind ?o _ = _ => destruct o as [F4|e| |] eqn:E4 end; cbn [obind] in H; try discriminate. destruct (phase4 K F0 tl F3 F4 W3 S3 E4) as (P4 & D4). clear E4.
  assert (W4 := pres_wf _ _ _ P4 W3). assert (S4 := shape_trans _ _ _ S3 (proj1 P4)).
  match type of H with obind ?o _ = _ => destruct o as [F5|e| |] eqn:E5 end; cbn [obind] in H; try discriminate.
  assert (LB4 : forall i, (i < f_nb F0)%nat -> led_body (f_body F4 i) tl).
  { intros i Hi. assert (Z : holds F4 (FCarV (CBody i) (fun b => led_body b tl))); [|exact Z]. apply P4; [intro Z; exact Z|]. apply P3; [intro Z; exact Z|]. apply (D2 i Hi). }
  destruct (phase5 opposed K F0 tl x F4 F5 W4 S4 LB4 E5) as (P5 & D5). clear E5.
  assert (W5 := pres_wf _ _ _ P5 W4). assert (S5 := shape_trans _ _ _ S4 (proj1 P5)).
  match type of H with obind ?o _ = _ => destruct o as [F6|e| |] eqn:E6 end; cbn [obind] in H; try discriminate.
  assert (LR5 : forall i, (i < f_nr F0)%nat -> led_rod (f_rod F5 i) tl).
  { intros i Hi. assert (T : k_type (f_rod F5 i) = k_type (f_rod F0 i)) by (destruct S5 as (_ & _ & Z & _); apply Z).
    destruct (rod_is_led (k_type (f_rod F0 i))) eqn:EL; [|split; intro Z; rewrite T in Z; rewrite Z in EL; discriminate].
    assert (Z : holds F5 (FRodV i (fun k => led_rod k tl))); [|exact Z]. apply P5; [intros [[_ [Z|Z]]|Z]; [rewrite Z in EL; discriminate|rewrite Z in EL; discriminate|exact Z]|]. apply P4; [intro Z; exact Z|]. apply (D3 i Hi). }
  destruct (phase6 F0 tl x F5 F6 W5 S5 LR5 E6) as (P6 & D6). clear E6.
  assert (W6 := pres_wf _ _ _ P6 W5). assert (S6 := shape_trans _ _ _ S5 (proj1 P6)).
  match type of H with obind ?o _ = _ => destruct o as [F7|e| |] eqn:E7 end; cbn [obind] in H; try discriminate. destruct (phase7 K F0 x F6 F7 W6 S6 E7) as (P7 & D7). clear E7.
  assert (W7 := pres_wf _ _ _ P7 W6). assert (S7 := shape_trans _ _ _ S6 (proj1 P7)).
  destruct (phase8 F0 x F7 F W7 S7 H) as (P8 & D8). clear H E1.
  assert (S8 := shape_trans _ _ _ S7 (proj1 P8)).
  (* what the phases do not break *)
  assert (C78 : forall c G, G = F6 -> holds G (FCar c) -> holds F (FCar c)). { intros c G -> Z. apply P8; [tauto|]. apply P7; [cbn; tauto|exact Z]. }
  assert (K6 : forall y, (match y with FPtV _ _ | FRodV _ _ | FCarV _ _ => False | _ => True end) -> holds F6 y -> holds F y).
  { intros y Hy Z. apply P8; [tauto|]. apply P7; [destruct y; cbn; tauto|exact Z]. }
  assert (K5 : forall y, (match y with FPtV _ _ | FRodV _ _ | FCarV _ _ => False | _ => True end) -> holds F5 y -> holds F y).
  { intros y Hy Z. apply K6; [exact Hy|]. apply P6; [destruct y; cbn; tauto|exact Z]. }
  assert (K4 : forall y, (match y with FPtV _ _ | FRodV _ _ | FCarV _ _ => False | FRa i => k_type (f_rod F0 i) <> RodPinned | _ => True end) -> holds F4 y -> holds F y).
  { intros y Hy Z. apply K5; [destruct y; tauto|]. apply P5; [unfold X5, Xd; destruct y; try tauto|exact Z]. }
  assert (K3 : forall y, (match y with FPtV _ _ | FRodV _ _ | FCarV _ _ => False | FRa i => k_type (f_rod F0 i) <> RodPinned | _ => True end) -> holds F3 y -> holds F y).
  { intros y Hy Z. apply K4; [exact Hy|]. apply P4; [destruct y; cbn; tauto|exact Z]. }
  assert (K2 : forall y, (match y with FPtV _ _ | FRodV _ _ | FCarV _ _ => False | FRa i => k_type (f_rod F0 i) <> RodPinned /\ k_type (f_rod F0 i) <> RodCpldPin | _ => True end) -> holds F2 y -> holds F y).
  { intros y Hy Z. apply K3; [destruct y; tauto|]. apply P3; [destruct y; cbn; tauto|exact Z]. }
  assert (K1 : forall y, (match y with FPtV _ _ | FRodV _ _ | FCarV _ _ => False | FRa i => k_type (f_rod F0 i) = RodFixed | FCar (CBody i) => b_type (f_body F0 i) <> BodyCpldPin | _ => True end) -> holds F1 y -> holds F y).
  { intros y Hy Z. apply K2; [destruct y; try tauto; rewrite Hy; split; discriminate|]. apply P2; [|exact Z]. unfold X2, Xd. destruct y as [[|j]|j|j|j|d QQ|j QQ|j QQ]; try tauto. intros [U|U]; [congruence|exact U]. }
  assert (K0 : forall y, (match y with FPtV _ _ | FRodV _ _ | FCarV _ _ => False | FRa i => k_type (f_rod F0 i) = RodFixed | FCar (CBody i) => b_type (f_body F0 i) <> BodyCpldPin | _ => True end) -> holds F0 y -> holds F y).
  { intros y Hy Z. apply K1; [exact Hy|]. apply P1; [|exact Z]. unfold Xm, Xd. destruct y as [[|j]|j|j|j|d QQ|j QQ|j QQ]; try tauto. intros [U|U]; [congruence|exact U]. }
  (* all carriers are done *)
  assert (DN : forall c, real_carrier F0 c -> done F0 c F).
  { intros c Hc. destruct c as [|i].
    - destruct D1 as (A1 & A2 & A3). split; [apply K1; [exact Logic.I|exact A1]|]. split; [intros j rel Hj; apply K1; [exact Logic.I|exact (A2 j rel Hj)]|]. intros j rel Hj HT. destruct (A3 j rel Hj HT) as [B1 B2]. split; apply K1; [exact Logic.I|exact B1|exact HT|exact B2].
    - cbn in Hc. destruct (b_type (f_body F0 i)) eqn:ET.
      + destruct (D5 i Hc) as (_ & A). rewrite ET in A. destruct (A eq_refl) as ((A1 & A2 & A3) & _). split; [apply K5; [exact Logic.I|exact A1]|]. split; [intros j rel Hj; apply K5; [exact Logic.I|exact (A2 j rel Hj)]|]. intros j rel Hj HT. destruct (A3 j rel Hj HT) as [B1 B2]. split; apply K5; [exact Logic.I|exact B1|exact Logic.I|exact B2].
      + destruct (HS i Hc ET) as (A1 & A2 & A3). split; [apply K0; [rewrite ET; discriminate|exact A1]|]. split; [intros j rel Hj; apply K0; [exact Logic.I|exact (A2 j rel Hj)]|]. intros j rel Hj HT. destruct (A3 j rel Hj HT) as [B1 B2]. split; apply K0; [exact Logic.I|exact B1|exact HT|exact B2].
      + destruct (D2 i Hc) as (_ & A). destruct (A ET) as (A1 & A2 & A3). split; [apply K2; [exact Logic.I|exact A1]|]. split; [intros j rel Hj; apply K2; [exact Logic.I|exact (A2 j rel Hj)]|]. intros j rel Hj HT. destruct (A3 j rel Hj HT) as [B1 B2]. split; apply K2; [exact Logic.I|exact B1|rewrite HT; split; discriminate|exact B2].
      + destruct (D5 i Hc) as (_ & A). rewrite ET in A. destruct (A eq_refl) as ((A1 & A2 & A3) & _). split; [apply K5; [exact Logic.I|exact A1]|]. split; [intros j rel Hj; apply K5; [exact Logic.I|exact (A2 j rel Hj)]|]. intros j rel Hj HT. destruct (A3 j rel Hj HT) as [B1 B2]. split; apply K5; [exact Logic.I|exact B1|exact Logic.I|exact B2]. }
  assert (TYP : forall i, k_type (f_rod F i) = k_type (f_rod F0 i) /\ k_n (f_rod F i) = k_n (f_rod F0 i)) by (intro i; destruct S8 as (_ & _ & Z & _); destruct (Z i) as (A & B & _); now split).
  pose proof W0 as (_ & _ & _ & _ & _ & _ & CP & _ & _ & CR).
  assert (RODS : forall i, (i < f_nr F0)%nat -> holds F (FRl i) /\ holds F (FRa i)).
  { intros i Hi. destruct (k_type (f_rod F0 i)) eqn:ET.
    - destruct (D6 i Hi) as (_ & A). rewrite ET in A. destruct (A eq_refl) as (A1 & A2 & _). split; apply K6; try exact Logic.I; assumption.
    - destruct (D6 i Hi) as (_ & A). rewrite ET in A. destruct (A eq_refl) as (A1 & A2 & _). split; apply K6; try exact Logic.I; assumption.
    - destruct (CR i Hi (or_introl ET)) as (c & rel & Hc & Hr). destruct (DN c Hc) as (_ & _ & A). exact (A i rel Hr ET).
    - destruct (D3 i Hi) as (_ & A). destruct (A ET) as (A1 & A2). split; apply K3; try exact Logic.I; try assumption. rewrite ET. discriminate.
    - destruct (D6 i Hi) as (_ & A). rewrite ET in A. destruct (A eq_refl) as (A1 & A2 & _). split; apply K6; try exact Logic.I; assumption. }
  pose proof S8 as ((N1 & N2 & N3 & N4) & SB & SR & SP & SL).
  assert (EV : everything F).
  { split; [|split; [|split]].
    - intros c Hc. apply (DN c); [apply (shape_real_c _ _ c S8); exact Hc|exact Hc].
    - intros i Hi. rewrite N3 in Hi. assert (Z : holds F (FPt i)); [|apply Z; rewrite N3; exact Hi]. destruct (q_type (f_pt F0 i)) eqn:ET.
      + destruct (D4 i Hi ET) as (_ & A). apply K4; [exact Logic.I|exact A].
      + destruct (D7 i Hi ET) as (_ & A). apply P8; [tauto|exact A].
      + destruct (CP i Hi ET) as (c & rel & Hc & Hr). destruct (DN c Hc) as (_ & A & _). exact (A i rel Hr).
    - intros i Hi. pose proof Hi as Hi'. rewrite N2 in Hi'. exact (proj1 (RODS i Hi') Hi).
    - intros i Hi. pose proof Hi as Hi'. rewrite N2 in Hi'. exact (proj2 (RODS i Hi') Hi). }
  split; [exact S8|]. split; [exact (vsame_trans _ _ _ (proj1 (proj2 P1)) (vsame_trans _ _ _ (proj1 (proj2 P2)) (vsame_trans _ _ _ (proj1 (proj2 P3)) (vsame_trans _ _ _ (proj1 (proj2 P4)) (vsame_trans _ _ _ (proj1 (proj2 P5)) (vsame_trans _ _ _ (proj1 (proj2 P6)) (vsame_trans _ _ _ (proj1 (proj2 P7)) (proj1 (proj2 P8)))))))))|].
  split; [exact EV|].
  assert (B58 : forall i Q, holds F5 (FCarV (CBody i) Q) -> Q (f_body F i)). { intros i Q Z. assert (Z' : holds F (FCarV (CBody i) Q)); [|exact Z']. apply P8; [tauto|]. apply P7; [cbn; tauto|]. apply P6; [cbn; tauto|exact Z]. }
  assert (R68 : forall i Q, holds F6 (FRodV i Q) -> Q (f_rod F i)). { intros i Q Z. assert (Z' : holds F (FRodV i Q)); [|exact Z']. apply P8; [tauto|]. apply P7; [cbn; tauto|exact Z]. }
  assert (LR : forall i, (i < f_nr F0)%nat -> led_rod (f_rod F i) tl) by (intros i Hi; apply (R68 i (fun k => led_rod k tl)); apply (D6 i Hi)).
  assert (LB : forall i, (i < f_nb F0)%nat -> led_body (f_body F i) tl) by (intros i Hi; apply (B58 i (fun b => led_body b tl)); apply (D5 i Hi)).
  assert (ST : forall i, (i < f_nr F0)%nat -> forall s, nth_error (s_rods x) i = Some s -> rod_has_state (k_type (f_rod F0 i)) = true -> state_rod (f_rod F i) s).
  { intros i Hi s Hs HT. apply (R68 i (fun k => state_rod k s)). destruct (D6 i Hi) as (_ & A). destruct (A HT) as (_ & _ & s' & A1 & A2). assert (s' = s) by congruence. subst s'. exact A2. }
  split; [|split; [|split; [|split; [|split; [|split]]]]].
  - intros i s Hi Hs. rewrite N1 in Hi. cbv zeta. assert (T : b_type (f_body F i) = b_type (f_body F0 i)) by apply (SB (CBody i)).
    destruct (b_type (f_body F i)) eqn:ET; try exact Logic.I; destruct (D5 i Hi) as (_ & A); rewrite <- T in A; destruct (A eq_refl) as (_ & s' & A1 & A2); assert (s' = s) by congruence; subst s';
      assert (Z : state_body (f_body F i) s) by (apply (B58 i (fun b => state_body b s)); exact A2); unfold state_body in Z; rewrite ET in Z; [exact Z|].
    destruct Z as [Z1 Z2]. destruct (LB i Hi) as [_ L2]. destruct (L2 ET) as [L3 L4]. split; [rewrite <- L3, <- Z1; destruct (b_r7 (f_body F i)); reflexivity|rewrite <- L4, <- Z2; destruct (b_v6 (f_body F i)); reflexivity].
  - intros i Hi. rewrite N1 in Hi. cbv zeta. apply (LB i Hi).
  - intros i s Hi Hs. pose proof Hi as Hi'. rewrite N2 in Hi. cbv zeta. destruct (TYP i) as [T TN]. destruct (proj2 (RODS i Hi) Hi') as [A1 A2]. pose proof (proj1 (RODS i Hi) Hi') as [_ L].
    split.
    + destruct (k_type (f_rod F i)) eqn:ET; try exact Logic.I.
      * destruct (ST i Hi s Hs) as [Z _]; [rewrite <- T; reflexivity|]. destruct (Z ET) as [Z1 Z2]. split; congruence.
      * destruct (LR i Hi) as [_ L2]. destruct (L2 ET) as [L3 L4]. split; congruence.
    + intros HT HN. assert (HH : rod_has_state (k_type (f_rod F0 i)) = true) by (rewrite <- T; destruct HT as [Z|[Z|Z]]; rewrite Z; reflexivity). destruct (ST i Hi s Hs HH) as [_ Z]. destruct (Z HN) as [Z1 Z2].
      destruct (Nat.eqb_spec (k_n (f_rod F i)) 0); [lia|]. destruct L as [L _]. rewrite L, Z1. split; [reflexivity|exact Z2].
  - intros i Hi. pose proof Hi as Hi'. rewrite N2 in Hi. cbv zeta. intro ET. destruct (proj2 (RODS i Hi) Hi') as [A1 A2]. pose proof (proj1 (RODS i Hi) Hi') as [_ L]. destruct (LR i Hi) as [L1 _]. destruct (L1 ET) as [L3 L4].
    split; [rewrite A1, L3; reflexivity|]. split; [exact L4|]. split; [exact A2|]. intro HN. destruct (Nat.eqb_spec (k_n (f_rod F i)) 0); [lia|]. destruct L as [L _]. rewrite L, L3. unfold fromVec6. cbn [xq_quat]. now rewrite fairlead_or.
  - intros i s Hi Hs ET. rewrite N3 in Hi. assert (T : q_type (f_pt F i) = q_type (f_pt F0 i)) by apply (SP i). destruct (D7 i Hi) as ((s' & A1 & A2 & A3) & _); [congruence|]. assert (s' = s) by congruence. subst s'.
    assert (Z : holds F (FPtV i (fun p => q_r p = pos s /\ q_rd p = vel s))); [|exact Z]. apply P8; [tauto|]. now split.
  - intros i Hi ET. rewrite N3 in Hi. assert (T : q_type (f_pt F i) = q_type (f_pt F0 i)) by apply (SP i). rewrite T in ET. destruct (D4 i Hi ET) as (A & _).
    assert (Z : holds F (FPtV i (fun p => led_pt p tl))); [|apply Z; congruence]. apply P8; [tauto|]. apply P7; [cbn; congruence|]. apply P6; [cbn; tauto|]. apply P5; [intros [[_ Z]|Z]; [congruence|exact Z]|exact A].
  - intros i s j Hi Hs Hj. rewrite N4 in Hi. destruct (D8 i Hi) as (s' & A1 & A2). assert (s' = s) by congruence. subst s'. now apply A2.
Qed.
End Update.
