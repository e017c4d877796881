(** Proofs about whole systems (MFull): an update of a well formed system with a state that fits it succeeds *)
From Coq Require Import Reals List Lra Lia Arith ZArith.
From Verif Require Import MErr MVec MStateOps MMat MInterp MLine MRod MBody MEnd MRodS MScheme MFull SMat SLine SRod SRodS PMat PEuler PLine PRod PRodB PRodC PEnd PEndB PRodS PRate PInterp PScheme SEnd SFull PFull PFullB PFullC PFullD.
From Verif Require MSys.
Import ListNotations.
Open Scope R_scope.

Lemma vget_nth {A} (l : list A) i x : nth_error l i = Some x -> vget l i = Ok x. Proof. unfold vget. now intros ->. Qed.
Lemma body_shape F c b' : same_body (the_body F c) b' -> shape F (put_car F c b').
Proof.
  intro HS. split; [destruct c; repeat split|]. split; [|destruct c; repeat split]. intro d. destruct (car_dec d c) as [->|Hd]; [rewrite put_car_same; exact HS|rewrite put_car_other by exact Hd; repeat split].
Qed.
Lemma rod_shape F i k' ls : same_rod (f_rod F i) k' -> (forall j, lN (ls j) = lN (f_line F j)) -> shape F (put_rod F i k' ls).
Proof.
  intros HS HL. split; [repeat split|]. split; [destruct c; repeat split|]. split; [|split; [repeat split|exact HL]]. intro j. cbn. destruct (Nat.eq_dec j i) as [->|Hj]; [rewrite fput_same; exact HS|rewrite fput_other by exact Hj; repeat split].
Qed.

Section Total.
Variable opposed : v3 -> v3 -> quat.
Variable K : nat -> Z -> R.
Variable F0 : full.
Hypothesis W0 : well_formed F0.
Hypothesis N0 : forall i, (i < f_nr F0)%nat -> (0 < k_n (f_rod F0 i))%nat.
Let ok (o : outcome full) : Prop := exists G, o = Ok G /\ shape F0 G.

Lemma each_ok f l : forall F, shape F0 F -> (forall i G, In i l -> shape F0 G -> ok (f i G)) -> ok (each f l F).
Proof.
  induction l as [|i l IH]; intros F S H; cbn [each]; [exists F; now split|]. destruct (H i F (or_introl eq_refl) S) as (G & -> & SG). cbn [obind]. apply IH; [exact SG|]. intros j G' Hj. apply H. now right.
Qed.
Lemma point_ok F i r rd : shape F0 F -> (i < f_np F0)%nat -> ok (point_to i r rd F).
Proof.
  intros S Hi. assert (W := wf_shape _ _ S W0). assert (Hi' : (i < f_np F)%nat) by (destruct S as ((_ & _ & N & _) & _); now rewrite N).
  destruct (point_to i r rd F) as [G|e| |] eqn:E; [exists G; split; [reflexivity|]; exact (shape_trans _ _ _ S (proj1 (proj1 (pt_moves F i r rd G W Hi' E))))| | |];
  exfalso; unfold point_to in E; cbv zeta in E;
  (destruct (pass_kin (q_att (f_pt F i)) r rd (f_line F)) as (ls & E1 & _); [intros j ep Hj; destruct W as (_ & W1 & _); destruct (W1 (HPoint i) j ep Hi' Hj) as (_ & A & B); now split|]; rewrite E1 in E; discriminate).
Qed.
Lemma dep_ok F i k : shape F0 F -> (i < f_nr F0)%nat -> same_rod (f_rod F i) k -> exists k' ls, rod_dependent K k (f_line F) = Ok (k', ls) /\ same_rod (f_rod F i) k' /\ forall j, lN (ls j) = lN (f_line F j).
Proof.
  intros S Hi HS. assert (W := wf_shape _ _ S W0). assert (Hi' : (i < f_nr F)%nat) by (destruct S as ((_ & N & _) & _); now rewrite N).
  assert (HN : (0 < k_n k)%nat) by (destruct S as (_ & _ & SR & _); destruct (SR i) as (_ & X & _); destruct HS as (_ & Y & _); rewrite Y, X; now apply N0).
  assert (HP : proper (k_attA k) (k_attB k) (f_line F)).
  { destruct HS as (_ & _ & _ & _ & S5 & S6). rewrite S5, S6. destruct W as (_ & W1 & _ & W3 & _). split; [|exact (W3 (HRod i) Hi')]. intros j ep Hj. destruct (W1 (HRod i) j ep Hi' Hj) as (_ & A & B). now split. }
  destruct (rod_dependent K k (f_line F)) as [[k' ls]|e| |] eqn:E.
  - exists k', ls. split; [reflexivity|]. destruct (dep_facts K F i k ls k' W Hi' HS E) as (q & EK & _ & O & _). split; [|intro j; apply (proj1 O j)]. rewrite EK. destruct HS as (X1 & X2 & X3 & X4 & X5 & X6). repeat split; assumption.
  - exfalso. unfold rod_dependent in E. cbv zeta in E. match type of E with obind (setDependentStates K ?d _) _ = _ => destruct (long_rod K d (f_line F) HP HN) as (ls' & E1) end. rewrite E1 in E. discriminate.
  - exfalso. unfold rod_dependent in E. cbv zeta in E. match type of E with obind (setDependentStates K ?d _) _ = _ => destruct (long_rod K d (f_line F) HP HN) as (ls' & E1) end. rewrite E1 in E. discriminate.
  - exfalso. unfold rod_dependent in E. cbv zeta in E. match type of E with obind (setDependentStates K ?d _) _ = _ => destruct (long_rod K d (f_line F) HP HN) as (ls' & E1) end. rewrite E1 in E. discriminate.
Qed.
Lemma put_ok F i k ls : shape F0 F -> same_rod (f_rod F i) k -> (forall j, lN (ls j) = lN (f_line F j)) -> shape F0 (put_rod F i k ls).
Proof. intros S A B. exact (shape_trans _ _ _ S (rod_shape F i k ls A B)). Qed.
Lemma kin_ok F i r rd : shape F0 F -> (i < f_nr F0)%nat -> k_type (f_rod F0 i) = RodFixed \/ k_type (f_rod F0 i) = RodPinned -> ok (on_rod i F (rod_setKinematics opposed K (f_rod F i) r rd (f_line F))).
Proof.
  intros S Hi HT. assert (ET : k_type (f_rod F i) = k_type (f_rod F0 i)) by (destruct S as (_ & _ & SR & _); apply (SR i)). rewrite <- ET in HT. unfold on_rod, rod_setKinematics. destruct HT as [HT|HT]; rewrite HT.
  - match goal with |- context [rod_dependent K ?k _] => destruct (dep_ok F i k S Hi ltac:(repeat split)) as (k' & ls & E & A & B) end. rewrite E. cbn [obind fst snd]. eexists. split; [reflexivity|]. apply put_ok; [exact S| |exact B]. destruct A as (X1 & X2 & X3 & X4 & X5 & X6). repeat split; assumption.
  - cbn [obind fst snd]. eexists. split; [reflexivity|]. apply put_ok; [exact S|repeat split|reflexivity].
Qed.
Lemma pts_ok Or p v a : forall F, shape F0 F -> (forall i rel, In (i, rel) a -> (i < f_np F0)%nat /\ q_type (f_pt F0 i) = PFixed) -> ok (dep_points a Or p v F).
Proof.
  induction a as [|[i rel] t IH]; intros F S H; cbn [dep_points]; [exists F; now split|]. cbv zeta. destruct (H i rel (or_introl eq_refl)) as [Hi HT].
  unfold point_setKinematics. assert (ET : q_type (f_pt F i) = q_type (f_pt F0 i)) by (destruct S as (_ & _ & _ & SP & _); apply (SP i)). rewrite ET, HT.
  destruct (point_ok F i (fst (body_point Or p v rel)) (snd (body_point Or p v rel)) S Hi) as (G & -> & SG). cbn [obind]. apply IH; [exact SG|]. intros j rel' Hj. apply (H j rel'). now right.
Qed.
Lemma rods_ok Or p v a : forall F, shape F0 F -> (forall i rel, In (i, rel) a -> (i < f_nr F0)%nat /\ (k_type (f_rod F0 i) = RodFixed \/ k_type (f_rod F0 i) = RodPinned)) -> ok (dep_rods opposed K a Or p v F).
Proof.
  induction a as [|[i rel] t IH]; intros F S H; cbn [dep_rods]; [exists F; now split|]. cbv zeta. destruct (H i rel (or_introl eq_refl)) as [Hi HT].
  destruct (kin_ok F i (fst (body_rod Or p v rel)) (snd (body_rod Or p v rel)) S Hi HT) as (G & -> & SG). cbn [obind]. apply IH; [exact SG|]. intros j rel' Hj. apply (H j rel'). now right.
Qed.
Lemma deps_ok F c b : shape F0 F -> real_carrier F0 c -> same_body (the_body F0 c) b -> ok (body_dependents opposed K b F).
Proof.
  intros S Hc (_ & B1 & B2). unfold body_dependents. pose proof W0 as (_ & _ & _ & _ & W4 & _ & _ & W7 & _).
  destruct (pts_ok (b_or b) (xq_pos (b_r7 b)) (b_v6 b) (b_pts b) F S) as (G & -> & SG); [intros i rel Hi; rewrite B1 in Hi; exact (W4 c i rel Hc Hi)|]. cbn [obind].
  apply rods_ok; [exact SG|]. intros i rel Hi. rewrite B2 in Hi. destruct (W7 c i rel Hc Hi) as (X & Y & _). now split.
Qed.
Lemma same_body_trans a b c : same_body a b -> same_body b c -> same_body a c. Proof. intros (A1 & A2 & A3) (B1 & B2 & B3). repeat split; congruence. Qed.
Lemma led_ok F c time : shape F0 F -> real_carrier F0 c -> b_type (the_body F0 c) <> BodyFree ->
  ok (bd <- body_led (the_body F c) time ;; let F := put_car F c (fst bd) in if snd bd then body_dependents opposed K (fst bd) F else Ok F).
Proof.
  intros S Hc HT. pose proof S as (_ & SB & _). pose proof (SB c) as HB. assert (ET : b_type (the_body F c) = b_type (the_body F0 c)) by apply HB.
  assert (G : forall b', same_body (the_body F c) b' -> ok (body_dependents opposed K b' (put_car F c b')) /\ shape F0 (put_car F c b')).
  { intros b' Hb. assert (SS : shape F0 (put_car F c b')) by exact (shape_trans _ _ _ S (body_shape F c b' Hb)). split; [|exact SS]. apply (deps_ok _ c); [exact SS|exact Hc|exact (same_body_trans _ _ _ HB Hb)]. }
  unfold body_led. destruct (b_ves (the_body F c)) as [[r rd] rdd]. destruct (b_type (the_body F c)) eqn:EB; [congruence| | |]; cbn [obind fst snd]; cbv zeta.
  - apply G. repeat split.
  - apply G. repeat split.
  - eexists. split; [reflexivity|]. apply G. repeat split.
Qed.
Lemma update_ok t tl x :
  (forall i, (i < f_nb F0)%nat -> exists s, nth_error (s_bodies x) i = Some s) -> (forall i, (i < f_nr F0)%nat -> exists s, nth_error (s_rods x) i = Some s) ->
  (forall i, (i < f_np F0)%nat -> exists s, nth_error (s_points x) i = Some s) ->
  (forall i, (i < f_nl F0)%nat -> exists s, nth_error (s_lines x) i = Some s /\ length (pos s) = (lN (f_line F0 i) - 1)%nat /\ length (vel s) = (lN (f_line F0 i) - 1)%nat) ->
  ok (upd_full opposed K F0 t tl x).
Proof.
  intros XB XR XP XL. unfold upd_full. pose proof (shape_refl F0) as S0.
  destruct (led_ok F0 CGround t S0 Logic.I) as (F1 & E1 & S1). { destruct W0 as (Z & _). cbn. rewrite Z. discriminate. }
  unfold ground_updateFairlead. cbn [the_body put_car] in E1. rewrite E1. cbn [obind]. clear E1.
  assert (NB : forall G, shape F0 G -> f_nb G = f_nb F0 /\ f_nr G = f_nr F0 /\ f_np G = f_np F0 /\ f_nl G = f_nl F0) by (intros G (X & _); tauto).
  assert (TB : forall G i, shape F0 G -> b_type (f_body G i) = b_type (f_body F0 i)) by (intros G i (_ & X & _); apply (X (CBody i))).
  assert (TR : forall G i, shape F0 G -> k_type (f_rod G i) = k_type (f_rod F0 i)) by (intros G i (_ & _ & X & _); apply (X i)).
  assert (TP : forall G i, shape F0 G -> q_type (f_pt G i) = q_type (f_pt F0 i)) by (intros G i (_ & _ & _ & X & _); apply (X i)).
  match goal with |- ok (obind (each ?f ?l ?F) _) => destruct (each_ok f l F S1) as (F2 & E2 & S2) end.
  { intros i G Hi SG. apply seq_in in Hi. rewrite (proj1 (NB _ S1)) in Hi. destruct (is_led (b_type (f_body G i))) eqn:EL; [|exists G; now split].
    unfold body_updateFairlead. apply (led_ok G (CBody i) tl SG Hi). cbn. rewrite <- (TB G i SG). intro Z. rewrite Z in EL. discriminate. }
  rewrite E2. cbn [obind]. clear E2.
  match goal with |- ok (obind (each ?f ?l ?F) _) => destruct (each_ok f l F S2) as (F3 & E3 & S3) end.
  { intros i G Hi SG. apply seq_in in Hi. rewrite (proj1 (proj2 (NB _ S2))) in Hi. destruct (rod_is_led (k_type (f_rod G i))) eqn:EL; [|exists G; now split].
    unfold on_rod, rod_updateFairlead. destruct (k_ves (f_rod G i)) as [[r rd] rdd]. destruct (k_type (f_rod G i)) eqn:ET; cbn in EL; try discriminate.
    - match goal with |- context [rod_dependent K ?k _] => destruct (dep_ok G i k SG Hi ltac:(repeat split)) as (k' & ls & E & A & B) end. rewrite E. cbn [obind fst snd]. eexists. split; [reflexivity|]. now apply put_ok.
    - cbn [obind fst snd]. eexists. split; [reflexivity|]. apply put_ok; [exact SG|repeat split|reflexivity]. }
  rewrite E3. cbn [obind]. clear E3.
  match goal with |- ok (obind (each ?f ?l ?F) _) => destruct (each_ok f l F S3) as (F4 & E4 & S4) end.
  { intros i G Hi SG. apply seq_in in Hi. rewrite (proj1 (proj2 (proj2 (NB _ S3)))) in Hi. destruct (q_type (f_pt G i)) eqn:ET; try (exists G; now split).
    unfold point_updateFairlead. destruct (q_ves (f_pt G i)) as [r rd]. rewrite ET. now apply point_ok. }
  rewrite E4. cbn [obind]. clear E4.
  match goal with |- ok (obind (each ?f ?l ?F) _) => destruct (each_ok f l F S4) as (F5 & E5 & S5) end.
  { intros i G Hi SG. apply seq_in in Hi. rewrite (proj1 (NB _ S4)) in Hi. destruct (has_state (b_type (f_body G i))) eqn:EL; [|exists G; now split].
    destruct (XB i Hi) as [s Hs]. rewrite (vget_nth _ _ _ Hs). cbn [obind]. unfold body_setState. pose proof SG as (_ & SB & _). pose proof (SB (CBody i)) as HB. cbn [the_body] in HB.
    assert (GG : forall b', same_body (f_body G i) b' -> ok (body_dependents opposed K b' (put_body G i b'))).
    { intros b' Hb. apply (deps_ok _ (CBody i)); [exact (shape_trans _ _ _ SG (body_shape G (CBody i) b' Hb))|exact Hi|exact (same_body_trans _ _ _ HB Hb)]. }
    destruct (b_type (f_body G i)) eqn:ET; cbn in EL; try discriminate; cbn [obind]; apply GG; repeat split. }
  rewrite E5. cbn [obind]. clear E5.
  match goal with |- ok (obind (each ?f ?l ?F) _) => destruct (each_ok f l F S5) as (F6 & E6 & S6) end.
  { intros i G Hi SG. apply seq_in in Hi. rewrite (proj1 (proj2 (NB _ S5))) in Hi. destruct (rod_has_state (k_type (f_rod G i))) eqn:EL; [|exists G; now split].
    destruct (XR i Hi) as [s Hs]. rewrite (vget_nth _ _ _ Hs). cbn [obind]. unfold on_rod, rod_setState.
    assert (GG : forall k1, same_rod (f_rod G i) k1 -> ok (kl <- (res <- rod_dependent K k1 (f_line G) ;; let k2 := fst res in
       let k3 := if Nat.eqb (k_n k2) 0 then with_motion k2 (XQ (xq_pos (k_r7 k2)) qident) (V6 (v6hd (k_v6 k2)) vzero) (k_acc k2) else k2 in
       Ok (with_q k3 (rod_dir k3), snd res)) ;; Ok (put_rod G i (fst kl) (snd kl)))).
    { intros k1 H1. destruct (dep_ok G i k1 SG Hi H1) as (k' & ls & E & A & B). rewrite E. cbn [obind fst snd]. cbv zeta. eexists. split; [reflexivity|]. apply put_ok; [exact SG| |exact B].
      destruct A as (X1 & X2 & X3 & X4 & X5 & X6). destruct (Nat.eqb (k_n k') 0); repeat split; assumption. }
    destruct (k_type (f_rod G i)) eqn:ET; cbn in EL; try discriminate; cbn [obind]; apply GG; repeat split. }
  rewrite E6. cbn [obind]. clear E6.
  match goal with |- ok (obind (each ?f ?l ?F) _) => destruct (each_ok f l F S6) as (F7 & E7 & S7) end.
  { intros i G Hi SG. apply seq_in in Hi. rewrite (proj1 (proj2 (proj2 (NB _ S6)))) in Hi. destruct (q_type (f_pt G i)) eqn:ET; try (exists G; now split).
    destruct (XP i Hi) as [s Hs]. rewrite (vget_nth _ _ _ Hs). cbn [obind]. unfold point_setState. rewrite ET. now apply point_ok. }
  rewrite E7. cbn [obind]. clear E7.
  apply each_ok; [exact S7|]. intros i G Hi SG. apply seq_in in Hi. rewrite (proj2 (proj2 (proj2 (NB _ S7)))) in Hi.
  destruct (XL i Hi) as (s & Hs & H1 & H2). rewrite (vget_nth _ _ _ Hs). cbn [obind]. unfold MSys.line_set_state. pose proof SG as (_ & _ & _ & _ & SL). rewrite <- SL in H1, H2. rewrite H1, H2, Nat.eqb_refl. cbn [negb orb obind].
  eexists. split; [reflexivity|]. destruct SG as (Z1 & Z2 & Z3 & Z4 & Z5). split; [exact Z1|]. split; [exact Z2|]. split; [exact Z3|]. split; [exact Z4|]. intro j. cbn. destruct (Nat.eq_dec j i) as [->|Hj]; [rewrite fput_same; exact (Z5 i)|rewrite fput_other by exact Hj; apply Z5].
Qed.
End Total.
