(** Proofs about whole systems (MFull): everything attached stays with what it is attached to *)
From Coq Require Import Reals List Lra Lia Arith ZArith.
From Verif Require Import MErr MVec MStateOps MMat MInterp MLine MRod MBody MEnd MRodS MFull SMat SLine SRod SRodS PMat PEuler PLine PRod PRodB PRodC PEnd PEndB PRodS PRate SEnd SFull.
From Verif Require MSys.
Import ListNotations.
Open Scope R_scope.

(* ----- shapes ----- *)
Lemma shape_refl F : shape F F. Proof. repeat split. Qed.
Lemma shape_trans F G H : shape F G -> shape G H -> shape F H.
Proof.
  intros ((A1 & A2 & A3 & A4) & A5 & A6 & A7 & A8) ((B1 & B2 & B3 & B4) & B5 & B6 & B7 & B8). split; [repeat split; congruence|]. split; [|split; [|split]].
  - intro c. destruct (A5 c) as (X1 & X2 & X3), (B5 c) as (Y1 & Y2 & Y3). repeat split; congruence.
  - intro i. destruct (A6 i) as (X1 & X2 & X3 & X4 & X5 & X6), (B6 i) as (Y1 & Y2 & Y3 & Y4 & Y5 & Y6). repeat split; congruence.
  - intro i. destruct (A7 i) as (X1 & X2), (B7 i) as (Y1 & Y2). repeat split; congruence.
  - intro i. now rewrite B8, A8.
Qed.
Lemma vsame_refl F : vsame F F. Proof. repeat split. Qed.
Lemma vsame_trans F G H : vsame F G -> vsame G H -> vsame F H.
Proof. intros (A1 & A2 & A3) (B1 & B2 & B3). repeat split; intros; [rewrite B1; apply A1|rewrite B2; apply A2|rewrite B3; apply A3]. Qed.
Lemma shape_real_c F F' c : shape F F' -> real_carrier F' c <-> real_carrier F c.
Proof. intros ((A1 & _) & _). destruct c; cbn; [tauto|now rewrite A1]. Qed.
Lemma shape_real_h F F' h : shape F F' -> real_holder F' h <-> real_holder F h.
Proof. intros ((_ & A2 & A3 & _) & _). destruct h; cbn; [now rewrite A3|now rewrite A2]. Qed.
Lemma shape_held F F' h : shape F F' -> held F' h = held F h.
Proof. intros (_ & _ & A & B & _). destruct h; cbn; [apply (B i)|]. destruct (A i) as (_ & _ & _ & _ & -> & ->). reflexivity. Qed.
Lemma wf_shape F F' : shape F F' -> well_formed F -> well_formed F'.
Proof.
  intros S W. pose proof S as S0. destruct S0 as ((N1 & N2 & N3 & N4) & SB & SR & SP & SL). destruct W as (W0 & W1 & W2 & W3 & W4 & W5 & W6 & W7 & W8 & W9).
  assert (RC : forall c, real_carrier F' c -> real_carrier F c) by (intro c; apply (shape_real_c F F' c S)).
  assert (RC' : forall c, real_carrier F c -> real_carrier F' c) by (intro c; apply (shape_real_c F F' c S)).
  assert (RH : forall h, real_holder F' h -> real_holder F h) by (intro h; apply (shape_real_h F F' h S)).
  assert (BP : forall c, b_pts (the_body F' c) = b_pts (the_body F c)) by (intro c; apply (SB c)).
  assert (BR : forall c, b_rods (the_body F' c) = b_rods (the_body F c)) by (intro c; apply (SB c)).
  assert (PT : forall i, q_type (f_pt F' i) = q_type (f_pt F i)) by (intro i; apply (SP i)).
  assert (KT : forall i, k_type (f_rod F' i) = k_type (f_rod F i)) by (intro i; apply (SR i)).
  split; [|split; [|split; [|split; [|split; [|split; [|split; [|split; [|split]]]]]]]].
  - destruct (SB CGround) as (X & _). cbn in X. now rewrite X.
  - intros h i ep Hh Hi. rewrite (shape_held F F' h S) in Hi. rewrite N4, SL. exact (W1 h i ep (RH h Hh) Hi).
  - intros h h' x Hh Hh' H H'. rewrite (shape_held F F' h S) in H. rewrite (shape_held F F' h' S) in H'. exact (W2 h h' x (RH _ Hh) (RH _ Hh') H H').
  - intros h Hh. rewrite (shape_held F F' _ S). exact (W3 h (RH _ Hh)).
  - intros c i rel Hc Hi. rewrite BP in Hi. rewrite N3, PT. exact (W4 c i rel (RC _ Hc) Hi).
  - intros c c' i rel rel' Hc Hc' H H'. rewrite (BP c) in H. rewrite (BP c') in H'. exact (W5 c c' i rel rel' (RC _ Hc) (RC _ Hc') H H').
  - intros i Hi Ht. rewrite N3 in Hi. rewrite PT in Ht. destruct (W6 i Hi Ht) as (c & rel & Hc & H). exists c, rel. split; [now apply RC'|now rewrite BP].
  - intros c i rel Hc Hi. rewrite BR in Hi. rewrite N2, KT. destruct (SR i) as (_ & -> & _ & -> & _). exact (W7 c i rel (RC _ Hc) Hi).
  - intros c c' i rel rel' Hc Hc' H H'. rewrite (BR c) in H. rewrite (BR c') in H'. exact (W8 c c' i rel rel' (RC _ Hc) (RC _ Hc') H H').
  - intros i Hi Ht. rewrite N2 in Hi. rewrite KT in Ht. destruct (W9 i Hi Ht) as (c & rel & Hc & H). exists c, rel. split; [now apply RC'|now rewrite BR].
Qed.

(* ----- facts about a system, and what keeps them ----- *)
Inductive fact :=
| FCar (c : carrier) | FPt (i : nat) | FRl (i : nat) | FRa (i : nat)
| FCarV (c : carrier) (Q : bodyk -> Prop) | FPtV (i : nat) (Q : pointk -> Prop) | FRodV (i : nat) (Q : rodk -> Prop).
Definition anchored (k : rodk) : Prop := k_rA k = xq_pos (k_r7 k) /\ k_rdA k = v6hd (k_v6 k).
Definition good_or (b : bodyk) : Prop := b_or b = qrot (qnormalized (xq_quat (b_r7 b))).
Definition car_pt (b : bodyk) (p : pointk) (rel : v3) : Prop := q_r p = placed (xq_pos (b_r7 b)) (b_or b) rel /\ q_rd p = velocity_at (mmulv (b_or b) rel) (b_v6 b).
Definition car_rod (b : bodyk) (k : rodk) (rel : v6) : Prop :=
  xq_pos (k_r7 k) = placed (xq_pos (b_r7 b)) (b_or b) (v6hd rel) /\ v6hd (k_v6 k) = velocity_at (mmulv (b_or b) (v6hd rel)) (b_v6 b) /\
  (k_type k = RodFixed -> v6tl (k_v6 k) = v6tl (b_v6 b) /\ ((0 < k_n k)%nat -> -1 + 1e-12 <= dot (mmulv (b_or b) (v6tl rel)) (v6tl rel) -> k_q k = mmulv (b_or b) (v6tl rel))).
Definition car (b : bodyk) (F : full) : Prop :=
  (forall i rel, In (i, rel) (b_pts b) -> car_pt b (f_pt F i) rel) /\ (forall i rel, In (i, rel) (b_rods b) -> car_rod b (f_rod F i) rel).
Definition holds (F : full) (x : fact) : Prop :=
  match x with
  | FCar c => real_carrier F c -> good_or (the_body F c) /\ car (the_body F c) F
  | FPt i => (i < f_np F)%nat -> point_holds (f_pt F i) (f_line F)
  | FRl i => (i < f_nr F)%nat -> rod_lines (f_rod F i) (f_line F)
  | FRa i => (i < f_nr F)%nat -> anchored (f_rod F i)
  | FCarV c Q => Q (the_body F c)
  | FPtV i Q => Q (f_pt F i)
  | FRodV i Q => Q (f_rod F i)
  end.
Definition inner_nodes (F F' : full) : Prop := forall i j, (0 < j < lN (f_line F i))%nat -> lr (f_line F' i) j = lr (f_line F i) j /\ lrd (f_line F' i) j = lrd (f_line F i) j.
Definition pres (X : fact -> Prop) (F F' : full) : Prop := shape F F' /\ vsame F F' /\ forall x, ~ X x -> holds F x -> holds F' x.
Lemma pres_refl X F : pres X F F. Proof. split; [apply shape_refl|]. split; [apply vsame_refl|]. auto. Qed.
Lemma pres_trans X F G H : pres X F G -> pres X G H -> pres X F H.
Proof. intros (A1 & A2 & A3) (B1 & B2 & B3). split; [eapply shape_trans; eassumption|]. split; [eapply vsame_trans; eassumption|]. intros x Hx Hf. apply B3; [exact Hx|]. now apply A3. Qed.
Lemma pres_weak (X Y : fact -> Prop) F F' : (forall x, X x -> Y x) -> pres X F F' -> pres Y F F'.
Proof. intros H (A & B & C). split; [exact A|]. split; [exact B|]. intros x Hx. apply C. intro. apply Hx. now apply H. Qed.
Lemma pres_wf X F F' : pres X F F' -> well_formed F -> well_formed F'. Proof. intros (S & _). now apply wf_shape. Qed.

(* ----- what happens to the lines of one holder leaves the others alone ----- *)
Definition only_ends (a : list (nat * Z)) (ls ls' : nat -> line) : Prop :=
  (forall i, inner_same (ls i) (ls' i)) /\ forall i ep, an_end ep -> ~ In (i, ep) a -> end_same (ls i) (ls' i) ep.
Lemma only_refl a ls : only_ends a ls ls. Proof. split; [intro; apply inner_refl|repeat split]. Qed.
Definition ends_only (a : list (nat * Z)) (ls ls' : nat -> line) : Prop := forall i ep, an_end ep -> ~ In (i, ep) a -> end_same (ls i) (ls' i) ep.
Lemma point_other p a ls ls' : ends_only a ls ls' -> (forall i ep, In (i, ep) (q_att p) -> an_end ep /\ ~ In (i, ep) a) -> point_holds p ls -> point_holds p ls'.
Proof. intros O D H i ep Hi. destruct (D i ep Hi) as [D1 D2]. destruct (O i ep D1 D2) as (-> & -> & -> & _). now apply H. Qed.
Lemma rod_other k a ls ls' : ends_only a ls ls' -> (forall i ep, In (i, ep) (k_attA k ++ k_attB k) -> an_end ep /\ ~ In (i, ep) a) -> rod_lines k ls -> rod_lines k ls'.
Proof.
  intros O D [H1 H2]. split.
  - intros i ep Hi. destruct (D i ep Hi) as [D1 D2]. destruct (O i ep D1 D2) as (_ & _ & -> & _). now apply H1.
  - destruct (Nat.eqb (k_n k) 0).
    + destruct H2 as (A & B & C). split; [exact A|]. split; [exact B|]. intros i ep Hi. destruct (D i ep Hi) as [D1 D2]. destruct (O i ep D1 D2) as (-> & -> & _). now apply C.
    + destruct H2 as (A & B1 & B2 & B3 & B4 & B5 & B6 & B7). split; [exact A|]. unfold rod_lies. repeat (split; [assumption|]). split.
      * intros i ep Hi. destruct (D i ep (in_or_app _ _ _ (or_introl Hi))) as [D1 D2]. destruct (O i ep D1 D2) as (-> & -> & _ & ->). now apply B6.
      * intros i ep Hi. destruct (D i ep (in_or_app _ _ _ (or_intror Hi))) as [D1 D2]. destruct (O i ep D1 D2) as (-> & -> & _ & ->). now apply B7.
Qed.
Lemma others F h h' : well_formed F -> real_holder F h -> real_holder F h' -> h' <> h -> forall i ep, In (i, ep) (held F h') -> an_end ep /\ ~ In (i, ep) (held F h).
Proof.
  intros (_ & W1 & W2 & _) Hh Hh' N i ep Hi. split; [apply (W1 h' i ep Hh' Hi)|]. intro Hj. apply N. exact (W2 h' h (i, ep) Hh' Hh Hi Hj).
Qed.
Lemma fput_same {A} (f : nat -> A) i x : fput f i x i = x. Proof. unfold fput. now rewrite Nat.eqb_refl. Qed.
Lemma fput_other {A} (f : nat -> A) i x j : j <> i -> fput f i x j = f j. Proof. intro H. unfold fput. now rewrite (proj2 (Nat.eqb_neq _ _) H). Qed.

(* a point moves *)
Definition carried_pt (F : full) (c : carrier) (i : nat) : Prop := real_carrier F c /\ exists rel, In (i, rel) (b_pts (the_body F c)).
Definition carried_rod (F : full) (c : carrier) (i : nat) : Prop := real_carrier F c /\ exists rel, In (i, rel) (b_rods (the_body F c)).
Definition Xpt (F : full) (i : nat) (x : fact) : Prop := match x with FCar c => carried_pt F c i | FPtV j _ => j = i | _ => False end.
Lemma kin_free a : forall pos vel ls ls', good a ls -> pass_kinematics a pos vel ls = Ok ls' -> forall i ep, In (i, ep) a -> end_clamped (ls' i) ep = false.
Proof.
  induction a as [|[i0 e0] t IH]; intros pos vel ls ls' G H i ep Hi; [contradiction|]. cbn [pass_kinematics] in H.
  destruct (G i0 e0 (or_introl eq_refl)) as [A0 N0]. destruct (set_kin (ls i0) pos vel e0 A0 N0) as (L & E & I1 & P1 & P2 & P3 & P4 & P5). rewrite E in H. cbn [obind] in H.
  assert (G' : good t (write ls i0 L)). { intros j e Hj. destruct (G j e (or_intror Hj)) as [H1 H2]. split; [exact H1|]. destruct (Nat.eq_dec j i0) as [->|Hn]; [rewrite write_same; destruct I1 as (-> & _); exact H2|now rewrite write_other]. }
  destruct (in_dec prod_eq_dec (i, ep) t) as [Ht|Ht]; [exact (IH _ _ _ _ G' H i ep Ht)|]. destruct Hi as [Hi|Hi]; [|contradiction].
  assert (i = i0) by congruence. assert (ep = e0) by congruence. subst i ep. destruct (pass_kin t pos vel _ G') as (l2 & E2 & _ & _ & _ & S). rewrite E2 in H. assert (l2 = ls') by congruence. subst l2.
  destruct (S i0 e0 A0 Ht) as (_ & _ & -> & _). now rewrite write_same.
Qed.
Lemma pt_moves F i r rd F' : well_formed F -> (i < f_np F)%nat -> point_to i r rd F = Ok F' ->
  pres (Xpt F i) F F' /\ inner_nodes F F' /\ (forall j, j <> i -> f_pt F' j = f_pt F j) /\ f_pt F' i = move_pt (f_pt F i) r rd /\ holds F' (FPt i) /\ f_rod F' = f_rod F.
Proof.
  intros W Hi H. unfold point_to in H. cbv zeta in H. set (p := f_pt F i) in *.
  assert (G : good (q_att p) (f_line F)). { intros j ep Hj. destruct W as (_ & W1 & _). destruct (W1 (HPoint i) j ep Hi Hj) as (_ & A & B). now split. }
  destruct (pass_kin (q_att p) r rd (f_line F) G) as (ls & E & I1 & A1 & _ & S1). rewrite E in H. cbn [obind] in H. pose proof (kin_free _ _ _ _ _ G E) as FR. assert (EF : F' = put_pt F i (move_pt p r rd) ls) by congruence.
  assert (O : only_ends (held F (HPoint i)) (f_line F) ls) by (split; [exact I1|exact S1]).
  assert (P1 : forall j, j <> i -> f_pt F' j = f_pt F j) by (intros j Hj; rewrite EF; cbn; now apply fput_other).
  assert (P2 : f_pt F' i = move_pt p r rd) by (rewrite EF; cbn; apply fput_same).
  assert (HF : holds F' (FPt i)). { intros _. rewrite P2. rewrite EF. cbn [f_line put_pt]. intros j ep Hj. cbn [move_pt q_att q_r q_rd] in *. destruct (A1 j ep Hj) as [-> ->]. split; [reflexivity|]. split; [reflexivity|]. exact (FR j ep Hj). }
  split; [|split; [|split; [exact P1|split; [exact P2|split; [exact HF|now rewrite EF]]]]].
  - split; [|split].
    + rewrite EF. split; [repeat split|]. split; [destruct c; repeat split|]. split; [repeat split|]. split; [|intro j; cbn; apply (I1 j)].
      intro j. cbn. destruct (Nat.eq_dec j i) as [->|Hj]; [rewrite fput_same; repeat split|rewrite fput_other by exact Hj; repeat split].
    + rewrite EF. split; [destruct c; reflexivity|]. split; [reflexivity|]. intro j. cbn. destruct (Nat.eq_dec j i) as [->|Hj]; [now rewrite fput_same|now rewrite fput_other].
    + intros x Hx Hh. destruct x as [c|j|j|j|c Q|j Q|j Q]; cbn [Xpt] in Hx.
      * intro Hc. assert (Hc' : real_carrier F c) by (rewrite EF in Hc; destruct c; exact Hc). assert (EB : the_body F' c = the_body F c) by (rewrite EF; destruct c; reflexivity). rewrite EB. destruct (Hh Hc') as (U1 & U2 & U3). split; [exact U1|]. split.
        -- intros j rel Hj. rewrite P1; [now apply U2|]. intros ->. apply Hx. split; [exact Hc'|now exists rel].
        -- intros j rel Hj. rewrite EF. cbn. now apply U3.
      * destruct (Nat.eq_dec j i) as [->|Hj]; [exact HF|]. intro Hr. assert (Hr' : (j < f_np F)%nat) by (rewrite EF in Hr; exact Hr). rewrite P1 by exact Hj. rewrite EF. cbn [f_line put_pt].
        apply (point_other _ _ (f_line F) ls (proj2 O)); [|now apply Hh]. apply (others F (HPoint i) (HPoint j) W Hi Hr'). congruence.
      * intro Hr. assert (Hr' : (j < f_nr F)%nat) by (rewrite EF in Hr; exact Hr). rewrite EF. cbn [f_line f_rod put_pt]. apply (rod_other _ _ (f_line F) ls (proj2 O)); [|now apply Hh]. apply (others F (HPoint i) (HRod j) W Hi Hr'). congruence.
      * intro Hr. rewrite EF in *. cbn in *. now apply Hh.
      * rewrite EF. destruct c; exact Hh.
      * cbn. rewrite P1 by (intro; now apply Hx). exact Hh.
      * rewrite EF. exact Hh.
  - intros j n Hn. rewrite EF. cbn. destruct (I1 j) as (_ & _ & _ & _ & Z). now apply Z.
Qed.

(* a rod moves *)
Definition Xrod (F : full) (i : nat) (x : fact) : Prop := match x with FCar c => carried_rod F c i | FRa j => j = i | FRodV j _ => j = i | _ => False end.
Lemma rod_put F i k' ls : well_formed F -> (i < f_nr F)%nat -> same_rod (f_rod F i) k' -> k_ves k' = k_ves (f_rod F i) -> only_ends (held F (HRod i)) (f_line F) ls ->
  (rod_lines (f_rod F i) (f_line F) -> rod_lines k' ls) ->
  pres (Xrod F i) F (put_rod F i k' ls) /\ inner_nodes F (put_rod F i k' ls) /\ (forall j, j <> i -> f_rod (put_rod F i k' ls) j = f_rod F j) /\ f_rod (put_rod F i k' ls) i = k'.
Proof.
  intros W Hi HS HV O HL. set (F' := put_rod F i k' ls).
  assert (P1 : forall j, j <> i -> f_rod F' j = f_rod F j) by (intros j Hj; cbn; now apply fput_other).
  assert (P2 : f_rod F' i = k') by (cbn; apply fput_same).
  split; [|split; [|split; [exact P1|exact P2]]].
  - split; [|split].
    + split; [repeat split|]. split; [destruct c; repeat split|]. split; [|split; [repeat split|intro j; cbn; apply (proj1 O j)]].
      intro j. destruct (Nat.eq_dec j i) as [->|Hj]; [rewrite P2; exact HS|rewrite P1 by exact Hj; repeat split].
    + split; [destruct c; reflexivity|]. split; [|reflexivity]. intro j. destruct (Nat.eq_dec j i) as [->|Hj]; [now rewrite P2|now rewrite P1].
    + intros x Hx Hh. destruct x as [c|j|j|j|c Q|j Q|j Q]; cbn [Xrod] in Hx.
      * intro Hc. assert (Hc' : real_carrier F c) by (destruct c; exact Hc). assert (EB : the_body F' c = the_body F c) by (destruct c; reflexivity). rewrite EB. destruct (Hh Hc') as (U1 & U2 & U3). split; [exact U1|]. split.
        -- intros j rel Hj. now apply U2.
        -- intros j rel Hj. rewrite P1; [now apply U3|]. intros ->. apply Hx. split; [exact Hc'|now exists rel].
      * intro Hr. cbn [f_line f_pt F' put_rod]. apply (point_other _ _ (f_line F) ls (proj2 O)); [|now apply Hh]. apply (others F (HRod i) (HPoint j) W Hi Hr). congruence.
      * destruct (Nat.eq_dec j i) as [->|Hj]; [intro Hr; rewrite P2; apply HL; now apply Hh|]. intro Hr. rewrite P1 by exact Hj. cbn [f_line F' put_rod].
        apply (rod_other _ _ (f_line F) ls (proj2 O)); [|now apply Hh]. apply (others F (HRod i) (HRod j) W Hi Hr). congruence.
      * intro Hr. rewrite P1 by (intro; now apply Hx). now apply Hh.
      * destruct c; exact Hh.
      * exact Hh.
      * cbn [holds]. rewrite P1 by (intro; now apply Hx). exact Hh.
  - intros j n Hn. cbn. destruct (proj1 O j) as (_ & _ & _ & _ & Z). now apply Z.
Qed.

Section Ops.
Variable opposed : v3 -> v3 -> quat.
Variable K : nat -> Z -> R.

(* Rod::setDependentStates *)
Lemma dep_facts F i k ls' k' : well_formed F -> (i < f_nr F)%nat -> same_rod (f_rod F i) k -> rod_dependent K k (f_line F) = Ok (k', ls') ->
  exists q, k' = with_ends k q (xq_pos (k_r7 k)) (v6hd (k_v6 k)) (if Nat.eqb (k_n k) 0 then xq_pos (k_r7 k) else vadd (xq_pos (k_r7 k)) (vscale (k_len k) (rod_dir k)))
                (if Nat.eqb (k_n k) 0 then v6hd (k_v6 k) else vadd (v6hd (k_v6 k)) (cross (v6tl (k_v6 k)) (vscale (k_len k) (rod_dir k)))) /\
    ((0 < k_n k)%nat -> q = rod_dir k) /\ only_ends (held F (HRod i)) (f_line F) ls' /\ rod_lines k' ls' /\ anchored k'.
Proof.
  intros W Hi (S1 & S2 & S3 & S4 & S5 & S6) H. assert (EH : held F (HRod i) = k_attA k ++ k_attB k) by (cbn; now rewrite S5, S6).
  assert (HP : proper (k_attA k) (k_attB k) (f_line F)).
  { rewrite S5, S6. destruct W as (_ & W1 & _ & W3 & _). split; [|exact (W3 (HRod i) Hi)]. intros j ep Hj. destruct (W1 (HRod i) j ep Hi Hj) as (_ & A & B). now split. }
  unfold rod_dependent in H. cbv zeta in H. rewrite EH.
  match type of H with obind (setDependentStates K ?d _) _ = _ => set (dd := d) in H; destruct (setDependentStates K dd (f_line F)) as [[q l4]|e| |] eqn:ED end; cbn [obind fst snd] in H; try discriminate.
  destruct (attached K dd (f_line F) q l4) as (A & B & C & D & E); [exact HP|exact ED|].
  assert (l4 = ls') by congruence. subst l4. exists q. assert (EK : k' = with_ends k q (xq_pos (k_r7 k)) (v6hd (k_v6 k)) (re_posB dd) (re_velB dd)) by (unfold dd; cbn [re_posB re_velB]; congruence).
  unfold dd, at_B in *. cbn [re_N re_posA re_velA re_posB re_velB re_q re_A re_B] in *.
  assert (HQ : (0 < k_n k)%nat -> q = rod_dir k). { intro HN. rewrite (E HN). destruct (Nat.eqb_spec (k_n k) 0); [lia|reflexivity]. }
  split; [|split; [exact HQ|split; [split; [exact D|exact C]|split; [|rewrite EK; split; reflexivity]]]].
  - rewrite EK. destruct (Nat.eqb_spec (k_n k) 0); reflexivity.
  - rewrite EK. split.
    + cbn [with_ends k_attA k_attB]. intros j ep Hj. apply in_app_or in Hj as [Hj|Hj]; [apply (A j ep Hj)|apply (B j ep Hj)].
    + cbn [with_ends k_n k_attA k_attB k_rA k_rdA k_rB k_rdB k_q k_r7 k_q0 k_len k_v6]. destruct (Nat.eqb_spec (k_n k) 0) as [Z|Z].
      * split; [reflexivity|]. split; [reflexivity|]. intros j ep Hj. apply in_app_or in Hj as [Hj|Hj]; [destruct (A j ep Hj) as (-> & -> & _)|destruct (B j ep Hj) as (-> & -> & _)]; now split.
      * rewrite (HQ ltac:(lia)) in *. split; [reflexivity|]. unfold rod_lies. cbn [with_ends k_n k_attA k_attB k_rA k_rdA k_rB k_rdB k_q k_r7 k_q0 k_len k_v6].
        repeat (split; [reflexivity|]). split.
        -- intros j ep Hj. destruct (A j ep Hj) as (A1 & A2 & _ & A4). now split.
        -- intros j ep Hj. destruct (B j ep Hj) as (B1 & B2 & _ & B4). now split.
Qed.

(* Rod::setKinematics *)
Lemma kin_facts F i r rd F' : well_formed F -> (i < f_nr F)%nat -> k_type (f_rod F i) = RodFixed \/ k_type (f_rod F i) = RodPinned ->
  on_rod i F (rod_setKinematics opposed K (f_rod F i) r rd (f_line F)) = Ok F' ->
  pres (Xrod F i) F F' /\ (forall j, j <> i -> f_rod F' j = f_rod F j) /\ f_pt F' = f_pt F /\ (forall c, the_body F' c = the_body F c) /\
  xq_pos (k_r7 (f_rod F' i)) = v6hd r /\ v6hd (k_v6 (f_rod F' i)) = v6hd rd /\
  (k_type (f_rod F i) = RodFixed -> v6tl (k_v6 (f_rod F' i)) = v6tl rd /\ holds F' (FRl i) /\ holds F' (FRa i) /\
     ((0 < k_n (f_rod F i))%nat -> dot (k_q0 (f_rod F i)) (k_q0 (f_rod F i)) = 1 -> dot (v6tl r) (v6tl r) = 1 -> -1 + 1e-12 <= dot (v6tl r) (k_q0 (f_rod F i)) -> k_q (f_rod F' i) = v6tl r)).
Proof.
  intros W Hi HT H. set (k := f_rod F i) in *. unfold on_rod, rod_setKinematics in H. destruct HT as [HT|HT]; rewrite HT in H.
  - set (k1 := with_motion k (XQ (v6hd r) (fromTwoVectors opposed (k_q0 k) (v6tl r))) rd (k_acc k)) in *.
    destruct (rod_dependent K k1 (f_line F)) as [[k2 ls]|e| |] eqn:E; cbn [obind fst snd] in H; try discriminate.
    assert (S1 : same_rod (f_rod F i) k1) by repeat split.
    destruct (dep_facts F i k1 ls k2 W Hi S1 E) as (q & EK & HQ & O & L & A).
    set (k3 := with_q k2 (rod_dir k2)) in *. assert (EF : F' = put_rod F i k3 ls) by congruence.
    assert (RD : rod_dir k2 = rod_dir k1) by (rewrite EK; reflexivity).
    assert (L3 : rod_lines k3 ls).
    { destruct L as [L1 L2]. split; [exact L1|]. unfold k3. cbn [with_q k_n k_attA k_attB k_rA k_rdA k_rB k_rdB k_q k_r7 k_q0 k_len k_v6]. destruct (Nat.eqb_spec (k_n k2) 0) as [Z|Z]; [exact L2|].
      assert (EQ : k_q k2 = rod_dir k2). { rewrite RD. assert (HN : (0 < k_n k1)%nat) by (rewrite EK in Z; cbn [with_ends k_n] in Z; lia). rewrite EK. cbn [with_ends k_q]. exact (HQ HN). }
      rewrite EQ in L2. destruct L2 as (L2 & L4). split; [reflexivity|]. unfold rod_lies in *. cbn [with_q k_attA k_attB k_rA k_rdA k_rB k_rdB k_q]. destruct L4 as (Y1 & Y2 & Y3 & Y4 & Y5 & Y6 & Y7). repeat (split; [assumption || reflexivity|]). exact Y7. }
    assert (S3 : same_rod (f_rod F i) k3) by (unfold k3; rewrite EK; repeat split).
    assert (V3 : k_ves k3 = k_ves (f_rod F i)) by (unfold k3; rewrite EK; reflexivity).
    destruct (rod_put F i k3 ls W Hi S3 V3 O (fun _ => L3)) as (P1 & _ & P3 & P4). rewrite EF. split; [exact P1|]. split; [exact P3|]. split; [reflexivity|]. split; [destruct c; reflexivity|].
    rewrite P4. split; [unfold k3; rewrite EK; reflexivity|]. split; [unfold k3; rewrite EK; reflexivity|]. intros _. split; [unfold k3; rewrite EK; reflexivity|]. split; [|split].
    + intros _. rewrite P4. exact L3.
    + intros _. rewrite P4. unfold k3. rewrite EK. split; reflexivity.
    + intros HN U1 U2 U3. unfold k3. cbn [with_q k_q]. rewrite RD. unfold rod_dir, k1. cbn [with_motion k_r7 k_q0 xq_quat]. apply twoV_dir; try assumption. exists 1. split; [lra|]. generalize (v6tl r). vring.
  - cbn [obind fst snd] in H. set (k1 := with_motion k (XQ (v6hd r) (xq_quat (k_r7 k))) (V6 (v6hd rd) (v6tl (k_v6 k))) (k_acc k)) in *.
    set (k3 := with_q k1 (rod_dir k1)) in *. assert (EF : F' = put_rod F i k3 (f_line F)) by congruence.
    assert (L3 : rod_lines (f_rod F i) (f_line F) -> rod_lines k3 (f_line F)).
    { intros [L1 L2]. split; [exact L1|]. fold k in L2. unfold k3, k1. cbn [with_q with_motion k_n k_attA k_attB k_rA k_rdA k_rB k_rdB k_q k_r7 k_q0 k_len k_v6 xq_quat v6tl]. destruct (Nat.eqb (k_n k) 0); [exact L2|].
      destruct L2 as (L2 & L4). unfold rod_dir. cbn [with_motion k_r7 k_q0 xq_quat]. rewrite <- L2. split; [reflexivity|]. exact L4. }
    assert (S3 : same_rod (f_rod F i) k3) by repeat split. assert (V3 : k_ves k3 = k_ves (f_rod F i)) by reflexivity.
    destruct (rod_put F i k3 (f_line F) W Hi S3 V3 (only_refl _ _) L3) as (P1 & _ & P3 & P4). rewrite EF. split; [exact P1|]. split; [exact P3|]. split; [reflexivity|]. split; [destruct c; reflexivity|].
    rewrite P4. split; [reflexivity|]. split; [reflexivity|]. congruence.
Qed.

(* ----- the dependents of one carrier ----- *)
Definition XdP (c : carrier) (a : list (nat * v3)) (x : fact) : Prop := match x with FCar c' => c' = c | FPtV i _ => In i (map fst a) | _ => False end.
Lemma deps_pts c Or p v a0 : forall a F F', well_formed F -> real_carrier F c -> b_pts (the_body F c) = a0 -> incl a a0 -> dep_points a Or p v F = Ok F' ->
  pres (XdP c a0) F F' /\ (forall i, ~ In i (map fst a) -> f_pt F' i = f_pt F i) /\ f_rod F' = f_rod F /\ (forall d, the_body F' d = the_body F d) /\
  (forall i rel, In (i, rel) a -> q_r (f_pt F' i) = fst (body_point Or p v rel) /\ q_rd (f_pt F' i) = snd (body_point Or p v rel) /\ holds F' (FPt i)).
Proof.
  induction a as [|[i rel] t IH]; intros F F' W Hc Ha Hin H; cbn [dep_points] in H.
  - assert (F = F') by congruence. subst. split; [apply pres_refl|]. split; [reflexivity|]. split; [reflexivity|]. split; [reflexivity|]. contradiction.
  - cbv zeta in H. set (rv := body_point Or p v rel) in *.
    pose proof W as W'. destruct W' as (_ & _ & _ & _ & W4 & W5 & _). assert (Hi0 : In (i, rel) (b_pts (the_body F c))) by (rewrite Ha; apply Hin; now left).
    destruct (W4 c i rel Hc Hi0) as [Hi HT]. unfold point_setKinematics in H. rewrite HT in H.
    destruct (point_to i (fst rv) (snd rv) F) as [F1|e| |] eqn:E1; cbn [obind] in H; try discriminate.
    destruct (pt_moves F i (fst rv) (snd rv) F1 W Hi E1) as (P1 & _ & P3 & P4 & P5 & P6).
    assert (PB : forall d, the_body F1 d = the_body F d). { unfold point_to in E1. destruct (pass_kinematics _ _ _ _); cbn [obind] in E1; try discriminate. assert (F1 = put_pt F i (move_pt (f_pt F i) (fst rv) (snd rv)) a) by congruence. subst F1. destruct d; reflexivity. }
    assert (P1' : pres (XdP c a0) F F1). { eapply pres_weak; [|exact P1]. intros [d|j|j|j|d Q|j Q|j Q]; cbn [Xpt XdP]; try tauto.
      - intros [Hd [rel' Hd']]. exact (proj1 (W5 d c i rel' rel Hd Hc Hd' Hi0)).
      - intros ->. apply in_map_iff. exists (i, rel). split; [reflexivity|apply Hin; now left]. }
    destruct (IH F1 F') as (Q1 & Q2 & Q3 & Q4 & Q5); [exact (pres_wf _ _ _ P1 W)|apply (shape_real_c _ _ c (proj1 P1)); exact Hc|rewrite PB; exact Ha|intros x Hx; apply Hin; now right|exact H|].
    split; [eapply pres_trans; eassumption|]. split; [|split; [congruence|split; [intro d; rewrite Q4; apply PB|]]].
    + intros j Hj. cbn [map fst] in Hj. rewrite Q2 by (intro; apply Hj; now right). apply P3. intros ->. apply Hj. now left.
    + intros j rel' Hj. destruct (in_dec Nat.eq_dec j (map fst t)) as [Ht|Ht].
      * apply in_map_iff in Ht as ([j' rel2] & E2 & Ht). cbn in E2. subst j'. assert (rel2 = rel'). { apply (W5 c c j rel2 rel' Hc Hc); rewrite Ha; apply Hin; [now right|exact Hj]. } subst rel2. now apply Q5.
      * destruct Hj as [Hj|Hj]; [|exfalso; apply Ht; apply in_map_iff; now exists (j, rel')]. assert (j = i) by congruence. assert (rel' = rel) by congruence. subst j rel'.
        rewrite (Q2 i Ht), P4. split; [reflexivity|]. split; [reflexivity|]. apply Q1; [intro Z; exact Z|exact P5].
Qed.
Definition XdR (F0 : full) (c : carrier) (a : list (nat * v6)) (x : fact) : Prop :=
  match x with FCar c' => c' = c | FRodV i _ => In i (map fst a) | FRa i => In i (map fst a) /\ k_type (f_rod F0 i) = RodPinned | _ => False end.
Lemma deps_rods F0 c Or p v a0 : orthogonal Or -> forall a F F', well_formed F -> shape F0 F -> real_carrier F c -> b_rods (the_body F c) = a0 -> incl a a0 -> dep_rods opposed K a Or p v F = Ok F' ->
  pres (XdR F0 c a0) F F' /\ (forall i, ~ In i (map fst a) -> f_rod F' i = f_rod F i) /\ f_pt F' = f_pt F /\ (forall d, the_body F' d = the_body F d) /\
  (forall i rel, In (i, rel) a -> xq_pos (k_r7 (f_rod F' i)) = v6hd (fst (body_rod Or p v rel)) /\ v6hd (k_v6 (f_rod F' i)) = v6hd (snd (body_rod Or p v rel)) /\
     (k_type (f_rod F0 i) = RodFixed -> v6tl (k_v6 (f_rod F' i)) = v6tl v /\ holds F' (FRl i) /\ holds F' (FRa i) /\
        ((0 < k_n (f_rod F0 i))%nat -> -1 + 1e-12 <= dot (mmulv Or (v6tl rel)) (v6tl rel) -> k_q (f_rod F' i) = mmulv Or (v6tl rel)))).
Proof.
  intro HO. induction a as [|[i rel] t IH]; intros F F' W S0 Hc Ha Hin H; cbn [dep_rods] in H.
  - assert (F = F') by congruence. subst. split; [apply pres_refl|]. split; [reflexivity|]. split; [reflexivity|]. split; [reflexivity|]. contradiction.
  - cbv zeta in H. set (rv := body_rod Or p v rel) in *.
    pose proof W as W'. destruct W' as (_ & _ & _ & _ & _ & _ & _ & W7 & W8 & _). assert (Hi0 : In (i, rel) (b_rods (the_body F c))) by (rewrite Ha; apply Hin; now left).
    destruct (W7 c i rel Hc Hi0) as (Hi & HT & HU).
    destruct (on_rod i F (rod_setKinematics opposed K (f_rod F i) (fst rv) (snd rv) (f_line F))) as [F1|e| |] eqn:E1; cbn [obind] in H; try discriminate.
    destruct (kin_facts F i (fst rv) (snd rv) F1 W Hi HT E1) as (P1 & P3 & P4 & PB & P5 & P6 & P7).
    assert (ST : k_type (f_rod F i) = k_type (f_rod F0 i) /\ k_n (f_rod F i) = k_n (f_rod F0 i)) by (destruct S0 as (_ & _ & S0 & _); destruct (S0 i) as (X1 & X2 & _); now split). destruct ST as [ST SN].
    assert (P1' : pres (XdR F0 c a0) F F1).
    { assert (HM : In i (map fst a0)) by (apply in_map_iff; exists (i, rel); split; [reflexivity|apply Hin; now left]).
      destruct P1 as (Z1 & Z2 & Z3). split; [exact Z1|]. split; [exact Z2|]. intros x Hx Hf. destruct x as [d|j|j|j|d Q|j Q|j Q]; try (apply Z3; [cbn [Xrod]; tauto|exact Hf]).
      - apply Z3; [|exact Hf]. cbn [Xrod]. intros [Hd [rel' Hd']]. apply Hx. exact (proj1 (W8 d c i rel' rel Hd Hc Hd' Hi0)).
      - destruct (Nat.eq_dec j i) as [->|Hj]; [|apply Z3; [exact Hj|exact Hf]]. destruct HT as [HT|HT]; [apply P7; exact HT|]. exfalso. apply Hx. split; [exact HM|congruence].
      - apply Z3; [|exact Hf]. cbn [Xrod]. intros ->. now apply Hx. }
    destruct (IH F1 F') as (Q1 & Q2 & Q3 & Q4 & Q5); [exact (pres_wf _ _ _ P1 W)|exact (shape_trans _ _ _ S0 (proj1 P1))|apply (shape_real_c _ _ c (proj1 P1)); exact Hc|rewrite PB; exact Ha|intros x Hx; apply Hin; now right|exact H|].
    split; [eapply pres_trans; eassumption|]. split; [|split; [congruence|split; [intro d; rewrite Q4; apply PB|]]].
    + intros j Hj. cbn [map fst] in Hj. rewrite Q2 by (intro; apply Hj; now right). apply P3. intros ->. apply Hj. now left.
    + intros j rel' Hj. destruct (in_dec Nat.eq_dec j (map fst t)) as [Ht|Ht].
      * apply in_map_iff in Ht as ([j' rel2] & E2 & Ht). cbn in E2. subst j'. assert (rel2 = rel'). { apply (W8 c c j rel2 rel' Hc Hc); rewrite Ha; apply Hin; [now right|exact Hj]. } subst rel2. now apply Q5.
      * destruct Hj as [Hj|Hj]; [|exfalso; apply Ht; apply in_map_iff; now exists (j, rel')]. assert (j = i) by congruence. assert (rel' = rel) by congruence. subst j rel'.
        rewrite (Q2 i Ht). split; [exact P5|]. split; [exact P6|]. intro HF. rewrite <- ST in HF. destruct (P7 HF) as (Y1 & Y2 & Y3 & Y4). split; [exact Y1|]. split; [|split].
        -- apply Q1; [intro Z; exact Z|exact Y2].
        -- apply Q1; [intros [_ Z]; congruence|exact Y3].
        -- intros HN HC. rewrite <- SN in HN. destruct (HU HN) as [U1 U2]. rewrite U1 in Y4. apply Y4; [exact HN|exact U2|unfold rv, body_rod; cbn [fst v6tl]; now rewrite m_dot|exact HC].
Qed.
Lemma qn_orth q : orthogonal (qrot (qnormalized q)).
Proof.
  unfold qnormalized. cbv zeta. destruct (Rlt_dec _ _) as [H|H].
  - apply qrot_orth. set (n := qw q * qw q + qx q * qx q + qy q * qy q + qz q * qz q) in *. unfold qnorm2, qscale. cbn [qw qx qy qz].
    assert (S : sqrt n * sqrt n = n) by (apply sqrt_sqrt; lra). assert (S0 : 0 < sqrt n) by now apply sqrt_lt_R0.
    set (m := sqrt n) in *. clearbody m. transitivity (n * (/ m * / m)); [unfold n; ring|]. rewrite <- S. field. lra.
  - assert (SQ : forall a, 0 <= a * a) by (intro a; exact (Rle_0_sqr a)). assert (S0 : forall a, a * a <= 0 -> a = 0) by (intros a Ha; pose proof (SQ a); assert (E : a * a = 0) by lra; destruct (Rmult_integral _ _ E); assumption).
    pose proof (SQ (qw q)). pose proof (SQ (qx q)). pose proof (SQ (qy q)). pose proof (SQ (qz q)). assert (Z : qw q = 0 /\ qx q = 0 /\ qy q = 0 /\ qz q = 0) by (repeat split; apply S0; lra). destruct Z as (Z1 & Z2 & Z3 & Z4). unfold qrot, orthogonal, mmul, mtr, mmulv, mid. rewrite Z1, Z2, Z3, Z4.
    cbn. unfold dot. cbn. split; f_equal; apply v3eq; cbn; ring.
Qed.

(* what never moves with a carrier: everything but the attached points and rods *)
Definition Xd (F0 : full) (x : fact) : Prop :=
  match x with
  | FPtV i _ => (i < f_np F0)%nat /\ q_type (f_pt F0 i) = PFixed
  | FRodV i _ => (i < f_nr F0)%nat /\ (k_type (f_rod F0 i) = RodFixed \/ k_type (f_rod F0 i) = RodPinned)
  | FRa i => k_type (f_rod F0 i) = RodPinned
  | _ => False end.
Definition done (F0 : full) (c : carrier) (F : full) : Prop :=
  holds F (FCar c) /\ (forall i rel, In (i, rel) (b_pts (the_body F0 c)) -> holds F (FPt i)) /\
  (forall i rel, In (i, rel) (b_rods (the_body F0 c)) -> k_type (f_rod F0 i) = RodFixed -> holds F (FRl i) /\ holds F (FRa i)).
Lemma done_pres (X : fact -> Prop) F0 c F F' : pres X F F' -> ~ X (FCar c) -> (forall i, ~ X (FPt i)) -> (forall i, ~ X (FRl i)) -> (forall i, k_type (f_rod F0 i) = RodFixed -> ~ X (FRa i)) -> done F0 c F -> done F0 c F'.
Proof.
  intros (_ & _ & P) H1 H2 H3 H4 (D1 & D2 & D3). split; [now apply P|]. split; [intros i rel Hi; apply P; [apply H2|exact (D2 i rel Hi)]|].
  intros i rel Hi HT. destruct (D3 i rel Hi HT) as [E1 E2]. split; apply P; auto.
Qed.
Lemma deps F0 c F F' : well_formed F -> shape F0 F -> real_carrier F c -> good_or (the_body F c) -> body_dependents opposed K (the_body F c) F = Ok F' ->
  pres (Xd F0) F F' /\ done F0 c F' /\ (forall d, the_body F' d = the_body F d).
Proof.
  intros W S0 Hc HO H. set (b := the_body F c) in *. unfold body_dependents in H.
  destruct (dep_points (b_pts b) (b_or b) (xq_pos (b_r7 b)) (b_v6 b) F) as [F1|e| |] eqn:E1; cbn [obind] in H; try discriminate.
  destruct (deps_pts c _ _ _ (b_pts b) (b_pts b) F F1 W Hc eq_refl (incl_refl _) E1) as (P1 & P2 & P3 & P4 & P5).
  assert (W1 := pres_wf _ _ _ P1 W). assert (S1 := shape_trans _ _ _ S0 (proj1 P1)). assert (Hc1 : real_carrier F1 c) by (apply (shape_real_c _ _ c (proj1 P1)); exact Hc).
  assert (OR : orthogonal (b_or b)) by (rewrite HO; apply qn_orth).
  destruct (deps_rods F0 c _ _ _ (b_rods b) OR (b_rods b) F1 F' W1 S1 Hc1 ltac:(rewrite P4; reflexivity) (incl_refl _) H) as (Q1 & Q2 & Q3 & Q4 & Q5).
  assert (EB : forall d, the_body F' d = the_body F d) by (intro d; rewrite Q4; apply P4).
  pose proof S0 as S0'. destruct S0' as ((N1 & N2 & N3 & N4) & SB & SR & SP & _).
  assert (CAR : holds F' (FCar c)).
  { intros _. rewrite EB. fold b. split; [exact HO|]. split.
    - intros i rel Hi. destruct (P5 i rel Hi) as (A1 & A2 & _). rewrite Q3. unfold car_pt. rewrite A1, A2. unfold body_point, transformKinematics, placed, velocity_at. cbn [fst snd]. split; [apply vadd_comm|reflexivity].
    - intros i rel Hi. destruct (Q5 i rel Hi) as (A1 & A2 & A3). assert (ES : same_rod (f_rod F0 i) (f_rod F' i)). { pose proof (shape_trans _ _ _ S1 (proj1 Q1)) as (_ & _ & Z & _). apply Z. } destruct ES as (T1 & T2 & _). unfold car_rod. rewrite A1, A2. unfold body_rod, transformKinematics, placed, velocity_at. cbn [fst snd v6hd].
      split; [apply vadd_comm|]. split; [reflexivity|]. rewrite T1, T2. intro HF. destruct (A3 HF) as (B1 & _ & _ & B4). split; [exact B1|exact B4]. }
  assert (PP : pres (fun x => Xd F0 x \/ x = FCar c) F F').
  { apply (pres_trans _ F F1 F').
    - eapply pres_weak; [|exact P1]. intros [d|j|j|j|d Q|j Q|j Q]; cbn [XdP Xd]; try tauto; [intros ->; now right|]. intro Hj. left. apply in_map_iff in Hj as ([j' rel] & E & Hj). cbn in E. subst j'.
      destruct W as (_ & _ & _ & _ & W4 & _). destruct (W4 c j rel Hc Hj) as [U1 U2]. rewrite N3 in U1. destruct (SP j) as [U3 _]. rewrite U3 in U2. now split.
    - eapply pres_weak; [|exact Q1]. intros [d|j|j|j|d Q|j Q|j Q]; cbn [XdR Xd]; try tauto; [intros ->; now right|]. intro Hj. left. apply in_map_iff in Hj as ([j' rel] & E & Hj). cbn in E. subst j'.
      destruct W as (_ & _ & _ & _ & _ & _ & _ & W7 & _). destruct (W7 c j rel Hc Hj) as (U1 & U2 & _). rewrite N2 in U1. destruct (SR j) as [U3 _]. rewrite U3 in U2. now split. }
  split; [|split; [|exact EB]].
  - destruct PP as (Z1 & Z2 & Z3). split; [exact Z1|]. split; [exact Z2|]. intros x Hx Hf. destruct x as [d|j|j|j|d Q|j Q|j Q]; try (apply Z3; [intros [Z|Z]; [now apply Hx|discriminate]|exact Hf]).
    assert (D : d = c \/ d <> c) by (destruct d, c; try (right; discriminate); try (left; reflexivity); destruct (Nat.eq_dec i i0) as [->|Z]; [now left|right; congruence]). destruct D as [->|D]; [exact CAR|]. apply Z3; [intros [Z|Z]; [exact Z|congruence]|exact Hf].
  - assert (SBc : b_pts b = b_pts (the_body F0 c) /\ b_rods b = b_rods (the_body F0 c)) by (destruct (SB c) as (_ & X1 & X2); now split). destruct SBc as [SB1 SB2]. split; [exact CAR|]. split.
    + intros i rel Hi. rewrite <- SB1 in Hi. destruct (P5 i rel Hi) as (_ & _ & A). apply Q1; [intro Z; exact Z|exact A].
    + intros i rel Hi HT. rewrite <- SB2 in Hi. destruct (Q5 i rel Hi) as (_ & _ & A). destruct (A HT) as (_ & A1 & A2 & _). now split.
Qed.
End Ops.
