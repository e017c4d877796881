(** Proofs about the change of the time scheme. *)
From Coq Require Import String Ascii List Arith ZArith Bool Reals Lia.
From Verif Require Import MErr MStr MVec MStateOps MScheme MTime STime PTime MSwitch SSwitch.
Import ListNotations.
Local Open Scope nat_scope.

Section Kinds.
Context {A B : Type} (K : kind A B).
Lemma register_ok os : forall s, aligned s -> NoDup os -> (forall o, In o os -> ~ In o (ids s)) ->
  exists s', register K os s = Ok s' /\ aligned s' /\ ids s' = ids s ++ os /\ length (ss s') = length (ss s) /\ length (sd s') = length (sd s).
Proof.
  induction os as [|o os IH]; intros s HA HN HO; cbn [register].
  - exists s. rewrite app_nil_r. split; [reflexivity|split; [exact HA|repeat split]].
  - inversion HN; subst. destruct (add_new _ _ (k_zero K o) (k_dzero K o) o s HA) as (s1 & E & A1 & I1 & _ & _); [apply HO; now left|]. rewrite E. cbn [obind].
    destruct (IH s1 A1) as (s2 & E2 & A2 & I2 & L2 & M2); [assumption| |].
    { intros o' Ho'. rewrite I1, in_app_iff. intros [C|[C|[]]]; [revert C; apply HO; now right|subst; contradiction]. }
    exists s2. split; [exact E2|]. split; [exact A2|]. rewrite I2, I1, <- app_assoc. split; [reflexivity|].
    unfold add_obj in E. destruct (find_at o (ids s)); [discriminate|]. injection E as <-. cbn in L2, M2. rewrite map_length in L2, M2. now split.
Qed.
Lemma init_row_ok os : forall row sh, length row = length os -> (forall o v, In o os -> k_init K o = Some v -> exists a, v = Ok a) -> NoDup os ->
  exists row' sh', init_row K os row sh = Ok (row', sh') /\ length row' = length os /\
    (forall o, ~ In o os -> sh' o = sh o) /\ (forall o a, In o os -> k_init K o = Some (Ok a) -> sh' o = a).
Proof.
  induction os as [|o os IH]; intros row sh L H N; cbn [init_row].
  - exists row, sh. repeat split; auto. intros o a [].
  - destruct row as [|a row]; [discriminate|]. injection L as L. inversion N as [|? ? N1 N2]; subst.
    assert (forall o' v, In o' os -> k_init K o' = Some v -> exists a', v = Ok a') as H' by (intros; eapply H; [right|]; eassumption).
    destruct (k_init K o) as [v|] eqn:Ek.
    + destruct (H o v (or_introl eq_refl) Ek) as (a' & ->). cbn [obind]. destruct (IH row (show_set sh o a') L H' N2) as (row' & sh' & E & L' & I1 & I2).
      rewrite E. cbn [obind fst snd]. exists (a' :: row'), sh'. repeat split; [cbn; lia| |].
      * intros o' Ho. rewrite I1 by (intro; apply Ho; now right). unfold show_set. destruct (Nat.eqb_spec o' o) as [->|]; [exfalso; apply Ho; now left|reflexivity].
      * intros o' b [<-|Ho] Hb; [|now apply I2]. rewrite I1 by exact N1. unfold show_set. rewrite Nat.eqb_refl. congruence.
    + destruct (IH row sh L H' N2) as (row' & sh' & E & L' & I1 & I2). rewrite E. cbn [obind fst snd]. exists (a :: row'), sh'. repeat split; [cbn; lia| |].
      * intros o' Ho. apply I1. intro. apply Ho. now right.
      * intros o' b [<-|Ho] Hb; [congruence|now apply I2].
Qed.
Lemma rebuild_ok n m x : n <> 0 -> NoDup (o_list x) -> starts K x ->
  exists x', rebuild K n m x = Ok x' /\ o_list x' = o_list x /\ integrated x' /\ length (ss (o_slots x')) = n /\ length (sd (o_slots x')) = m /\
    (forall o a, In o (o_list x) -> k_init K o = Some (Ok a) -> o_show x' o = a) /\
    (forall o, ~ In o (o_list x) -> o_show x' o = o_show x o).
Proof.
  intros Hn N S. unfold rebuild. destruct (register_ok (o_list x) (no_slots n m) (empty_aligned A B n m) N (fun _ _ C => C)) as (s & -> & HA & HI & L1 & L2).
  cbn [obind]. cbn [no_slots ids app] in HI. cbn [no_slots ss sd] in L1, L2. rewrite repeat_length in L1, L2. unfold init_kind.
  destruct (ss s) as [|row rows] eqn:Es; [cbn in L1; lia|]. destruct HA as (HN & HS & HD & HM). rewrite Es in HS. inversion HS as [|? ? HR HRs]; subst.
  rewrite HI in *. destruct (init_row_ok (o_list x) row (o_show x) HR S N) as (row' & sh' & E & L' & I1 & I2). rewrite E. cbn [obind fst snd].
  eexists. split; [reflexivity|]. cbn [o_list o_slots o_show ss sd ids length]. repeat split; auto.
  constructor; assumption.
Qed.
Lemma update_row_ok os : forall row sh, length row = length os -> NoDup os -> exists sh', update_row K os row sh = Ok sh' /\
  (forall o, ~ In o os -> sh' o = sh o) /\ (forall o a, entry os row o a -> k_set K o = true -> sh' o = a).
Proof.
  induction os as [|o os IH]; intros row sh L N; cbn [update_row].
  - exists sh. repeat split; auto. intros o a ([|i] & Hi & _); discriminate.
  - destruct row as [|a row]; [discriminate|]. injection L as L. inversion N as [|? ? N1 N2]; subst. cbn [List.tl].
    destruct (k_set K o) eqn:Ek.
    + destruct (IH row (show_set sh o a) L N2) as (sh' & E & I1 & I2). rewrite E. exists sh'. split; [reflexivity|]. split.
      * intros o' Ho. rewrite I1 by (intro; apply Ho; now right). unfold show_set. destruct (Nat.eqb_spec o' o) as [->|]; [exfalso; apply Ho; now left|reflexivity].
      * intros o' b ([|i] & Hi & Hb) Hs; cbn [nth_error] in Hi, Hb.
        -- injection Hi as <-. injection Hb as <-. rewrite I1 by exact N1. unfold show_set. now rewrite Nat.eqb_refl.
        -- apply I2; [now exists i|exact Hs].
    + destruct (IH row sh L N2) as (sh' & E & I1 & I2). rewrite E. exists sh'. split; [reflexivity|]. split.
      * intros o' Ho. apply I1. intro. apply Ho. now right.
      * intros o' b ([|i] & Hi & Hb) Hs; cbn [nth_error] in Hi, Hb; [congruence|]. apply I2; [now exists i|exact Hs].
Qed.
Lemma update_row_untouched os : forall row sh sh' o, update_row K os row sh = Ok sh' -> ~ In o os -> sh' o = sh o.
Proof.
  induction os as [|o os IH]; intros row sh sh' o'; cbn [update_row].
  - intro H. now injection H as <-.
  - intros H N. assert (~ In o' os) as N' by (intro; apply N; now right).
    assert (forall a, show_set sh o a o' = sh o') as E by (intro a; unfold show_set; destruct (Nat.eqb_spec o' o) as [->|]; [exfalso; apply N; now left|reflexivity]).
    destruct (k_set K o); [destruct row as [|a row]; [discriminate|]|]; rewrite (IH _ _ _ _ H N'); [apply E|reflexivity].
Qed.
(** a list longer than the state *)
Lemma update_row_short os o : forall row sh, length row <= length os -> k_set K o = true -> update_row K (os ++ [o]) row sh = UB.
Proof.
  induction os as [|o' os IH]; intros row sh L Hs; cbn [update_row app].
  - destruct row; [|cbn in L; lia]. now rewrite Hs.
  - destruct row as [|a row]; cbn [List.tl].
    + destruct (k_set K o'); [reflexivity|]. apply IH; [cbn; lia|exact Hs].
    + cbn in L. destruct (k_set K o'); apply IH; try lia; exact Hs.
Qed.
Lemma set_row0_ok (row : list A) (x : objs A B) : ss (o_slots x) <> [] -> exists x', set_row0 row x = Ok x' /\ row0 x' = Ok row /\ o_list x' = o_list x /\
  ids (o_slots x') = ids (o_slots x) /\ o_show x' = o_show x /\ length (ss (o_slots x')) = length (ss (o_slots x)) /\
  length (sd (o_slots x')) = length (sd (o_slots x)) /\
  (integrated x -> length row = length (o_list x) -> integrated x').
Proof.
  intro H. unfold set_row0, row0. destruct (ss (o_slots x)) as [|r0 rows] eqn:E; [contradiction|]. eexists. split; [reflexivity|]. cbn [o_list o_slots o_show ss sd ids length].
  repeat split; cbn [ids ss sd msk]; try apply H0; try apply H0.
  - destruct H0 as (HI & HN & HS & HD & HM). rewrite E in HS. inversion HS; subst. constructor; [now rewrite HI|assumption].
Qed.
End Kinds.

Lemma nstate_pos c : nstate c <> 0. Proof. destruct c; discriminate. Qed.
Lemma row0_ok {A B} (x : objs A B) row : row0 x = Ok row -> integrated x -> length row = length (o_list x).
Proof.
  unfold row0. destruct (ss (o_slots x)) as [|r rows] eqn:E; [discriminate|]. intro H. injection H as <-. intros (HI & _ & HS & _). rewrite E in HS. inversion HS; subst. now rewrite <- HI.
Qed.
Section System.
Variable KB KR : kind rst drst.
Variable KP : kind pst dpst.
Variable KL : kind lst dlst.
Lemma get_state_inv y st : get_state y = Ok st ->
  row0 (y_bodies y) = Ok (s_bodies st) /\ row0 (y_rods y) = Ok (s_rods st) /\ row0 (y_points y) = Ok (s_points st) /\ row0 (y_lines y) = Ok (s_lines st).
Proof.
  unfold get_state. destruct (row0 (y_lines y)); cbn [obind]; try discriminate. destruct (row0 (y_points y)); cbn [obind]; try discriminate.
  destruct (row0 (y_rods y)); cbn [obind]; try discriminate. destruct (row0 (y_bodies y)); cbn [obind]; try discriminate. intro H. injection H as <-. auto.
Qed.
Lemma sizes_n {X} (l : list X) c : length l = nstate c -> l <> [].
Proof. intros H ->. symmetry in H. now apply nstate_pos in H. Qed.
(** everything about a successful change *)
Lemma switch_ok name c y st : create_time_scheme name = Ok c -> get_state y = Ok st -> no_repeats y -> all_start KB KR KP KL y ->
  exists y', switch KB KR KP KL name y = Ok (y', Returns MOORDYN_SUCCESS) /\ get_state y' = Ok st /\ same_objects y y' /\
    y_scheme y' = c /\ y_icfl y' = y_cfl y /\ y_cfl y' = y_cfl y /\ y_time y' = 0%R /\
    ids (o_slots (y_bodies y')) = o_list (y_bodies y) /\ ids (o_slots (y_rods y')) = o_list (y_rods y) /\
    ids (o_slots (y_points y')) = o_list (y_points y) /\ ids (o_slots (y_lines y')) = o_list (y_lines y) /\
    (sound y -> sound y') /\
    (forall o a, In o (o_list (y_bodies y)) -> k_init KB o = Some (Ok a) -> o_show (y_bodies y') o = a) /\
    (forall o a, In o (o_list (y_rods y)) -> k_init KR o = Some (Ok a) -> o_show (y_rods y') o = a) /\
    (forall o a, In o (o_list (y_points y)) -> k_init KP o = Some (Ok a) -> o_show (y_points y') o = a) /\
    (forall o a, In o (o_list (y_lines y)) -> k_init KL o = Some (Ok a) -> o_show (y_lines y') o = a) /\
    y_int y' = S (y_int y) /\ y_wint y' = y_wint y.
Proof.
  intros Hc Hg (N1 & N2 & N3 & N4) (S1 & S2 & S3 & S4). unfold switch. rewrite Hc, Hg. cbn [obind]. unfold set_time_scheme.
  destruct (rebuild_ok KB (nstate c) (nderiv c) (y_bodies y) (nstate_pos c) N1 S1) as (b & -> & b1 & b2 & b3 & b4 & b5 & _). cbn [obind].
  destruct (rebuild_ok KR (nstate c) (nderiv c) (y_rods y) (nstate_pos c) N2 S2) as (r & -> & r1 & r2 & r3 & r4 & r5 & _). cbn [obind].
  destruct (rebuild_ok KP (nstate c) (nderiv c) (y_points y) (nstate_pos c) N3 S3) as (p & -> & p1 & p2 & p3 & p4 & p5 & _). cbn [obind].
  destruct (rebuild_ok KL (nstate c) (nderiv c) (y_lines y) (nstate_pos c) N4 S4) as (l & -> & l1 & l2 & l3 & l4 & l5 & _). cbn [obind].
  unfold set_state. cbn [y_bodies y_rods y_points y_lines y_cfl y_time y_icfl y_scheme y_int y_wint].
  destruct (set_row0_ok (s_bodies st) b (sizes_n _ c b3)) as (b' & -> & B1 & B2 & B3 & B4 & B5 & B6 & B7). cbn [obind].
  destruct (set_row0_ok (s_rods st) r (sizes_n _ c r3)) as (r' & -> & R1 & R2 & R3 & R4 & R5 & R6 & R7). cbn [obind].
  destruct (set_row0_ok (s_points st) p (sizes_n _ c p3)) as (p' & -> & P1 & P2 & P3 & P4 & P5 & P6 & P7). cbn [obind].
  destruct (set_row0_ok (s_lines st) l (sizes_n _ c l3)) as (l' & -> & L1 & L2 & L3 & L4 & L5 & L6 & L7). cbn [obind].
  eexists. split; [reflexivity|]. cbn [y_bodies y_rods y_points y_lines y_cfl y_time y_icfl y_scheme y_int y_wint].
  split. { unfold get_state. cbn [y_bodies y_rods y_points y_lines]. rewrite L1, P1, R1, B1. cbn [obind]. now destruct st. }
  split. { unfold same_objects. cbn [y_bodies y_rods y_points y_lines]. repeat split; congruence. }
  do 4 (split; [reflexivity|]).
  split; [rewrite B3; destruct b2; congruence|]. split; [rewrite R3; destruct r2; congruence|]. split; [rewrite P3; destruct p2; congruence|]. split; [rewrite L3; destruct l2; congruence|].
  split.
  { intros (I1 & I2 & I3 & I4). apply get_state_inv in Hg as (G1 & G2 & G3 & G4). unfold sound. cbn [y_bodies y_rods y_points y_lines].
    split; [apply B7; [exact b2|rewrite b1; now apply row0_ok]|]. split; [apply R7; [exact r2|rewrite r1; now apply row0_ok]|].
    split; [apply P7; [exact p2|rewrite p1; now apply row0_ok]|apply L7; [exact l2|rewrite l1; now apply row0_ok]]. }
  rewrite B4, R4, P4, L4. auto 10.
Qed.
Lemma update_kind_ok {A B} (K : kind A B) x row : integrated x -> row0 x = Ok row ->
  exists x', update_kind K x = Ok x' /\ o_list x' = o_list x /\ o_slots x' = o_slots x /\
    (forall o a, entry (o_list x) row o a -> k_set K o = true -> o_show x' o = a) /\ (forall o, ~ In o (o_list x) -> o_show x' o = o_show x o).
Proof.
  intros HI Hr. pose proof (row0_ok _ _ Hr HI) as L. destruct HI as (HI & HN & _). unfold update_kind. rewrite Hr. cbn [obind]. rewrite HI in *.
  destruct (update_row_ok K (o_list x) row (o_show x) L HN) as (sh' & -> & U1 & U2). cbn [obind]. eexists. split; [reflexivity|]. cbn. auto.
Qed.
Lemma update_ok y st : sound y -> get_state y = Ok st -> exists y', update KB KR KP KL y = Ok y' /\ shows KB KR KP KL y' st /\
  same_objects y y' /\ get_state y' = Ok st /\ y_time y' = y_time y.
Proof.
  intros (I1 & I2 & I3 & I4) Hg. pose proof (get_state_inv _ _ Hg) as (G1 & G2 & G3 & G4). unfold update.
  destruct (update_kind_ok KB _ _ I1 G1) as (b & -> & b1 & b2 & b3 & _). cbn [obind]. destruct (update_kind_ok KR _ _ I2 G2) as (r & -> & r1 & r2 & r3 & _). cbn [obind].
  destruct (update_kind_ok KP _ _ I3 G3) as (p & -> & p1 & p2 & p3 & _). cbn [obind]. destruct (update_kind_ok KL _ _ I4 G4) as (l & -> & l1 & l2 & l3 & _). cbn [obind].
  eexists. split; [reflexivity|]. unfold shows, same_objects, get_state, row0. cbn [y_bodies y_rods y_points y_lines y_time]. rewrite b1, r1, p1, l1, b2, r2, p2, l2.
  split; [auto|]. split; [auto|]. split; [exact Hg|reflexivity].
Qed.
(** the loose point *)
Lemma loose_untouched y o st l p r b y1 y2 : ~ In o (ids (o_slots (y_points y))) ->
  set_rows l p r b (add_loose_point o st y) = Ok y1 -> update KB KR KP KL y1 = Ok y2 ->
  o_show (y_points y2) o = st /\ ids (o_slots (y_points y2)) = ids (o_slots (y_points y)).
Proof.
  intros N. unfold set_rows, set_state. cbn [y_bodies y_rods y_points y_lines add_loose_point].
  destruct (set_row0 _ (y_bodies y)) as [b'| | |]; cbn [obind]; try discriminate. destruct (set_row0 _ (y_rods y)) as [r'| | |]; cbn [obind]; try discriminate.
  destruct (set_row0 _ _) as [p'| | |] eqn:Ep; cbn [obind]; try discriminate. destruct (set_row0 _ (y_lines y)) as [l'| | |]; cbn [obind]; try discriminate.
  intro H. injection H as <-. unfold update. cbn [y_bodies y_rods y_points y_lines].
  destruct (update_kind KB b'); cbn [obind]; try discriminate. destruct (update_kind KR r'); cbn [obind]; try discriminate.
  destruct (update_kind KP p') as [p2| | |] eqn:Eu; cbn [obind]; try discriminate. destruct (update_kind KL l'); cbn [obind]; try discriminate.
  intro H. injection H as <-. cbn [y_points]. revert Ep. unfold set_row0. cbn [o_slots o_list o_show s_points]. destruct (ss (o_slots (y_points y))) as [|r0 rows]; [discriminate|].
  intro H. injection H as <-. revert Eu. unfold update_kind, row0. cbn [o_slots ss obind ids o_show o_list]. destruct (update_row _ _ _ _) as [sh| | |] eqn:E; cbn [obind]; try discriminate.
  intro H. injection H as <-. cbn [o_show o_slots ids]. split; [|reflexivity]. rewrite (update_row_untouched KP _ _ _ _ _ E N). unfold show_set. now rewrite Nat.eqb_refl.
Qed.
Lemma loose_switch name c y st o ps : create_time_scheme name = Ok c -> get_state y = Ok st -> sound y -> no_repeats y -> all_start KB KR KP KL (add_loose_point o ps y) ->
  ~ In o (o_list (y_points y)) -> k_set KP o = true -> exists y', switch KB KR KP KL name (add_loose_point o ps y) = Ok (y', Returns MOORDYN_SUCCESS) /\ update KB KR KP KL y' = UB.
Proof.
  intros Hc Hg Hs (N1 & N2 & N3 & N4) Ha Hn Hk. set (y1 := add_loose_point o ps y) in *.
  assert (get_state y1 = Ok st) as Hg1 by exact Hg.
  assert (no_repeats y1) as N'.
  { unfold no_repeats, y1, add_loose_point. cbn [y_bodies y_rods y_points y_lines o_list]. split; [exact N1|]. split; [exact N2|]. split; [|exact N4].
    rewrite <- (rev_involutive (_ ++ [o])). apply NoDup_rev. rewrite rev_app_distr. cbn. constructor; [now rewrite <- in_rev|now apply NoDup_rev]. }
  destruct (switch_ok name c y1 st Hc Hg1 N' Ha) as (y' & E & G & _ & _ & _ & _ & _ & J1 & J2 & J3 & J4 & _). exists y'. split; [exact E|].
  apply get_state_inv in G as (G1 & G2 & G3 & G4). pose proof (get_state_inv _ _ Hg) as (F1 & F2 & F3 & F4). destruct Hs as (I1 & I2 & I3 & I4).
  unfold update. destruct (update_kind KB (y_bodies y')) as [b| | |] eqn:Eb.
  2-4: exfalso; revert Eb; unfold update_kind; rewrite G1; cbn [obind]; rewrite J1; change (o_list (y_bodies y1)) with (o_list (y_bodies y));
    destruct (update_row_ok KB (o_list (y_bodies y)) (s_bodies st) (o_show (y_bodies y')) (row0_ok _ _ F1 I1) N1) as (sh' & -> & _); discriminate.
  cbn [obind]. destruct (update_kind KR (y_rods y')) as [r| | |] eqn:Er.
  2-4: exfalso; revert Er; unfold update_kind; rewrite G2; cbn [obind]; rewrite J2; change (o_list (y_rods y1)) with (o_list (y_rods y));
    destruct (update_row_ok KR (o_list (y_rods y)) (s_rods st) (o_show (y_rods y')) (row0_ok _ _ F2 I2) N2) as (sh' & -> & _); discriminate.
  cbn [obind]. unfold update_kind at 1. rewrite G3. cbn [obind]. rewrite J3. change (o_list (y_points y1)) with (o_list (y_points y) ++ [o]).
  rewrite (update_row_short KP); [reflexivity| |exact Hk]. rewrite (row0_ok _ _ F3 I3). lia.
Qed.
Lemma switch_unknown name e y : create_time_scheme name = Throw e -> switch KB KR KP KL name y = Ok (y, moordyn_catcher e).
Proof. intro H. unfold switch. now rewrite H. Qed.
Lemma switch_waves name c y st t : create_time_scheme name = Ok c -> get_state y = Ok st -> no_repeats y -> all_start KB KR KP KL y -> waves_time y = Ok t ->
  exists y', switch KB KR KP KL name y = Ok (y', Returns MOORDYN_SUCCESS) /\ waves_time y' = UB.
Proof.
  intros Hc Hg Hn Ha Hw. destruct (switch_ok name c y st Hc Hg Hn Ha) as (y' & E & _ & _ & _ & _ & _ & _ & _ & _ & _ & _ & _ & _ & _ & _ & _ & W1 & W2).
  exists y'. split; [exact E|]. revert Hw. unfold waves_time. rewrite W1, W2. destruct (Nat.eqb_spec (y_wint y) (y_int y)) as [->|]; [|discriminate].
  intros _. destruct (Nat.eqb_spec (y_int y) (S (y_int y))); [lia|reflexivity].
Qed.
End System.
