(** Lines and points of a part of a system: kinematics handed to the lines, forces and derivatives. *)
From Coq Require Import Reals List Arith ZArith Bool Lra Lia Permutation FunctionalExtensionality.
From Verif Require Import MErr MVec MStateOps MMat MInterp MLine MRod MBody MScheme MSys PLine SPart PPart PPartB.
From Verif Require MStep MNodes.
Import ListNotations.
Open Scope R_scope.

(* ----- ranks of the coupled points ----- *)
Lemma rank_S t ty k : coupled_no (t :: ty) (S k) = ((match t with PCoupled => 1 | _ => 0 end) + coupled_no ty k)%nat.
Proof. unfold coupled_no. cbn [firstn filter]. now destruct t. Qed.
Lemma count_cons t ty : coupled_count (t :: ty) = ((match t with PCoupled => 1 | _ => 0 end) + coupled_count ty)%nat.
Proof. unfold coupled_count. cbn [length]. apply rank_S. Qed.
Lemma rank_lt ty k : nth_error ty k = Some PCoupled -> (coupled_no ty k < coupled_count ty)%nat.
Proof.
  revert k. induction ty as [|t ty IH]; intros [|k] H; cbn in H; try discriminate.
  - injection H as ->. rewrite count_cons. change (coupled_no (PCoupled :: ty) 0) with 0%nat. lia.
  - rewrite rank_S, count_cons. specialize (IH k H). lia.
Qed.
Lemma rank_onto ty j : (j < coupled_count ty)%nat -> exists k, nth_error ty k = Some PCoupled /\ coupled_no ty k = j.
Proof.
  revert j. induction ty as [|t ty IH]; intros j H; [cbn in H; lia|]. rewrite count_cons in H.
  destruct t.
  - destruct j as [|j]; [exists 0%nat; split; reflexivity|]. destruct (IH j ltac:(lia)) as (k & H1 & H2). exists (S k). split; [exact H1|]. rewrite rank_S, H2. lia.
  - destruct (IH j ltac:(lia)) as (k & H1 & H2). exists (S k). split; [exact H1|]. rewrite rank_S, H2. lia.
  - destruct (IH j ltac:(lia)) as (k & H1 & H2). exists (S k). split; [exact H1|]. rewrite rank_S, H2. lia.
Qed.
(* ----- the kinematics of the points ----- *)
Lemma set_points_nth ps : forall i cs st r, set_points i ps cs st = Ok r -> length r = length ps /\ map sp_type r = map sp_type ps /\ map sp_att r = map sp_att ps /\ (coupled_count (map sp_type ps) <= length cs)%nat /\
  forall k p, nth_error ps k = Some p -> match sp_type p with
    | PCoupled => exists c, nth_error cs (coupled_no (map sp_type ps) k) = Some c /\ nth_error r k = Some (sp_move p (MStep.p_r c) (MStep.p_rd c))
    | PFree => exists s, nth_error st (i + k) = Some s /\ nth_error r k = Some (sp_move p (pos s) (vel s))
    | PFixed => nth_error r k = Some p end.
Proof.
  induction ps as [|p ps IH]; intros i cs st r H; cbn [set_points] in H.
  - injection H as <-. repeat split; [cbn; lia|]. intros [|k] p; discriminate.
  - cbn [map]. destruct (sp_type p) eqn:ET.
    + destruct cs as [|c cs]; [discriminate|]. destruct (set_points (S i) ps cs st) as [r1| | |] eqn:E; cbn in H; try discriminate. injection H as <-. destruct (IH _ _ _ _ E) as (L & T1 & A1 & C1 & N). rewrite count_cons. cbn. rewrite L, T1, A1, ET. repeat (split; [reflexivity|]). split; [lia|].
      intros [|k] x Hx; cbn in Hx; [injection Hx as <-; rewrite ET; exists c; split; reflexivity|]. specialize (N k x Hx). rewrite rank_S. replace (i + S k)%nat with (S i + k)%nat by lia. exact N.
    + destruct (vget st i) as [s| | |] eqn:ES; cbn in H; try discriminate. destruct (set_points (S i) ps cs st) as [r1| | |] eqn:E; cbn in H; try discriminate. injection H as <-. destruct (IH _ _ _ _ E) as (L & T1 & A1 & C1 & N). rewrite count_cons. cbn. rewrite L, T1, A1, ET. repeat (split; [reflexivity|]). split; [lia|].
      intros [|k] x Hx; cbn in Hx. { injection Hx as <-. rewrite ET. exists s. split; [|reflexivity]. rewrite Nat.add_0_r. unfold vget in ES. destruct (nth_error st i); [congruence|discriminate]. }
      specialize (N k x Hx). rewrite rank_S. replace (i + S k)%nat with (S i + k)%nat by lia. exact N.
    + destruct (set_points (S i) ps cs st) as [r1| | |] eqn:E; cbn in H; try discriminate. injection H as <-. destruct (IH _ _ _ _ E) as (L & T1 & A1 & C1 & N). rewrite count_cons. cbn. rewrite L, T1, A1, ET. repeat (split; [reflexivity|]). split; [lia|].
      intros [|k] x Hx; cbn in Hx; [injection Hx as <-; now rewrite ET|]. specialize (N k x Hx). rewrite rank_S. replace (i + S k)%nat with (S i + k)%nat by lia. exact N.
Qed.
Lemma set_points_ok ps : forall i cs st, (coupled_count (map sp_type ps) <= length cs)%nat -> (i + length ps <= length st)%nat -> exists r, set_points i ps cs st = Ok r.
Proof.
  induction ps as [|p ps IH]; intros i cs st HC HS; cbn [set_points]; [eauto|]. cbn [map length] in HC, HS. rewrite count_cons in HC. destruct (sp_type p).
  - destruct cs as [|c cs]; [cbn in HC; lia|]. cbn in HC. destruct (IH (S i) cs st ltac:(lia) ltac:(lia)) as (r & ->). cbn. eauto.
  - unfold vget. destruct (nth_error st i) as [s|] eqn:E; [|apply nth_error_None in E; lia]. cbn. destruct (IH (S i) cs st ltac:(lia) ltac:(lia)) as (r & ->). cbn. eauto.
  - destruct (IH (S i) cs st ltac:(lia) ltac:(lia)) as (r & ->). cbn. eauto.
Qed.
(* ----- the ends of the lines ----- *)
Notation kin := (v3 * v3)%type.
Fixpoint writes (L : line) (ws : list (Z * kin)) : outcome line :=
  match ws with [] => Ok L | (ep, v) :: ws' => L' <- set_end L ep (fst v) (snd v) ;; writes L' ws' end.
Definition ends_at (i : nat) (a : list (nat * Z)) (v : kin) : list (Z * kin) := map (fun x => (snd x, v)) (filter (fun x : nat * Z => Nat.eqb (fst x) i) a).
Definition ends_of (ps : list spoint) (i : nat) : list (Z * kin) := flat_map (fun p => ends_at i (sp_att p) (sp_r p, sp_rd p)) ps.
Lemma writes_app L a b : writes L (a ++ b) = obind (writes L a) (fun L' => writes L' b).
Proof. revert L. induction a as [|[ep v] a IH]; intro L; cbn [writes app]; [reflexivity|]. destruct (set_end L ep (fst v) (snd v)); cbn; auto. Qed.
Lemma vset_nth {A} (l : list A) i x r : vset l i x = Ok r -> length r = length l /\ (i < length l)%nat /\ forall j, nth_error r j = if Nat.eqb j i then Some x else nth_error l j.
Proof.
  revert i r. induction l as [|y l IH]; intros [|i] r H; cbn in H; try discriminate.
  - injection H as <-. cbn. split; [reflexivity|]. split; [lia|]. now intros [|j].
  - destruct (vset l i x) as [r1| | |] eqn:E; cbn in H; try discriminate. injection H as <-. destruct (IH i r1 E) as (L & B & N). cbn. split; [lia|]. split; [lia|]. intros [|j]; cbn; [reflexivity|apply N].
Qed.
Lemma vset_ok {A} (l : list A) i x : (i < length l)%nat -> exists r, vset l i x = Ok r.
Proof. revert i. induction l as [|y l IH]; intros [|i] H; cbn in *; try lia; eauto. destruct (IH i ltac:(lia)) as (r & ->). cbn. eauto. Qed.
Lemma vget_nth {A} (l : list A) i x : vget l i = Ok x -> nth_error l i = Some x.
Proof. unfold vget. destruct (nth_error l i); [congruence|discriminate]. Qed.
Lemma nth_vget {A} (l : list A) i x : nth_error l i = Some x -> vget l i = Ok x.
Proof. unfold vget. now intros ->. Qed.
Lemma pass_ends_nth a r rd : forall ls ls2, pass_ends a r rd ls = Ok ls2 -> length ls2 = length ls /\ forall i L, nth_error ls i = Some L -> exists L2, writes L (ends_at i a (r, rd)) = Ok L2 /\ nth_error ls2 i = Some L2.
Proof.
  induction a as [|[j ep] a IH]; intros ls ls2 H; cbn [pass_ends] in H.
  - injection H as <-. split; [reflexivity|]. intros i L HL. exists L. split; [reflexivity|exact HL].
  - destruct (vget ls j) as [Lj| | |] eqn:EJ; cbn in H; try discriminate. destruct (set_end Lj ep r rd) as [Lj'| | |] eqn:ES; cbn in H; try discriminate. destruct (vset ls j Lj') as [ls1| | |] eqn:EV; cbn in H; try discriminate.
    destruct (vset_nth _ _ _ _ EV) as (VL & VB & VN). destruct (IH ls1 ls2 H) as (L2 & N). split; [congruence|]. intros i L HL. unfold ends_at. cbn [filter fst]. destruct (Nat.eqb_spec j i) as [->|NE].
    + rewrite (vget_nth _ _ _ EJ) in HL. injection HL as ->. cbn [map snd writes fst]. rewrite ES. cbn [obind]. apply (N i). rewrite VN, Nat.eqb_refl. reflexivity.
    + apply (N i). rewrite VN. destruct (Nat.eqb_spec i j); [congruence|exact HL].
Qed.
Lemma pass_points_nth ps : forall ls ls2, pass_points ps ls = Ok ls2 -> length ls2 = length ls /\ forall i L, nth_error ls i = Some L -> exists L2, writes L (ends_of ps i) = Ok L2 /\ nth_error ls2 i = Some L2.
Proof.
  induction ps as [|p ps IH]; intros ls ls2 H; cbn [pass_points] in H.
  - injection H as <-. split; [reflexivity|]. intros i L HL. exists L. split; [reflexivity|exact HL].
  - destruct (pass_ends _ _ _ ls) as [ls1| | |] eqn:E; cbn in H; try discriminate. destruct (pass_ends_nth _ _ _ _ _ E) as (L1 & N1). destruct (IH _ _ H) as (L2 & N2). split; [congruence|]. intros i L HL. destruct (N1 i L HL) as (X & X1 & X2). destruct (N2 i X X2) as (Y & Y1 & Y2). exists Y. split; [|exact Y2].
    unfold ends_of. cbn [flat_map]. rewrite writes_app, X1. exact Y1.
Qed.
Definition an_end (ep : Z) : Prop := ep = ENDPOINT_A \/ ep = ENDPOINT_B.
Lemma set_end_ok L ep r rd : an_end ep -> exists L', set_end L ep r rd = Ok L'.
Proof. intros [->| ->]; unfold set_end; cbn; eauto. Qed.
Lemma pass_ends_ok a r rd : forall ls, (forall i ep, In (i, ep) a -> (i < length ls)%nat /\ an_end ep) -> exists ls2, pass_ends a r rd ls = Ok ls2.
Proof.
  induction a as [|[j ep] a IH]; intros ls H; cbn [pass_ends]; [eauto|]. destruct (H j ep (or_introl eq_refl)) as (H1 & H2). destruct (nth_some ls j H1) as (L & EL). rewrite (nth_vget _ _ _ EL). cbn [obind]. destruct (set_end_ok L ep r rd H2) as (L' & ->). cbn [obind]. destruct (vset_ok ls j L' H1) as (ls1 & EV). rewrite EV. cbn [obind].
  apply IH. intros i e Hi. rewrite (proj1 (vset_nth _ _ _ _ EV)). apply H. now right.
Qed.
Lemma pass_points_ok ps : forall ls, (forall p i ep, In p ps -> In (i, ep) (sp_att p) -> (i < length ls)%nat /\ an_end ep) -> exists ls2, pass_points ps ls = Ok ls2.
Proof.
  induction ps as [|p ps IH]; intros ls H; cbn [pass_points]; [eauto|]. destruct (pass_ends_ok (sp_att p) (sp_r p) (sp_rd p) ls) as (ls1 & E1); [intros i ep Hi; apply (H p); [now left|exact Hi]|]. rewrite E1. cbn [obind]. apply IH. intros x i ep Hx Hi. rewrite (proj1 (pass_ends_nth _ _ _ _ _ E1)). apply (H x); [now right|exact Hi].
Qed.
Fixpoint last_at (ep : Z) (ws : list (Z * kin)) (d : kin) : kin := match ws with [] => d | (e, v) :: ws' => last_at ep ws' (if Z.eqb e ep then v else d) end.
Lemma last_none ep ws d : (forall v, ~ In (ep, v) ws) -> last_at ep ws d = d.
Proof.
  revert d. induction ws as [|[e v] ws IH]; intros d H; cbn [last_at]; [reflexivity|]. destruct (Z.eqb_spec e ep) as [->|N]; [exfalso; apply (H v); now left|]. apply IH. intros w Hw. apply (H w). now right.
Qed.
Lemma last_some ep ws d v : In (ep, v) ws -> (forall v', In (ep, v') ws -> v' = v) -> last_at ep ws d = v.
Proof.
  revert d. induction ws as [|[e w] ws IH]; intros d H U; [destruct H|]. cbn [last_at]. assert (D : {x | In (ep, x) ws} + {forall x, ~ In (ep, x) ws}).
  { clear. induction ws as [|[e w] ws [[x Hx]|N]]; [right; intros x []|left; exists x; now right|]. destruct (Z.eq_dec e ep) as [->|NE]; [left; exists w; now left|right]. intros x [E|Hx]; [congruence|exact (N x Hx)]. }
  destruct D as [[x Hx]|N].
  - assert (x = v) by (apply U; now right). subst x. apply IH; [exact Hx|]. intros v' Hv. apply U. now right.
  - destruct H as [E|H]; [|exfalso; exact (N v H)]. injection E as -> ->. rewrite last_none by exact N. now rewrite Z.eqb_refl.
Qed.
Definition node_after (L : line) (ws : list (Z * kin)) (j : nat) : kin :=
  if Nat.eqb j (lN L) then last_at ENDPOINT_B ws (lr L j, lrd L j) else if Nat.eqb j 0 then last_at ENDPOINT_A ws (lr L j, lrd L j) else (lr L j, lrd L j).
Lemma line_nodes_eta L : L = line_nodes L (lr L) (lrd L). Proof. now destruct L. Qed.
Lemma writes_eq L ws : (0 < lN L)%nat -> (forall ep v, In (ep, v) ws -> an_end ep) -> writes L ws = Ok (line_nodes L (fun j => fst (node_after L ws j)) (fun j => snd (node_after L ws j))).
Proof.
  revert L. induction ws as [|[ep v] ws IH]; intros L HN H; cbn [writes].
  - f_equal. rewrite (line_nodes_eta L) at 1. f_equal; apply functional_extensionality; intro j; unfold node_after; cbn [last_at]; destruct (Nat.eqb j (lN L)), (Nat.eqb j 0); reflexivity.
  - assert (HV : forall e w, In (e, w) ws -> an_end e) by (intros e w Hw; apply (H e w); now right). destruct (H ep v (or_introl eq_refl)) as [->| ->]; unfold set_end; cbn [Z.eqb ENDPOINT_A ENDPOINT_B Pos.eqb obind]; rewrite IH by assumption; f_equal; cbn; unfold line_nodes; cbn; f_equal; apply functional_extensionality; intro j; unfold node_after; cbn [lr lrd lN last_at put_node];
      unfold put_node; destruct (Nat.eqb_spec j (lN L)); destruct (Nat.eqb_spec j 0); cbn [Z.eqb ENDPOINT_A ENDPOINT_B Pos.eqb]; try lia; subst; rewrite ?Nat.eqb_refl; try reflexivity; destruct v; try reflexivity.
Qed.
Lemma writes_same L ws ws' : (0 < lN L)%nat -> (forall ep v, In (ep, v) ws -> an_end ep) -> (forall ep v v', In (ep, v) ws -> In (ep, v') ws -> v = v') -> (forall x, In x ws <-> In x ws') -> writes L ws = writes L ws'.
Proof.
  intros HN HV HF HI. rewrite !writes_eq; [|exact HN|intros ep v Hv; apply (HV ep v), HI, Hv|exact HN|exact HV].
  assert (E : forall ep d, last_at ep ws d = last_at ep ws' d).
  { intros ep d. assert (D : {x | In (ep, x) ws} + {forall x, ~ In (ep, x) ws}).
    { clear. induction ws as [|[e w] ws [[x Hx]|N]]; [right; intros x []|left; exists x; now right|]. destruct (Z.eq_dec e ep) as [->|NE]; [left; exists w; now left|right]. intros x [E|Hx]; [congruence|exact (N x Hx)]. }
    destruct D as [[x Hx]|N].
    - rewrite (last_some ep ws d x Hx), (last_some ep ws' d x); [reflexivity|now apply HI| |]; intros v' Hv; [apply HI in Hv|]; exact (HF _ _ _ Hv Hx).
    - rewrite !last_none; [reflexivity| |exact N]. intros v Hv. apply (N v). now apply HI. }
  do 2 f_equal; apply functional_extensionality; intro j; unfold node_after; rewrite !E; reflexivity.
Qed.
Lemma ends_of_in ps i ep v : In (ep, v) (ends_of ps i) <-> exists k p, nth_error ps k = Some p /\ In (i, ep) (sp_att p) /\ v = (sp_r p, sp_rd p).
Proof.
  unfold ends_of, ends_at. rewrite in_flat_map. split.
  - intros (p & Hp & H). apply in_map_iff in H. destruct H as ((j & e) & E & H). apply filter_In in H. destruct H as (H & K). cbn in E, K. apply Nat.eqb_eq in K. subst j. injection E as -> <-. apply In_nth_error in Hp. destruct Hp as (k & Hk). eauto.
  - intros (k & p & Hk & H & ->). exists p. split; [exact (nth_error_In _ _ Hk)|]. apply in_map_iff. exists (i, ep). split; [reflexivity|]. apply filter_In. split; [exact H|]. apply Nat.eqb_refl.
Qed.
Lemma writes_lN L ws L2 : writes L ws = Ok L2 -> lN L2 = lN L.
Proof.
  revert L. induction ws as [|[ep v] ws IH]; intros L H; cbn [writes] in H; [injection H as <-; reflexivity|]. destruct (set_end L ep (fst v) (snd v)) as [L1| | |] eqn:E; cbn in H; try discriminate. rewrite (IH L1 H). unfold set_end in E. destruct (Z.eqb ep ENDPOINT_B); [injection E as <-; reflexivity|]. destruct (Z.eqb ep ENDPOINT_A); [injection E as <-; reflexivity|discriminate].
Qed.
(* ----- lines one by one ----- *)
Lemma set_lines_zip ls : forall i st, set_lines i ls st = zipw line_set_state ls (skipn i st).
Proof.
  induction ls as [|L ls IH]; intros i st; [reflexivity|]. cbn [set_lines]. unfold vget. rewrite IH. assert (E : skipn i st = match nth_error st i with Some s => s :: skipn (S i) st | None => [] end).
  { clear. revert st. induction i as [|i IH]; intros [|s st]; cbn; try reflexivity. rewrite IH. destruct st; reflexivity. }
  rewrite E. destruct (nth_error st i); reflexivity.
Qed.
Lemma with_lengths_zip ls us : with_lengths ls us = zipw (fun L u => Ok (line_lengths L (MStep.u_seg u))) ls us.
Proof. revert us. induction ls as [|L ls IH]; intros [|u us]; cbn [with_lengths zipw]; try reflexivity. now rewrite IH. Qed.
(* ----- points, attachments in any order ----- *)
Definition foundR {A A'} (P : A -> A' -> Prop) (no : nat -> nat) (l : list A) (l' : list A') : Prop := forall i x, nth_error l i = Some x -> exists x', nth_error l' (no i) = Some x' /\ P x x'.
Lemma zipw_partR {A A' B B' C C'} (P : A -> A' -> Prop) (Q : B -> B' -> Prop) (T : C -> C' -> Prop) f f' no l l' m m' : length l = length m -> foundR P no l l' -> foundR Q no m m' ->
  (forall a a' b b', P a a' -> Q b b' -> orel T (f a b) (f' a' b')) -> orel (fun r r' => foundR T no r r' /\ length r = length l) (zipw f l m) (zipw f' l' m').
Proof.
  intros HL H1 H2 HF r' E. destruct (zipw_nth f' l' m' r' E) as (_ & _ & N).
  assert (K : forall i a b, nth_error l i = Some a -> nth_error m i = Some b -> exists c c', f a b = Ok c /\ nth_error r' (no i) = Some c' /\ T c c').
  { intros i a b Ha Hb. destruct (H1 i a Ha) as (a' & Ha' & PA). destruct (H2 i b Hb) as (b' & Hb' & QB). destruct (N _ a' b' Ha' Hb') as (c' & E1 & E2). destruct (HF a a' b b' PA QB c' E1) as (c & E3 & TC). exists c, c'. auto. }
  destruct (zipw_ok f l m HL) as (r & ER). { intros i a b Ha Hb. destruct (K i a b Ha Hb) as (c & c' & H & _). eauto. }
  exists r. split; [exact ER|]. destruct (zipw_nth f l m r ER) as (_ & L2 & N1). split; [|exact L2]. intros i c Hc. destruct (nth_some l i) as (a & Ha); [rewrite <- L2; eapply some_lt; eassumption|]. destruct (nth_some m i) as (b & Hb); [rewrite <- HL, <- L2; eapply some_lt; eassumption|].
  destruct (K i a b Ha Hb) as (c1 & c' & F1 & X & TC). destruct (N1 i a b Ha Hb) as (c2 & F2 & N2). exists c'. split; [exact X|]. congruence.
Qed.
Lemma omap_perm {A B} (f : A -> outcome B) l l' : Permutation l l' -> forall r', omap f l' = Ok r' -> exists r, omap f l = Ok r /\ Permutation r r'.
Proof.
  induction 1 as [|x l l' H IH|x y l|l1 l2 l3 H1 IH1 H2 IH2]; intros r' E; cbn [omap] in E |- *.
  - eauto.
  - destruct (f x) as [b| | |]; cbn in E |- *; try discriminate. destruct (omap f l') as [r1| | |]; cbn in E; try discriminate. injection E as <-. destruct (IH r1 eq_refl) as (r & -> & HP). cbn. eexists. split; [reflexivity|]. now constructor.
  - destruct (f x) as [b| | |]; cbn in E |- *; try discriminate. destruct (f y) as [c| | |]; cbn in E |- *; try discriminate. destruct (omap f l) as [r1| | |]; cbn in E |- *; try discriminate. injection E as <-. eexists. split; [reflexivity|]. constructor.
  - destruct (IH2 r' E) as (r2 & E2 & P2). destruct (IH1 r2 E2) as (r1 & E1 & P1). exists r1. split; [exact E1|]. now transitivity r2.
Qed.
Lemma end_stuff_cases l ep : (exists s, getEndStuff l ep = Ok s) \/ getEndStuff l ep = Throw ExInvalidValue.
Proof. unfold getEndStuff. destruct (Z.eqb ep ENDPOINT_B); [eauto|]. destruct (Z.eqb ep ENDPOINT_A); eauto. Qed.
Lemma lines_bad l ln ep F M : In (ln, ep) l -> getEndStuff ln ep = Throw ExInvalidValue -> point_lines l F M = Throw ExInvalidValue.
Proof.
  revert F M. induction l as [|[a b] l IH]; intros F M H E; [destruct H|]. cbn [point_lines]. destruct (end_stuff_cases a b) as [(s & Es)|Es]; rewrite Es; cbn [obind]; [|reflexivity]. destruct H as [H|H]; [injection H as -> ->; congruence|]. now apply IH.
Qed.
Lemma madd_swap a b c : madd (madd a b) c = madd (madd a c) b. Proof. destruct a, b, c. unfold madd. cbn. f_equal; unfold vadd; cbn; f_equal; ring. Qed.
Lemma vadd_swap a b c : vadd (vadd a b) c = vadd (vadd a c) b. Proof. destruct a, b, c. unfold vadd. cbn. f_equal; ring. Qed.
Lemma point_lines_perm l l' : Permutation l l' -> forall F M, point_lines l F M = point_lines l' F M.
Proof.
  induction 1 as [|[a e] l l' H IH|[a e] [b e'] l|l1 l2 l3 H1 IH1 H2 IH2]; intros F M; cbn [point_lines]; [reflexivity| | |now rewrite IH1].
  - destruct (getEndStuff a e); cbn [obind]; auto.
  - destruct (end_stuff_cases a e) as [(s & ->)|Es], (end_stuff_cases b e') as [(s' & ->)|Es']; cbn [obind]; rewrite ?Es, ?Es'; cbn [obind]; try reflexivity. now rewrite vadd_swap, madd_swap.
Qed.
