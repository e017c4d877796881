(** Proofs about the string helpers of MStr.v. *)
From Coq Require Import List Ascii NArith ZArith Bool Lia Arith.
From Verif Require Import MStr.
Import ListNotations.

(** ** Specification vocabulary *)

(** A word with respect to a separator. *)
Definition is_word (sep : ascii) (w : str) : Prop := w <> [] /\ ~ In sep w.

(** The text obtained by writing the words in order, each followed by a number of
    separators. *)
Fixpoint layout (sep : ascii) (ws : list (str * nat)) : str :=
  match ws with
  | [] => []
  | (w, k) :: r => w ++ repeat sep k ++ layout sep r
  end.

(** Consecutive words are separated by at least one separator. *)
Fixpoint well_separated (sep : ascii) (ws : list (str * nat)) : Prop :=
  match ws with
  | [] => True
  | (w, k) :: r => is_word sep w /\ (r <> [] -> 1 <= k) /\ well_separated sep r
  end.

(** ** getline *)

Lemma getline_none sep s tok :
  getline sep s = (tok, None) -> s = tok /\ ~ In sep s.
Proof.
  revert tok. induction s as [|c s IH]; cbn; intros tok H.
  - inversion H; subst. split; [reflexivity|intros []].
  - destruct (Ascii.eqb_spec c sep) as [->|Hc]; [discriminate|].
    destruct (getline sep s) as [tok' r'] eqn:E. inversion H; subst.
    destruct (IH tok' eq_refl) as [-> Hn]. split; [reflexivity|].
    intros [->|Hin]; [now apply Hc|now apply Hn].
Qed.

Lemma getline_some sep s tok r :
  getline sep s = (tok, Some r) -> s = tok ++ sep :: r /\ ~ In sep tok.
Proof.
  revert tok. induction s as [|c s IH]; cbn; intros tok H; [discriminate|].
  destruct (Ascii.eqb_spec c sep) as [->|Hc].
  - inversion H; subst. split; [reflexivity|intros []].
  - destruct (getline sep s) as [tok' r'] eqn:E. inversion H; subst.
    destruct (IH tok' eq_refl) as [-> Hn]. split; [reflexivity|].
    intros [->|Hin]; [now apply Hc|now apply Hn].
Qed.

Lemma getline_word sep w : ~ In sep w -> getline sep w = (w, None).
Proof.
  induction w as [|c w IH]; cbn; intros H; [reflexivity|].
  destruct (Ascii.eqb_spec c sep) as [->|Hc]; [exfalso; apply H; now left|].
  rewrite IH; [reflexivity|]. intros Hi; apply H; now right.
Qed.

Lemma getline_word_sep sep w r : ~ In sep w -> getline sep (w ++ sep :: r) = (w, Some r).
Proof.
  induction w as [|c w IH]; cbn; intros H.
  - now rewrite Ascii.eqb_refl.
  - destruct (Ascii.eqb_spec c sep) as [->|Hc]; [exfalso; apply H; now left|].
    rewrite IH; [reflexivity|]. intros Hi; apply H; now right.
Qed.

Lemma getlines_fuel sep s : forall f1 f2, length s <= f1 -> length s <= f2 ->
  getlines f1 sep s = getlines f2 sep s.
Proof.
  induction s as [s IH] using (induction_ltof1 _ (@length ascii)). unfold ltof in IH.
  intros f1 f2 H1 H2.
  destruct s as [|c s]; [destruct f1, f2; reflexivity|].
  destruct f1 as [|f1]; [cbn in H1; lia|]. destruct f2 as [|f2]; [cbn in H2; lia|].
  cbn [getlines]. destruct (getline sep (c :: s)) as [tok [r|]] eqn:E; [|reflexivity].
  destruct (getline_some _ _ _ _ E) as [Hs _].
  assert (Hl : length (c :: s) = length tok + S (length r)).
  { rewrite Hs, app_length. reflexivity. }
  f_equal. apply IH; lia.
Qed.

Definition gl sep s := getlines (length s) sep s.

Lemma gl_nil sep : gl sep [] = [].
Proof. reflexivity. Qed.

Lemma gl_word sep w : w <> [] -> ~ In sep w -> gl sep w = [w].
Proof.
  intros Hn Hi. destruct w as [|c w]; [congruence|]. unfold gl. cbn [length getlines].
  rewrite getline_word by assumption. reflexivity.
Qed.

Lemma gl_word_sep sep w r : ~ In sep w -> gl sep (w ++ sep :: r) = w :: gl sep r.
Proof.
  intros Hi. unfold gl at 1. rewrite app_length. cbn [length].
  replace (length w + S (length r)) with (S (length w + length r)) by lia.
  destruct (w ++ sep :: r) as [|c s] eqn:E; [destruct w; discriminate|].
  cbn [getlines]. rewrite <- E, getline_word_sep by assumption.
  f_equal. apply getlines_fuel; lia.
Qed.

(** ** split *)

Lemma split_sep_eq s sep : split_sep s sep = filter nonempty (gl sep s).
Proof. reflexivity. Qed.

Lemma split_sep_lead s sep : split_sep (sep :: s) sep = split_sep s sep.
Proof.
  rewrite !split_sep_eq. change (sep :: s) with ([] ++ sep :: s).
  rewrite gl_word_sep by (intros []). reflexivity.
Qed.

Lemma split_sep_leads k s sep : split_sep (repeat sep k ++ s) sep = split_sep s sep.
Proof. induction k as [|k IH]; cbn [repeat app]; [reflexivity|]. now rewrite split_sep_lead. Qed.

Lemma split_sep_word_sep w s sep :
  is_word sep w -> split_sep (w ++ sep :: s) sep = w :: split_sep s sep.
Proof.
  intros [Hn Hi]. rewrite !split_sep_eq, gl_word_sep by assumption.
  destruct w; [congruence|reflexivity].
Qed.

Lemma split_sep_word w sep : is_word sep w -> split_sep w sep = [w].
Proof.
  intros [Hn Hi]. rewrite split_sep_eq, gl_word by assumption. destruct w; [congruence|reflexivity].
Qed.

Lemma split_sep_layout sep ws : well_separated sep ws -> split_sep (layout sep ws) sep = map fst ws.
Proof.
  induction ws as [|[w k] ws IH]; cbn [layout well_separated map fst]; [reflexivity|].
  intros (Hw & Hk & Hr). destruct k as [|k].
  - assert (ws = []) as -> by (destruct ws; [reflexivity|exfalso; assert (1 <= 0) by (apply Hk; discriminate); lia]).
    cbn. rewrite app_nil_r. now apply split_sep_word.
  - cbn [repeat app]. rewrite split_sep_word_sep by assumption.
    rewrite split_sep_leads, IH by assumption. reflexivity.
Qed.

Lemma split_sep_complete sep lead ws : well_separated sep ws ->
  split_sep (repeat sep lead ++ layout sep ws) sep = map fst ws.
Proof. intros H. rewrite split_sep_leads. now apply split_sep_layout. Qed.

Lemma layout_exists sep s : exists lead ws,
  well_separated sep ws /\ s = repeat sep lead ++ layout sep ws.
Proof.
  induction s as [|c s IH].
  - exists 0, []. now split.
  - destruct IH as (lead & ws & Hws & ->).
    destruct (Ascii.eqb_spec c sep) as [->|Hc].
    + exists (S lead), ws. now split.
    + destruct lead as [|lead].
      * destruct ws as [|[w k] ws].
        -- exists 0, [([c], 0)]. cbn. repeat split; [discriminate|intros [->|[]]; congruence|intros Hx; now elim Hx].
        -- cbn in Hws. destruct Hws as ([Hn Hi] & Hk & Hr).
           exists 0, ((c :: w, k) :: ws). cbn. repeat split; try assumption; try discriminate.
           intros [->|Hin]; [congruence|contradiction].
      * exists 0, (([c], S lead) :: ws). cbn. repeat split; try assumption; try discriminate; try lia.
        intros [->|[]]; congruence.
Qed.

(** ** split on blanks (space, or else tab) *)

Lemma split_spaces lead ws :
  well_separated space ws -> (forall w, In w (map fst ws) -> ~ In tab w) ->
  split (repeat space lead ++ layout space ws) = map fst ws.
Proof.
  intros Hws Ht. unfold split. rewrite split_sep_complete by assumption.
  destruct (map fst ws) as [|w [|w' l]] eqn:E; try reflexivity.
  apply split_sep_word. split; [|apply Ht; now left].
  destruct ws as [|[w0 k] ws]; [discriminate|]. cbn in E. inversion E; subst.
  cbn in Hws. apply Hws.
Qed.

Lemma no_space_split_sep s : ~ In space s -> split s = split_sep s tab.
Proof.
  intros Hs. unfold split. destruct s as [|c s]; [reflexivity|].
  rewrite split_sep_word by (split; [discriminate|assumption]). reflexivity.
Qed.

Lemma layout_no_other sep ws c : c <> sep -> (forall w, In w (map fst ws) -> ~ In c w) ->
  ~ In c (layout sep ws).
Proof.
  intros Hc. induction ws as [|[w k] ws IH]; cbn; [easy|]. intros H Hin.
  rewrite !in_app_iff in Hin. destruct Hin as [Hin|[Hin|Hin]].
  - apply (H w); [now left|assumption].
  - apply repeat_spec in Hin. congruence.
  - apply IH; [|assumption]. intros w' Hw'. apply H. now right.
Qed.

Lemma split_tabs lead ws :
  well_separated tab ws -> (forall w, In w (map fst ws) -> ~ In space w) ->
  split (repeat tab lead ++ layout tab ws) = map fst ws.
Proof.
  intros Hws Hsp. rewrite no_space_split_sep.
  - now apply split_sep_complete.
  - rewrite in_app_iff. intros [H|H].
    + apply repeat_spec in H. discriminate.
    + revert H. now apply layout_no_other.
Qed.

(** ** rtrim *)

Lemma dropwhile_split {A} (f : A -> bool) l : exists p,
  l = p ++ dropwhile f l /\ forallb f p = true /\
  (dropwhile f l = [] \/ exists x r, dropwhile f l = x :: r /\ f x = false).
Proof.
  induction l as [|x l IH]; cbn.
  - exists []. cbn. auto.
  - destruct (f x) eqn:E.
    + destruct IH as (p & Hl & Hp & Hd). exists (x :: p). cbn. rewrite E, Hp.
      split; [now f_equal|]. now split.
    + exists []. cbn. split; [reflexivity|]. split; [reflexivity|]. right. eauto.
Qed.

Lemma dropwhile_app_all {A} (f : A -> bool) p l :
  forallb f p = true -> dropwhile f (p ++ l) = dropwhile f l.
Proof.
  induction p as [|x p IH]; cbn; [reflexivity|]. intros H. apply andb_prop in H as [Hx Hp].
  now rewrite Hx, IH.
Qed.

Lemma forallb_rev {A} (f : A -> bool) l : forallb f (rev l) = forallb f l.
Proof.
  destruct (forallb f l) eqn:E.
  - apply forallb_forall. intros x Hx. apply in_rev in Hx. rewrite forallb_forall in E. auto.
  - destruct (forallb f (rev l)) eqn:E2; [|reflexivity].
    rewrite <- E. symmetry. apply forallb_forall. intros x Hx.
    rewrite forallb_forall in E2. apply E2. now apply -> in_rev.
Qed.

Lemma rtrim_spec s : exists blanks,
  s = rtrim s ++ blanks /\ forallb is_space blanks = true /\
  (rtrim s = [] \/ exists p c, rtrim s = p ++ [c] /\ is_space c = false).
Proof.
  unfold rtrim. destruct (dropwhile_split is_space (rev s)) as (p & Hs & Hp & Hd).
  exists (rev p). split.
  - rewrite <- rev_app_distr, <- Hs. now rewrite rev_involutive.
  - split; [now rewrite forallb_rev|]. destruct Hd as [->|(x & r & -> & Hx)]; [now left|].
    right. exists (rev r), x. now split.
Qed.

Lemma rtrim_blanks s b : forallb is_space b = true -> rtrim (s ++ b) = rtrim s.
Proof.
  intros H. unfold rtrim. rewrite rev_app_distr, dropwhile_app_all; [reflexivity|now rewrite forallb_rev].
Qed.

Lemma rtrim_keeps p c : is_space c = false -> rtrim (p ++ [c]) = p ++ [c].
Proof.
  intros H. unfold rtrim. rewrite rev_app_distr. cbn. rewrite H. cbn. now rewrite rev_involutive.
Qed.

Lemma rtrim_unique s t b :
  s = t ++ b -> forallb is_space b = true ->
  (t = [] \/ exists p c, t = p ++ [c] /\ is_space c = false) -> rtrim s = t.
Proof.
  intros -> Hb [->|(p & c & -> & Hc)].
  - now rewrite (rtrim_blanks [] b) by assumption.
  - rewrite rtrim_blanks by assumption. now apply rtrim_keeps.
Qed.

(** ** fileToLines *)

(** the file with the given lines, each ended by the terminator *)
Fixpoint file_of (eol : str) (lines : list str) : str :=
  match lines with [] => [] | l :: ls => l ++ eol ++ file_of eol ls end.

Lemma gl_file eol lines :
  (exists pre, eol = pre ++ [newline] /\ ~ In newline pre) ->
  (forall l, In l lines -> ~ In newline l) ->
  exists pre, eol = pre ++ [newline] /\
  gl newline (file_of eol lines) = map (fun l => l ++ pre) lines.
Proof.
  intros (pre & -> & Hpre) H. exists pre. split; [reflexivity|].
  induction lines as [|l ls IH]; [reflexivity|].
  cbn [file_of map]. rewrite !app_assoc. rewrite <- (app_assoc (l ++ pre)). cbn [app].
  rewrite gl_word_sep.
  - f_equal. apply IH. intros l' Hl'. apply H. now right.
  - rewrite in_app_iff. intros [Hi|Hi]; [|contradiction]. apply (H l); [now left|assumption].
Qed.

Lemma file_to_lines_lf lines : (forall l, In l lines -> ~ In newline l) ->
  file_to_lines (file_of [newline] lines) = map rtrim lines.
Proof.
  intros H. destruct (gl_file [newline] lines) as (pre & He & Hg).
  - exists []. split; [reflexivity|intros []].
  - assumption.
  - assert (pre = []) as ->.
    { destruct pre as [|c pre]; [reflexivity|]. destruct pre; discriminate. }
    unfold file_to_lines. fold (gl newline (file_of [newline] lines)). rewrite Hg, map_map.
    apply map_ext. intros a. now rewrite app_nil_r.
Qed.

Lemma file_to_lines_crlf lines : (forall l, In l lines -> ~ In newline l) ->
  file_to_lines (file_of [cr; newline] lines) = map rtrim lines.
Proof.
  intros H. destruct (gl_file [cr; newline] lines) as (pre & He & Hg).
  - exists [cr]. split; [reflexivity|]. intros [Hc|[]]; discriminate.
  - assumption.
  - assert (pre = [cr]) as ->.
    { destruct pre as [|c pre]; [discriminate|]. inversion He; subst.
      destruct pre as [|c pre]; [reflexivity|]. destruct pre; discriminate. }
    unfold file_to_lines. fold (gl newline (file_of [cr; newline] lines)). rewrite Hg, map_map.
    apply map_ext. intros a. now apply rtrim_blanks.
Qed.

(** ** upper *)

Lemma to_upper_props : forall c,
  is_digit (to_upper c) = is_digit c /\ is_alpha (to_upper c) = is_alpha c /\
  is_lower (to_upper c) = false /\ to_upper (to_upper c) = to_upper c.
Proof. intros [[] [] [] [] [] [] [] []]; vm_compute; auto. Qed.

Lemma digit_not_alpha c : is_digit c = true -> is_alpha c = false.
Proof. destruct c as [[] [] [] [] [] [] [] []]; vm_compute; congruence. Qed.

(** ** decomposeString *)

(** the first index of a character satisfying f, or the length *)
Fixpoint find_idx (f : ascii -> bool) (s : str) : nat :=
  match s with [] => 0 | c :: s' => if f c then 0 else S (find_idx f s') end.

(** stepwise specification: cut at the first digit, then at the first letter, ... *)
Fixpoint cut (f : ascii -> bool) (s : str) : str * str :=
  match s with
  | [] => ([], [])
  | c :: s' => if f c then ([], s) else let '(a, b) := cut f s' in (c :: a, b)
  end.

Lemma cut_app f s : fst (cut f s) ++ snd (cut f s) = s.
Proof.
  induction s as [|c s IH]; cbn; [reflexivity|]. destruct (f c); [reflexivity|].
  destruct (cut f s) as [a b] eqn:E. cbn in *. now f_equal.
Qed.

Lemma cut_fst f s : existsb f (fst (cut f s)) = false.
Proof.
  induction s as [|c s IH]; cbn; [reflexivity|]. destruct (f c) eqn:Ef; [reflexivity|].
  destruct (cut f s) as [a b] eqn:E. cbn in *. now rewrite Ef.
Qed.

Lemma cut_snd f s : snd (cut f s) = [] \/ exists c r, snd (cut f s) = c :: r /\ f c = true.
Proof.
  induction s as [|c s IH]; cbn; [now left|]. destruct (f c) eqn:Ef.
  - right. cbn. eauto.
  - destruct (cut f s) as [a b] eqn:E. exact IH.
Qed.

Lemma cut_unique f s a b : s = a ++ b -> existsb f a = false ->
  (b = [] \/ exists c r, b = c :: r /\ f c = true) -> cut f s = (a, b).
Proof.
  intros ->. induction a as [|x a IH]; cbn; intros Ha Hb.
  - destruct Hb as [->|(c & r & -> & Hc)]; [reflexivity|]. cbn. now rewrite Hc.
  - apply orb_false_elim in Ha as [Hx Ha]. rewrite Hx, IH by assumption. reflexivity.
Qed.

(** what the marker loop computes, in terms of cut *)
Lemma markers_cut u : forall pos (wa : bool) room,
  markers_loop u pos wa (S room) =
  let f := if wa then is_digit else is_alpha in
  match snd (cut f u) with
  | [] => []
  | c :: r => (pos + length (fst (cut f u))) ::
              markers_loop r (S (pos + length (fst (cut f u)))) (negb wa) room
  end.
Proof.
  induction u as [|c u IH]; intros pos wa room; [destruct wa; reflexivity|].
  cbn [markers_loop]. destruct wa; cbn zeta.
  - (* looking for a digit *)
    cbn [cut]. destruct (is_digit c) eqn:Ed.
    + rewrite (digit_not_alpha c Ed). cbn. rewrite Nat.add_0_r. reflexivity.
    + replace ((is_alpha c || false) && negb (eqb (is_alpha c) true)) with false
        by (destruct (is_alpha c); reflexivity).
      rewrite IH. cbn zeta. cbn iota. destruct (cut is_digit u) as [a b] eqn:Ec. cbn [fst snd length].
      destruct b; [reflexivity|]. rewrite <- plus_n_Sm. reflexivity.
  - cbn [cut]. destruct (is_alpha c) eqn:Ea.
    + cbn. rewrite Nat.add_0_r. reflexivity.
    + rewrite andb_false_r. rewrite IH. cbn zeta. cbn iota.
      destruct (cut is_alpha u) as [a b] eqn:Ec. cbn [fst snd length].
      destruct b; [reflexivity|]. rewrite <- plus_n_Sm. reflexivity.
Qed.

(** Each group is a run without characters of the other class, and each group
    after the first starts with a character of its own class. *)
Definition starts (f : ascii -> bool) (s : str) : Prop :=
  s = [] \/ exists c r, s = c :: r /\ f c = true.

Record decomposition (u l1 n1 l2 n2 l3 : str) : Prop := {
  dec_cat : u = l1 ++ n1 ++ l2 ++ n2 ++ l3;
  dec_l1 : existsb is_digit l1 = false;
  dec_n1 : existsb is_alpha n1 = false;
  dec_l2 : existsb is_digit l2 = false;
  dec_n2 : existsb is_alpha n2 = false;
  dec_n1s : starts is_digit (n1 ++ l2 ++ n2 ++ l3);
  dec_l2s : starts is_alpha (l2 ++ n2 ++ l3);
  dec_n2s : starts is_digit (n2 ++ l3);
  dec_l3s : starts is_alpha l3 }.

Definition spec_groups (u : str) : str * str * str * str * str :=
  let '(l1, r1) := cut is_digit u in
  let '(n1, r2) := cut is_alpha r1 in
  let '(l2, r3) := cut is_digit r2 in
  let '(n2, l3) := cut is_alpha r3 in
  (l1, n1, l2, n2, l3).

Lemma spec_groups_decomposition u :
  let '(l1, n1, l2, n2, l3) := spec_groups u in decomposition u l1 n1 l2 n2 l3.
Proof.
  unfold spec_groups.
  pose proof (cut_app is_digit u) as A1. pose proof (cut_fst is_digit u) as B1. pose proof (cut_snd is_digit u) as C1.
  destruct (cut is_digit u) as [l1 r1]. cbn [fst snd] in *.
  pose proof (cut_app is_alpha r1) as A2. pose proof (cut_fst is_alpha r1) as B2. pose proof (cut_snd is_alpha r1) as C2.
  destruct (cut is_alpha r1) as [n1 r2]. cbn [fst snd] in *.
  pose proof (cut_app is_digit r2) as A3. pose proof (cut_fst is_digit r2) as B3. pose proof (cut_snd is_digit r2) as C3.
  destruct (cut is_digit r2) as [l2 r3]. cbn [fst snd] in *.
  pose proof (cut_app is_alpha r3) as A4. pose proof (cut_fst is_alpha r3) as B4. pose proof (cut_snd is_alpha r3) as C4.
  destruct (cut is_alpha r3) as [n2 l3]. cbn [fst snd] in *.
  subst u r1 r2 r3. constructor; auto.
Qed.

Lemma decomposition_unique u l1 n1 l2 n2 l3 :
  decomposition u l1 n1 l2 n2 l3 -> spec_groups u = (l1, n1, l2, n2, l3).
Proof.
  intros [Hc H1 H2 H3 H4 S1 S2 S3 S4]. unfold spec_groups.
  rewrite (cut_unique is_digit u l1 (n1 ++ l2 ++ n2 ++ l3)) by assumption.
  rewrite (cut_unique is_alpha _ n1 (l2 ++ n2 ++ l3)) by (auto).
  rewrite (cut_unique is_digit _ l2 (n2 ++ l3)) by (auto).
  rewrite (cut_unique is_alpha _ n2 l3) by (auto).
  reflexivity.
Qed.

Lemma slice_app a b c : slice (a ++ b ++ c) (length a) (length a + length b) = b.
Proof.
  unfold slice. rewrite skipn_app, skipn_all, Nat.sub_diag. cbn.
  replace (length a + length b - length a) with (length b) by lia.
  rewrite firstn_app, firstn_all, Nat.sub_diag. cbn. apply app_nil_r.
Qed.

Lemma slice_at s a b c i j : s = a ++ b ++ c -> i = length a -> j = length a + length b -> slice s i j = b.
Proof. intros -> -> ->. apply slice_app. Qed.

Lemma slice_empty s i : slice s i i = [].
Proof. unfold slice. rewrite Nat.sub_diag. reflexivity. Qed.

(** after four markers: whether or not a fifth is found does not matter *)
Lemma decompose_groups w :
  let '(l1, n1, l2, n2, l3) := spec_groups (upper w) in
  decomposeString w =
  {| d_let1 := l1; d_num1 := n1; d_let2 := l2; d_num2 := n2; d_let3 := l3;
     d_ret := if existsb is_digit (upper w) then 0%Z else (-1)%Z |}.
Proof.
  set (u := upper w).
  unfold decomposeString. fold u. cbv zeta. unfold spec_groups.
  rewrite markers_cut. cbv zeta. cbn iota.
  pose proof (cut_app is_digit u) as A1. pose proof (cut_fst is_digit u) as B1.
  pose proof (cut_snd is_digit u) as C1.
  destruct (cut is_digit u) as [l1 r1]. cbn [fst snd] in *.
  destruct r1 as [|d1 t1].
  { (* no digit *)
    rewrite app_nil_r in A1. cbn [nth cut]. subst l1.
    rewrite !slice_empty.
    assert (Hs : slice u 0 (length u) = u).
    { unfold slice. cbn. rewrite Nat.sub_0_r. apply firstn_all. }
    rewrite Hs, B1. reflexivity. }
  destruct C1 as [C1|(c & r & E & C1)]; [discriminate|]. injection E as -> ->.
  (* second cut happens on c :: r, c is a digit hence not alpha *)
  assert (Hd : existsb is_digit u = true).
  { rewrite <- A1, existsb_app. cbn. rewrite C1. now rewrite orb_true_r. }
  rewrite Hd. clear Hd.
  pose proof (digit_not_alpha c C1) as Na.
  cbn [cut]. rewrite Na.
  cbn [negb Nat.add]. rewrite markers_cut. cbv zeta. cbn iota.
  pose proof (cut_app is_alpha r) as A2. pose proof (cut_snd is_alpha r) as C2.
  destruct (cut is_alpha r) as [n1 r2]. cbn [fst snd] in *.
  destruct r2 as [|e1 t2].
  { cbn [nth cut]. rewrite app_nil_r in A2. subst n1.
    rewrite !slice_empty.
    rewrite (slice_at u [] l1 (c :: r)) by (try (symmetry; exact A1); reflexivity).
    rewrite (slice_at u l1 (c :: r) []) by
      (try (rewrite app_nil_r; symmetry; exact A1); try reflexivity; rewrite <- A1, app_length; reflexivity).
    reflexivity. }
  destruct C2 as [C2|(c2 & r2 & E & C2)]; [discriminate|]. injection E as -> ->.
  assert (Nd2 : is_digit c2 = false).
  { destruct (is_digit c2) eqn:Ed; [|reflexivity]. apply digit_not_alpha in Ed. congruence. }
  cbn [cut]. rewrite Nd2. cbn [negb]. rewrite markers_cut. cbv zeta. cbn iota.
  pose proof (cut_app is_digit r2) as A3. pose proof (cut_snd is_digit r2) as C3.
  destruct (cut is_digit r2) as [l2 r3]. cbn [fst snd] in *.
  destruct r3 as [|e2 t3].
  { cbn [nth cut]. rewrite app_nil_r in A3. subst l2.
    rewrite !slice_empty.
    assert (Au : u = l1 ++ (c :: n1) ++ (c2 :: r2)) by (rewrite <- A1, <- A2; reflexivity).
    rewrite (slice_at u [] l1 ((c :: n1) ++ c2 :: r2)) by (try exact Au; reflexivity).
    rewrite (slice_at u l1 (c :: n1) (c2 :: r2)) by (try exact Au; cbn [length]; lia).
    rewrite (slice_at u (l1 ++ c :: n1) (c2 :: r2) []) by
      (try (rewrite app_nil_r, <- app_assoc; exact Au); try rewrite Au; rewrite ?app_length; cbn [length app]; rewrite ?app_length; cbn [length]; lia).
    reflexivity. }
  destruct C3 as [C3|(c3 & r3 & E & C3)]; [discriminate|]. injection E as -> ->.
  pose proof (digit_not_alpha c3 C3) as Na3.
  cbn [cut]. rewrite Na3. cbn [negb]. rewrite markers_cut. cbv zeta. cbn iota.
  pose proof (cut_app is_alpha r3) as A4. pose proof (cut_snd is_alpha r3) as C4.
  destruct (cut is_alpha r3) as [n2 l3]. cbn [fst snd] in *.
  assert (Au : u = l1 ++ (c :: n1) ++ (c2 :: l2) ++ (c3 :: n2) ++ l3).
  { rewrite <- A1, <- A2, <- A3, <- A4. cbn [app]. cbn [app]; rewrite <- ?app_assoc; cbn [app]; rewrite <- ?app_assoc; reflexivity. }
  assert (Lu : length u = length l1 + (S (length n1) + (S (length l2) + (S (length n2) + length l3)))).
  { rewrite Au. do 6 (rewrite ?app_length; cbn [length app]). lia. }
  assert (G1 : forall i j, i = 0 -> j = length l1 -> slice u i j = l1).
  { intros i j -> ->. apply (slice_at u [] l1 ((c :: n1) ++ (c2 :: l2) ++ (c3 :: n2) ++ l3)); auto. }
  assert (G2 : forall i j, i = length l1 -> j = i + S (length n1) -> slice u i j = c :: n1).
  { intros i j -> ->. apply (slice_at u l1 (c :: n1) ((c2 :: l2) ++ (c3 :: n2) ++ l3)); auto. }
  assert (G3 : forall i j, i = length l1 + S (length n1) -> j = i + S (length l2) -> slice u i j = c2 :: l2).
  { intros i j -> ->. apply (slice_at u (l1 ++ c :: n1) (c2 :: l2) ((c3 :: n2) ++ l3)).
    - rewrite <- app_assoc. exact Au.
    - rewrite app_length. reflexivity.
    - rewrite app_length. reflexivity. }
  assert (G4 : forall i j, i = length l1 + S (length n1) + S (length l2) -> j = i + S (length n2) -> slice u i j = c3 :: n2).
  { intros i j -> ->. apply (slice_at u (l1 ++ (c :: n1) ++ c2 :: l2) (c3 :: n2) l3).
    - rewrite Au. do 4 (cbn [app]; rewrite <- ?app_assoc). reflexivity.
    - do 6 (rewrite ?app_length; cbn [length app]). lia.
    - do 6 (rewrite ?app_length; cbn [length app]). lia. }
  assert (G5 : forall i, i = length l1 + S (length n1) + S (length l2) + S (length n2) -> slice u i (length u) = l3).
  { intros i ->. apply (slice_at u (l1 ++ (c :: n1) ++ (c2 :: l2) ++ c3 :: n2) l3 []).
    - rewrite app_nil_r. rewrite Au. do 4 (cbn [app]; rewrite <- ?app_assoc). reflexivity.
    - do 6 (rewrite ?app_length; cbn [length app]). lia.
    - do 6 (rewrite ?app_length; cbn [length app]). lia. }
  destruct l3 as [|c4 r4].
  - cbn [nth]. rewrite slice_empty.
    rewrite G1, G2, G3, G4 by (cbn [length] in *; lia). reflexivity.
  - cbn [nth].
    rewrite G1, G2, G3, G4, G5 by (cbn [length] in *; lia). reflexivity.
Qed.

Lemma decompose_iff : forall w l1 n1 l2 n2 l3,
  decomposition (upper w) l1 n1 l2 n2 l3 <->
  (d_let1 (decomposeString w), d_num1 (decomposeString w), d_let2 (decomposeString w),
   d_num2 (decomposeString w), d_let3 (decomposeString w)) = (l1, n1, l2, n2, l3).
Proof.
  intros w l1 n1 l2 n2 l3. pose proof (decompose_groups w) as H.
  pose proof (spec_groups_decomposition (upper w)) as Hd.
  destruct (spec_groups (upper w)) as [[[[a b] c] d] e] eqn:E. rewrite H. cbn. split.
  - intros Hx. apply decomposition_unique in Hx. congruence.
  - intros Hx. injection Hx as -> -> -> -> ->. exact Hd.
Qed.

Lemma decompose_ret : forall w,
  d_ret (decomposeString w) = (if existsb is_digit w then 0%Z else (-1)%Z).
Proof.
  intros w. pose proof (decompose_groups w) as H.
  destruct (spec_groups (upper w)) as [[[[a b] c] d] e] eqn:E. rewrite H. cbn.
  replace (existsb is_digit (upper w)) with (existsb is_digit w); [reflexivity|].
  unfold upper. induction w as [|x w IH]; [reflexivity|].
  assert (Hx := proj1 (to_upper_props x)). cbn [map existsb]. rewrite Hx. f_equal.
  clear - w. induction w as [|y w IH]; [reflexivity|]. cbn [map existsb].
  rewrite (proj1 (to_upper_props y)). now f_equal.
Qed.

Lemma is_space_codes : forall c, is_space c = true <->
  In (N_of_ascii c) [9; 10; 11; 12; 13; 32]%N.
Proof.
  intros [[] [] [] [] [] [] [] []]; vm_compute; split; intros H; try discriminate; try reflexivity; intuition discriminate.
Qed.
