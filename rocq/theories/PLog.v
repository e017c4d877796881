(** Proofs about the log. *)
From Coq Require Import ZArith String List Bool Lia Arith.
From Verif Require Import MErr MStateOps MLog SLog.
Import ListNotations.
Open Scope Z_scope.

Lemma last_of_snoc {A B} (f : A -> option B) d h c : last_of f d (h ++ [c]) = match f c with Some b => b | None => last_of f d h end.
Proof. revert d. induction h; intros d; cbn; [reflexivity|apply IHh]. Qed.
Lemma text_of_snoc sel h c i : (i < length h)%nat -> text_of sel (h ++ [c]) i = text_of sel h i.
Proof. intros H. unfold text_of. rewrite nth_error_app1 by exact H. rewrite firstn_app. replace (i - length h)%nat with O by lia. cbn. now rewrite app_nil_r. Qed.
Lemma texts_snoc sel h c a n : (a + n <= length h)%nat -> texts sel (h ++ [c]) a n = texts sel h a n.
Proof.
  intros H. unfold texts. f_equal. apply map_ext_in. intros i Hi. apply in_seq in Hi. apply text_of_snoc. lia.
Qed.
Lemma texts_more sel h a n : texts sel h a (S n) = texts sel h a n ++ text_of sel h (a + n).
Proof. unfold texts. rewrite seq_S, map_app, concat_app. cbn. now rewrite app_nil_r. Qed.
Lemma text_of_last sel h c : text_of sel (h ++ [c]) (length h) = match c with CLog level m => if sel h level then m else [] | _ => [] end.
Proof. unfold text_of. rewrite nth_error_app2, Nat.sub_diag by lia. cbn. rewrite firstn_app, Nat.sub_diag, firstn_all. cbn. now rewrite app_nil_r. Qed.

Section L.
Variable openable : string -> bool.
Definition put_target (l : log) (p : string) : bool := l_fen l && match l_fout l with Some q => String.eqb q p | None => false end.
Lemma put_all l m : forall w,
  w_out (fold_left (put l) m w) = w_out w ++ (match l_term l with Cout => m | _ => [] end) /\
  w_err (fold_left (put l) m w) = w_err w ++ (match l_term l with Cerr => m | _ => [] end) /\
  forall p, w_file (fold_left (put l) m w) p = w_file w p ++ (if put_target l p then m else []).
Proof.
  induction m as [|s m IH]; intros w.
  - cbn. destruct (l_term l); rewrite !app_nil_r; (split; [reflexivity|split; [reflexivity|]]); intros p; destruct (put_target l p); now rewrite app_nil_r.
  - cbn [fold_left]. destruct (IH (put l w s)) as (H1 & H2 & H3). rewrite H1, H2. split; [|split].
    + unfold put. destruct (l_fen l), (l_fout l), (l_term l); cbn; rewrite <- ?app_assoc; reflexivity.
    + unfold put. destruct (l_fen l), (l_fout l), (l_term l); cbn; rewrite <- ?app_assoc; reflexivity.
    + intros p. rewrite H3. unfold put, put_target. destruct (l_fen l), (l_fout l) as [q|], (l_term l); cbn;
      try (rewrite <- ?app_assoc; reflexivity); rewrite (String.eqb_sym q p); destruct (String.eqb p q) eqn:E; rewrite <- ?app_assoc; reflexivity.
Qed.

Lemma do_calls_snoc h c l w : do_calls openable (h ++ [c]) l w =
  (let s := do_calls openable h l w in let '(_, l', w') := do_call openable c (fst s) (snd s) in (l', w')).
Proof. unfold do_calls. rewrite fold_left_app. reflexivity. Qed.

Variables (v0 f0 : Z) (w : world).
Lemma settings h : let l := fst (do_calls openable h (log_new v0 f0) w) in
  l_verb l = terminal_threshold v0 h /\ l_fverb l = file_threshold f0 h /\ l_fout l = current_file openable h.
Proof.
  induction h as [|c h IH] using rev_ind; [cbn; auto|]. rewrite do_calls_snoc. cbn zeta in *.
  destruct (do_calls openable h (log_new v0 f0) w) as [l w']. cbn [fst snd] in *. destruct IH as (H1 & H2 & H3).
  unfold terminal_threshold, file_threshold, current_file in *. rewrite !last_of_snoc.
  destruct c; cbn; auto. unfold log_setFile. destruct (openable p); cbn; auto.
Qed.
Lemma cout_sel h level : let l := log_cout level (fst (do_calls openable h (log_new v0 f0) w)) in
  (match l_term l with Cout => true | _ => false end) = on_stdout v0 h level /\
  (match l_term l with Cerr => true | _ => false end) = on_stderr v0 h level /\
  forall p, put_target l p = in_file openable f0 p h level.
Proof.
  cbn zeta. destruct (settings h) as (H1 & H2 & H3). unfold on_stdout, on_stderr, in_file, put_target, log_cout, ERR_LEVEL. cbn [l_term l_fen l_fout].
  rewrite H1, H2, H3. split; [|split].
  - destruct (Z.ltb_spec level (terminal_threshold v0 h)), (Z.leb_spec (terminal_threshold v0 h) level), (Z.leb_spec 3 level), (Z.ltb_spec level 3); try lia; reflexivity.
  - destruct (Z.ltb_spec level (terminal_threshold v0 h)), (Z.leb_spec (terminal_threshold v0 h) level), (Z.leb_spec 3 level); try lia; reflexivity.
  - intros p. f_equal. destruct (Z.ltb_spec level (file_threshold f0 h)), (Z.leb_spec (file_threshold f0 h) level); try lia; reflexivity.
Qed.

Lemma terminal_texts h : let w' := snd (do_calls openable h (log_new v0 f0) w) in
  w_out w' = w_out w ++ texts (on_stdout v0) h 0 (length h) /\ w_err w' = w_err w ++ texts (on_stderr v0) h 0 (length h).
Proof.
  induction h as [|c h IH] using rev_ind; [cbn; now rewrite !app_nil_r|]. rewrite do_calls_snoc. cbn zeta in *.
  rewrite app_length. cbn [length]. rewrite Nat.add_comm. cbn [Nat.add]. rewrite !texts_more, !texts_snoc by lia. cbn [Nat.add]. rewrite !text_of_last.
  pose proof (cout_sel h) as Hc. cbn zeta in Hc.
  destruct (do_calls openable h (log_new v0 f0) w) as [l w']. cbn [fst snd] in *. destruct IH as (H1 & H2).
  destruct c; cbn [do_call snd]; try (rewrite !app_nil_r; auto).
  - unfold log_setFile. destruct (openable p); cbn; auto.
  - unfold log_message. cbn [snd]. destruct (put_all (log_cout level l) m w') as (P1 & P2 & _). rewrite P1, P2, H1, H2.
    destruct (Hc level) as (S1 & S2 & _). rewrite <- S1, <- S2, !app_assoc. destruct (l_term (log_cout level l)); auto.
Qed.

Lemma file_texts p h a : openable p = true -> created p h a ->
  w_file (snd (do_calls openable h (log_new v0 f0) w)) p = texts (in_file openable f0 p) h a (length h - a).
Proof.
  intros Hp. revert a. induction h as [|c h IH] using rev_ind; intros a [Ha Hl].
  - destruct a; discriminate.
  - rewrite do_calls_snoc. pose proof (cout_sel h) as Hc. cbn zeta in *. rewrite app_length. cbn [length].
    destruct (Nat.eq_dec a (length h)) as [->|N].
    + rewrite nth_error_app2, Nat.sub_diag in Ha by lia. injection Ha as ->. replace (length h + 1 - length h)%nat with 1%nat by lia.
      rewrite texts_more. rewrite Nat.add_0_r, text_of_last. unfold texts. cbn.
      destruct (do_calls openable h (log_new v0 f0) w) as [l w']. unfold log_setFile. cbn [fst snd]. rewrite Hp. cbn. now rewrite String.eqb_refl.
    + assert (L : (a < length h)%nat).
      { assert (a < length (h ++ [c]))%nat by (apply nth_error_Some; congruence). rewrite app_length in *. cbn in *. lia. }
      rewrite nth_error_app1 in Ha by exact L.
      assert (Hcr : created p h a).
      { split; [exact Ha|]. intros i Hi E. apply (Hl i Hi). rewrite nth_error_app1; [exact E|]. apply nth_error_Some. congruence. }
      specialize (IH a Hcr). replace (length h + 1 - a)%nat with (S (length h - a)) by lia.
      rewrite texts_more, texts_snoc by lia. replace (a + (length h - a))%nat with (length h) by lia. rewrite text_of_last.
      destruct (do_calls openable h (log_new v0 f0) w) as [l w']. cbn [fst snd] in *. rewrite <- IH.
      destruct c; cbn [do_call snd]; try (now rewrite app_nil_r).
      * unfold log_setFile. destruct (openable p0) eqn:Eo; cbn; [|now rewrite app_nil_r].
        destruct (String.eqb_spec p p0) as [->|]; [|now rewrite app_nil_r].
        exfalso. apply (Hl (length h) L). rewrite nth_error_app2, Nat.sub_diag by lia. reflexivity.
      * unfold log_message. cbn [snd]. destruct (put_all (log_cout level l) m w') as (_ & _ & P3). rewrite P3.
        destruct (Hc level) as (_ & _ & S3). now rewrite S3.
Qed.
(** a file that no call opens is not touched *)
Lemma file_other p h : (forall i, nth_error h i = Some (CSetLogFile p) -> openable p = false) ->
  w_file (snd (do_calls openable h (log_new v0 f0) w)) p = w_file w p.
Proof.
  induction h as [|c h IH] using rev_ind; intros H; [reflexivity|]. rewrite do_calls_snoc. pose proof (settings h) as Hs. cbn zeta in *.
  assert (IHh : w_file (snd (do_calls openable h (log_new v0 f0) w)) p = w_file w p).
  { apply IH. intros i E. apply (H i). rewrite nth_error_app1; [exact E|]. apply nth_error_Some. congruence. }
  assert (Hcur : current_file openable h <> Some p).
  { clear - H. assert (G : forall i, nth_error h i = Some (CSetLogFile p) -> openable p = false).
    { intros i E. apply (H i). rewrite nth_error_app1; [exact E|]. apply nth_error_Some. congruence. }
    clear H. induction h as [|d h IHh] using rev_ind; [discriminate|]. unfold current_file. rewrite last_of_snoc.
    assert (G' : current_file openable h <> Some p).
    { apply IHh. intros i E. apply (G i). rewrite nth_error_app1; [exact E|]. apply nth_error_Some. congruence. }
    destruct d; try exact G'. destruct (openable p0) eqn:Eo; [|discriminate]. intros [= ->].
    specialize (G (length h)). rewrite nth_error_app2, Nat.sub_diag in G by lia. specialize (G eq_refl). congruence. }
  destruct (do_calls openable h (log_new v0 f0) w) as [l w']. cbn [fst snd] in *. rewrite <- IHh.
  destruct c; cbn [do_call snd]; try reflexivity.
  - unfold log_setFile. destruct (openable p0) eqn:Eo; cbn; [|reflexivity]. destruct (String.eqb_spec p p0) as [->|]; [|reflexivity].
    specialize (H (length h)). rewrite nth_error_app2, Nat.sub_diag in H by lia. specialize (H eq_refl). congruence.
  - unfold log_message. cbn [snd]. destruct (put_all (log_cout level l) m w') as (_ & _ & P3). rewrite P3. unfold put_target, log_cout. cbn.
    destruct Hs as (_ & _ & Hs). rewrite Hs. destruct (current_file openable h) as [q|]; [|now rewrite andb_false_r, app_nil_r].
    destruct (String.eqb_spec q p) as [->|]; [congruence|]. now rewrite andb_false_r, app_nil_r.
Qed.
End L.

Lemma setup_level_spec n level : DBG_LEVEL <= level < NO_OUTPUT ->
  (setup_level n <=? level) = (1 <=? n) && (3 - n <=? level).
Proof.
  unfold setup_level, DBG_LEVEL, NO_OUTPUT, ERR_LEVEL. intros H.
  destruct (Z.leb_spec 3 (3 - n)), (Z.leb_spec 1 n); try lia.
  - cbn. apply Z.leb_gt. lia.
  - destruct (Z.ltb_spec (3 - n) 0), (Z.leb_spec (3 - n) level); cbn [andb]; try lia; (apply Z.leb_le || apply Z.leb_gt); lia.
Qed.
