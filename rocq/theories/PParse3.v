(** Proofs about reading the input file: the objects come from the rows; input errors. *)
From Coq Require Import String Ascii List Arith ZArith Bool Reals Lia.
From Verif Require Import MErr MStr MVec MStateOps MBody MCurve MDetach MParse SParse PParse PParse2.
From Verif Require MTime MScheme.
Import ListNotations.
Local Open Scope nat_scope.

Lemma str_eqb_eq a : forall b, str_eqb a b = true -> a = b.
Proof. induction a as [|x a IH]; intros [|y b]; cbn [str_eqb]; try discriminate; [reflexivity|]. intro H. apply andb_true_iff in H as [E H]. apply Ascii.eqb_eq in E. subst. f_equal. now apply IH. Qed.
Lemma isOneOf_in w ws : isOneOf w ws = true -> In w ws.
Proof. induction ws as [|v ws IH]; cbn [isOneOf]; [discriminate|]. destruct (str_eqb w v) eqn:E; [intros _; left; symmetry; now apply str_eqb_eq|]. intro H. right. auto. Qed.
Lemma last_index_some {A} (f : A -> bool) l : forall i found k, last_index f l i found = Some k -> found = Some k \/ exists x, i <= k /\ nth_error l (k - i) = Some x /\ f x = true.
Proof.
  induction l as [|x l IH]; intros i found k; cbn [last_index]; [intros ->; now left|]. intro H. destruct (IH _ _ _ H) as [E|(y & L & N & F)].
  - destruct (f x) eqn:Fx; [|now left]. injection E as <-. right. exists x. rewrite Nat.sub_diag. repeat split; [lia|exact Fx].
  - right. exists y. split; [lia|]. split; [|exact F]. replace (k - i) with (S (k - S i)) by lia. exact N.
Qed.
Lemma read_place_names d e s p : read_place d e s = Ok (inl p) -> names_place e p.
Proof.
  unfold read_place. destruct (nonempty _); [|discriminate]. cbv zeta. unfold names_place. cbv zeta.
  assert (N : (0 <= u32 (atoi (d_num1 (decomposeString e))))%Z) by (unfold u32; apply Z.mod_pos_bound; reflexivity). revert N. generalize (decomposeString e). intros dd. generalize (u32 (atoi (d_num1 dd))). intros id N.
  destruct (is_any (d_let1 dd) ["R"; "ROD"]%string) eqn:R.
  - apply isOneOf_in in R. destruct ((id =? 0)%Z || _) eqn:E; [discriminate|]. apply orb_false_iff in E as [A B]. apply Z.eqb_neq in A. apply Z.ltb_ge in B.
    destruct (is_txt (d_let2 dd) "A") eqn:EA; [apply str_eqb_eq in EA|destruct (is_txt (d_let2 dd) "B") eqn:EB; [apply str_eqb_eq in EB|discriminate]].
    + assert (G : forall q, (if d then match nth_error (s_rods s) (Z.to_nat (id - 1)) with Some (Some _) => Ok (inl (AtRod (Z.to_nat (id - 1)) EndA)) | _ => UB end else Ok (inl (AtRod (Z.to_nat (id - 1)) EndA))) = @Ok (place + Z) (inl q) -> q = AtRod (Z.to_nat (id - 1)) EndA).
      { intro q. destruct d; [destruct (nth_error _ _) as [[r|]|]; try discriminate|]; intro X; injection X as <-; reflexivity. }
      intro H. apply G in H. subst p. split; [lia|]. split; [exact R|exact EA].
    + assert (G : forall q, (if d then match nth_error (s_rods s) (Z.to_nat (id - 1)) with Some (Some _) => Ok (inl (AtRod (Z.to_nat (id - 1)) EndB)) | _ => UB end else Ok (inl (AtRod (Z.to_nat (id - 1)) EndB))) = @Ok (place + Z) (inl q) -> q = AtRod (Z.to_nat (id - 1)) EndB).
      { intro q. destruct d; [destruct (nth_error _ _) as [[r|]|]; try discriminate|]; intro X; injection X as <-; reflexivity. }
      intro H. apply G in H. subst p. split; [lia|]. split; [exact R|exact EB].
  - destruct (negb (nonempty (d_let1 dd)) || is_any (d_let1 dd) ["C"; "CON"; "P"; "POINT"]%string) eqn:W; [|discriminate]. destruct ((id =? 0)%Z || _) eqn:E; [discriminate|].
    apply orb_false_iff in E as [A B]. apply Z.eqb_neq in A. apply Z.ltb_ge in B. intro H. injection H as <-. split; [lia|].
    apply orb_true_iff in W as [W|W]; [left|right; exact (isOneOf_in _ _ W)]. destruct (d_let1 dd); [reflexivity|discriminate].
Qed.

Section Tables.
Variable atof : str -> R.
Variable stof : str -> option R.
Variable stold : str -> stold_res.
Variable opened : str -> option str.
Variable basepath : str.
Variable can_create : nat -> Z -> bool.
Variable setup_log : Z -> Z.
Variable floor_setup : str -> outcome unit.
Notation row_option' := (row_option atof stof floor_setup).
Notation row_line_props' := (row_line_props atof stold opened basepath).
Notation row_rod_props' := (row_rod_props atof).
Notation row_body' := (row_body atof can_create).
Notation row_point' := (row_point atof).
Notation row_rod' := (row_rod atof can_create).
Notation row_line' := (row_line atof can_create).
Notation row_fail' := (row_fail atof).
Notation read_file' := (read_file atof stof stold opened basepath can_create setup_log floor_setup).

(** the form of the system after each row *)
Lemma form_option l s s' : row_option' l s = Ok (inl s') -> exists o, s' = set_opt s o.
Proof.
  assert (E : s = set_opt s (s_opt s)) by (destruct s; reflexivity).
  unfold row_option. destruct (split_sep l space) as [|v [|n r]]; try (intro H; injection H as <-; eauto). destruct (is_txt n "writeLog"); [intro H; injection H as <-; eauto|].
  intro H. apply obind_ok in H as (o & _ & H). injection H as <-. eauto.
Qed.
Lemma form_lprops l s s' : row_line_props' l s = Ok (inl s') -> exists p, s' = add_lprop s p.
Proof. unfold row_line_props. destruct (read_line_props atof stold opened basepath l); [|discriminate]. intro H. injection H as <-. eauto. Qed.
Lemma form_rprops l s s' : row_rod_props' l s = Ok (inl s') -> exists p, s' = add_rprop s p.
Proof. unfold row_rod_props. destruct (_ <? 7); [discriminate|]. intro H. injection H as <-. eauto. Qed.
Lemma form_body l s s' : row_body' l s = Ok (inl s') -> exists b n, s' = add_body s b n /\ body_row atof l b.
Proof.
  unfold row_body. destruct (_ <? 14) eqn:N; [discriminate|]. apply Nat.ltb_ge in N. destruct (one_or_three _ _ _) as [cg|]; [|discriminate]. destruct (one_or_three _ _ _) as [ii|]; [|discriminate].
  destruct (read_CdA _ _) as [cda|]; [|discriminate]. destruct (one_or_three _ _ _) as [ca|]; [|discriminate]. destruct (body_type _) as [t n] eqn:E. destruct (can_create _ _); [|discriminate].
  intro H. injection H as <-. eexists _, _. split; [reflexivity|]. split; [exact N|]. repeat split.
Qed.
Lemma form_point l s s' : row_point' l s = Ok (inl s') -> exists o p n, s' = add_point (set_opt s o) p n /\ point_row atof l p.
Proof.
  unfold row_point. destruct (_ <? 9) eqn:N; [discriminate|]. apply Nat.ltb_ge in N. destruct (point_type _ _ _) as [[[t n] b]|] eqn:E; [|discriminate].
  intro H. apply obind_ok in H as (on & Hon & H). unfold point_row, fields. destruct (12 <=? length (split_sep l space)); injection H as <-; (eexists _, _, _; (split; [reflexivity|]); (split; [exact N|]); cbn [pi_number pi_r0 pi_M pi_V pi_F pi_CdA pi_Ca];
  do 4 (split; [reflexivity|]); (split; [reflexivity|]); split; reflexivity).
Qed.
Lemma form_rod l s s' : row_rod' l s = Ok (inl s') -> exists o n, s' = add_rod s o n /\ (o <> None -> rod_row atof (s_rprops s) l o).
Proof.
  unfold row_rod. intro H. apply obind_ok in H as ([r n] & Hr & H). injection H as <-. cbn [fst snd]. exists r, n. split; [reflexivity|]. intro NN. revert Hr. unfold read_rod.
  destruct (_ <? 11) eqn:N; [intro H; injection H as <- <-; contradiction|]. apply Nat.ltb_ge in N.
  destruct (rod_type _ _ _ _) as [[t m]|] eqn:E; [|intro H; injection H as <- <-; contradiction].
  destruct (last_index _ _ _ _) as [p|] eqn:L; [|intro H; injection H as <- <-; contradiction]. destruct (_ && _); [intro H; injection H as <- <-; contradiction|].
  intro H. apply obind_ok in H as (on & Hon & H). injection H as <- <-. apply last_index_some in L as [L|(x & _ & L & T)]; [discriminate|]. rewrite Nat.sub_0_r in L. apply str_eqb_eq in T.
  eexists _, x. split; [reflexivity|]. split; [exact N|]. repeat split; assumption.
Qed.
Lemma form_line l s s' : row_line' l s = Ok (inl s') -> exists x n, s' = add_line s x n /\ line_row atof (s_lprops s) l x.
Proof.
  unfold row_line. destruct (_ <? 7) eqn:N; [discriminate|]. apply Nat.ltb_ge in N. destruct (last_index _ _ _ _) as [p|] eqn:L; [|discriminate]. destruct (_ && _); [discriminate|].
  intro H. apply rbind_inl in H as (a & Ha & H). apply rbind_inl in H as (b & Hb & H). injection H as <-. apply read_place_names in Ha, Hb.
  apply last_index_some in L as [L|(x & _ & L & T)]; [discriminate|]. rewrite Nat.sub_0_r in L. apply str_eqb_eq in T. eexists _, _. split; [reflexivity|]. exists x. split; [exact N|]. 
  split; [reflexivity|]. split; [exact L|]. split; [exact T|]. split; [exact Ha|]. split; [exact Hb|]. repeat split.
Qed.
Lemma form_fail l s s' : row_fail' l s = Ok (inl s') -> exists f, s' = add_fail s f.
Proof.
  unfold row_fail. destruct (_ <? 4); [discriminate|]. intro H. apply rbind_inl in H as (a & Ha & H). destruct (fail_lines _ _) as [ls|] eqn:F; [|discriminate].
  apply obind_ok in H as (t & _ & H). injection H as <-. eauto.
Qed.
Definition but_chans (s s' : sys) : Prop := s_lprops s' = s_lprops s /\ s_rprops s' = s_rprops s /\ s_bodies s' = s_bodies s /\ s_points s' = s_points s /\ s_rods s' = s_rods s /\ s_lines s' = s_lines s.
Lemma form_chans : forall ws s s', read_chans ws s = Ok s' -> but_chans s s'.
Proof.
  induction ws as [|w ws IH]; intros s s'; cbn [read_chans]; [intro H; injection H as <-; repeat split|]. intro H. apply obind_ok in H as (c & _ & H).
  destruct c as [c|]; apply IH in H; exact H.
Qed.
Lemma form_output l s s' : row_output l s = Ok (inl s') -> but_chans s s'.
Proof. unfold row_output. intro X. apply obind_ok in X as (c & Hc & X). injection X as <-. exact (form_chans _ _ _ Hc). Qed.

Lemma run_table {A} (body : str -> sys -> outcome (sys + Z)) (P : sys -> Prop) (q : sys -> list A) (made : str -> A -> Prop) :
  (forall l s s', P s -> body l s = Ok (inl s') -> P s' /\ exists x, q s' = q s ++ [x] /\ made l x) ->
  forall rs l rest s s', dashed l -> (forall r, In r rs -> ~ dashed r) -> P s -> run body (rs ++ l :: rest) s = Ok (inl s') -> exists xs, q s' = q s ++ xs /\ Forall2 made rs xs.
Proof.
  intro Hb. induction rs as [|r rs IH]; intros l rest s s' D N HP; cbn [app run].
  - apply dashes_iff in D as ->. intro H. injection H as <-. exists []. split; [now rewrite app_nil_r|constructor].
  - destruct (dashes r) eqn:E; [apply dashes_iff in E; exfalso; exact (N r (or_introl eq_refl) E)|]. intro H. apply obind_ok in H as ([s1|e] & H1 & H); [|discriminate].
    destruct (Hb _ _ _ HP H1) as (P1 & x & Q & M). destruct (IH l rest s1 s' D) as (xs & Qs & F); [intros; apply N; now right|exact P1|exact H|].
    exists (x :: xs). split; [rewrite Qs, Q, <- app_assoc; reflexivity|now constructor].
Qed.
Lemma sec_table {A} t keys skip (body : str -> sys -> outcome (sys + Z)) (P : sys -> Prop) (q : sys -> list A) (made : str -> A -> Prop) s s' :
  (forall l s s', P s -> body l s = Ok (inl s') -> P s' /\ exists x, q s' = q s ++ [x] /\ made l x) -> P s -> q s = [] ->
  sec (from t keys skip) body s = Ok (inl s') -> table t keys skip made (q s').
Proof.
  intros Hb HP Q H. unfold from in H. split.
  - intros rs (i & l & rest & Hh & E & D & N). assert (X : find_start t keys skip = Some (i + skip)) by (apply find_start_iff; now exists i). rewrite X in H. cbn [sec] in H. rewrite E in H.
    destruct (run_table body P q made Hb rs l rest s s' D N HP H) as (xs & Qs & F). rewrite Q in Qs. now rewrite Qs.
  - intro N. apply (find_start_none _ _ skip) in N. rewrite N in H. cbn [sec] in H. injection H as <-. exact Q.
Qed.
Lemma keep_sec {A} (q : sys -> A) o (body : str -> sys -> outcome (sys + Z)) s s' : (forall l s s', body l s = Ok (inl s') -> q s' = q s) -> sec o body s = Ok (inl s') -> q s' = q s.
Proof. intros Hb H. apply (sec_inv (fun x => q x = q s) o body s s'); [|exact H|reflexivity]. intros l x y Hx Hy. rewrite (Hb _ _ _ Hy). exact Hx. Qed.
Ltac keeps :=
  match goal with
  | H : sec _ row_option' _ = _ |- _ => eapply keep_sec; [|exact H]; intros ? ? ? X; apply form_option in X as (? & ->); reflexivity
  | H : sec _ row_line_props' _ = _ |- _ => eapply keep_sec; [|exact H]; intros ? ? ? X; apply form_lprops in X as (? & ->); reflexivity
  | H : sec _ row_rod_props' _ = _ |- _ => eapply keep_sec; [|exact H]; intros ? ? ? X; apply form_rprops in X as (? & ->); reflexivity
  | H : sec _ row_body' _ = _ |- _ => eapply keep_sec; [|exact H]; intros ? ? ? X; apply form_body in X as (? & ? & -> & _); reflexivity
  | H : sec _ row_point' _ = _ |- _ => eapply keep_sec; [|exact H]; intros ? ? ? X; apply form_point in X as (? & ? & ? & -> & _); reflexivity
  | H : sec _ row_rod' _ = _ |- _ => eapply keep_sec; [|exact H]; intros ? ? ? X; apply form_rod in X as (? & ? & -> & _); reflexivity
  | H : sec _ row_line' _ = _ |- _ => eapply keep_sec; [|exact H]; intros ? ? ? X; apply form_line in X as (? & ? & -> & _); reflexivity
  | H : sec _ row_fail' _ = _ |- _ => eapply keep_sec; [|exact H]; intros ? ? ? X; apply form_fail in X as (? & ->); reflexivity
  end.
Lemma keep_option s s' o : sec o row_option' s = Ok (inl s') -> but_chans s s' /\ s_fails s' = s_fails s.
Proof. intro H. unfold but_chans. repeat split; keeps. Qed.
Lemma keep_lprops s s' o : sec o row_line_props' s = Ok (inl s') -> s_rprops s' = s_rprops s /\ s_bodies s' = s_bodies s /\ s_points s' = s_points s /\ s_rods s' = s_rods s /\ s_lines s' = s_lines s.
Proof. intro H. repeat split; keeps. Qed.
Lemma keep_rprops s s' o : sec o row_rod_props' s = Ok (inl s') -> s_lprops s' = s_lprops s /\ s_bodies s' = s_bodies s /\ s_points s' = s_points s /\ s_rods s' = s_rods s /\ s_lines s' = s_lines s.
Proof. intro H. repeat split; keeps. Qed.
Lemma keep_body s s' o : sec o row_body' s = Ok (inl s') -> s_lprops s' = s_lprops s /\ s_rprops s' = s_rprops s /\ s_points s' = s_points s /\ s_rods s' = s_rods s /\ s_lines s' = s_lines s.
Proof. intro H. repeat split; keeps. Qed.
Lemma keep_point s s' o : sec o row_point' s = Ok (inl s') -> s_lprops s' = s_lprops s /\ s_rprops s' = s_rprops s /\ s_bodies s' = s_bodies s /\ s_rods s' = s_rods s /\ s_lines s' = s_lines s.
Proof. intro H. repeat split; keeps. Qed.
Lemma keep_rod s s' o : sec o row_rod' s = Ok (inl s') -> s_lprops s' = s_lprops s /\ s_rprops s' = s_rprops s /\ s_bodies s' = s_bodies s /\ s_points s' = s_points s /\ s_lines s' = s_lines s.
Proof. intro H. repeat split; keeps. Qed.
Lemma keep_line s s' o : sec o row_line' s = Ok (inl s') -> s_lprops s' = s_lprops s /\ s_rprops s' = s_rprops s /\ s_bodies s' = s_bodies s /\ s_points s' = s_points s /\ s_rods s' = s_rods s.
Proof. intro H. repeat split; keeps. Qed.
Lemma keep_fail s s' o : sec o row_fail' s = Ok (inl s') -> but_chans s s'.
Proof. intro H. repeat split; keeps. Qed.
Lemma keep_output s s' o : sec o row_output s = Ok (inl s') -> but_chans s s'.
Proof. intro H. repeat split; (eapply keep_sec; [|exact H]; intros ? ? ? X; apply form_output in X; apply X). Qed.
Lemma read_tables t s : read_file' t = Ok (inl s) ->
  table t ["BODIES"; "BODY LIST"; "BODY PROPERTIES"]%string 3 (body_row atof) (s_bodies s) /\
  table t ["POINTS"; "POINT LIST"; "POINT PROPERTIES"; "CONNECTION PROPERTIES"; "NODE PROPERTIES"]%string 3 (point_row atof) (s_points s) /\
  table t ["RODS"; "ROD LIST"; "ROD PROPERTIES"]%string 3 (rod_row atof (s_rprops s)) (s_rods s) /\
  table t ["LINES"; "LINE LIST"; "LINE PROPERTIES"]%string 3 (line_row atof (s_lprops s)) (s_lines s).
Proof.
  intro H0. assert (NN : ~ In None (s_rods s)) by (eapply read_steps; exact H0). revert H0. rewrite read_file_run. unfold read_run. intro H. apply obind_ok in H as (w & _ & H). destruct (negb _); [discriminate|].
  apply rbind_inl in H as (s1 & H1 & H). apply rbind_inl in H as (s2 & H2 & H). apply rbind_inl in H as (s3 & H3 & H). apply rbind_inl in H as (s4 & H4 & H).
  apply rbind_inl in H as (s5 & H5 & H). apply rbind_inl in H as (s6 & H6 & H). apply rbind_inl in H as (s7 & H7 & H). apply rbind_inl in H as (s8 & H8 & H). apply rbind_inl in H as (s9 & H9 & H).
  assert (s9 = s) as -> by (unfold check_rods in H; destruct (length (filter _ (s_rods s9))) as [|[|k]]; try discriminate; now injection H). clear H.
  assert (H7' : sec (from t ["LINES"; "LINE LIST"; "LINE PROPERTIES"]%string 3) row_line' s6 = Ok (inl s7)).
  { destruct (from t ["LINES"; "LINE LIST"; "LINE PROPERTIES"]%string 3); destruct (s_lprops s6); try discriminate; exact H7. }
  clear H7. pose proof (keep_option _ _ _ H1) as [(K1a & K1b & K1c & K1d & K1e & K1f) _]. pose proof (keep_lprops _ _ _ H2) as (K2b & K2c & K2d & K2e & K2f). pose proof (keep_rprops _ _ _ H3) as (K3a & K3c & K3d & K3e & K3f).
  pose proof (keep_body _ _ _ H4) as (K4a & K4b & K4d & K4e & K4f). pose proof (keep_point _ _ _ H5) as (K5a & K5b & K5c & K5e & K5f). pose proof (keep_rod _ _ _ H6) as (K6a & K6b & K6c & K6d & K6f).
  pose proof (keep_line _ _ _ H7') as (K7a & K7b & K7c & K7d & K7e). pose proof (keep_fail _ _ _ H8) as (K8a & K8b & K8c & K8d & K8e & K8f). pose proof (keep_output _ _ _ H9) as (K9a & K9b & K9c & K9d & K9e & K9f).
  split; [|split; [|split]].
  - rewrite K9c, K8c, K7c, K6c, K5c. apply (sec_table _ _ _ row_body' (fun _ => True) s_bodies (body_row atof) s3 s4); auto.
    + intros l a b _ X. split; [exact I|]. apply form_body in X as (x & n & -> & M). now exists x.
    + now rewrite K3c, K2c, K1c.
  - rewrite K9d, K8d, K7d, K6d. apply (sec_table _ _ _ row_point' (fun _ => True) s_points (point_row atof) s4 s5); auto.
    + intros l a b _ X. split; [exact I|]. apply form_point in X as (o & x & n & -> & M). now exists x.
    + now rewrite K4d, K3d, K2d, K1d.
  - assert (E : s_rods s = s_rods s6) by now rewrite K9e, K8e, K7e.
    assert (T : table t ["RODS"; "ROD LIST"; "ROD PROPERTIES"]%string 3 (fun r o => o <> None -> rod_row atof (s_rprops s) r o) (s_rods s6)).
    { apply (sec_table _ _ _ row_rod' (fun x => s_rprops x = s_rprops s) s_rods (fun r o => o <> None -> rod_row atof (s_rprops s) r o) s5 s6); auto.
      + intros l a b Pa X. apply form_rod in X as (x & n & -> & M). split; [exact Pa|]. exists x. split; [reflexivity|]. now rewrite <- Pa.
      + now rewrite K9b, K8b, K7b, K6b.
      + now rewrite K5e, K4e, K3e, K2e, K1e. }
    rewrite E in NN |- *. destruct T as [T1 T2]. split; [|exact T2]. intros rs Hr. specialize (T1 rs Hr). clear - T1 NN. induction T1; constructor.
    + apply H. intros ->. apply NN. now left.
    + apply IHT1. intro X. apply NN. now right.
  - rewrite K9f, K8f. apply (sec_table _ _ _ row_line' (fun x => s_lprops x = s_lprops s) s_lines (line_row atof (s_lprops s)) s6 s7); auto.
    + intros l a b Pa X. apply form_line in X as (x & n & -> & M). split; [exact Pa|]. exists x. split; [reflexivity|]. now rewrite <- Pa.
    + now rewrite K9a, K8a, K7a.
    + now rewrite K6f, K5f, K4f, K3f, K2f, K1f.
Qed.

(** drag coefficients of a body *)
Lemma row_CdA l s s' vs : row_body' l s = Ok (inl s') -> map atof (split_sep (field l 12) "|") = vs -> exists b, s_bodies s' = s_bodies s ++ [b] /\
  bi_CdA b = match vs with [a] => [a; a; a; a; a; a] | [a; b] => [a; a; a; b; b; b] | [_; b; c] => [0; b; c; 0; b; c]%R | [_; b; c; d; e; f] => [0; b; c; d; e; f]%R | _ => [] end.
Proof.
  unfold row_body, field. destruct (_ <? 14) eqn:N; [discriminate|]. apply Nat.ltb_ge in N. destruct (one_or_three _ _ _) as [cg|]; [|discriminate]. destruct (one_or_three _ _ _) as [ii|]; [|discriminate].
  destruct (read_CdA _ _) as [cda|] eqn:C; [|discriminate]. destruct (one_or_three _ _ _) as [ca|]; [|discriminate]. destruct (body_type _) as [t n] eqn:E. destruct (can_create _ _); [|discriminate].
  intros H Hv. injection H as <-. eexists. split; [reflexivity|]. cbn [bi_CdA]. unfold read_CdA, ent in C. revert C Hv. generalize (split_sep (nth 12 (split_sep l space) []) "|"). intros ws.
  destruct ws as [|x1 [|x2 [|x3 [|x4 [|x5 [|x6 [|x7 ws]]]]]]]; try discriminate; intros C <-; injection C as <-; reflexivity.
Qed.

(** input errors *)
Lemma is_txt_refl w : is_txt (tx w) w = true.
Proof. unfold is_txt. induction (tx w) as [|a l IH]; [reflexivity|]. cbn [str_eqb]. now rewrite Ascii.eqb_refl. Qed.
Lemma not_txt n w ws : In w ws -> ~ In n (map tx ws) -> is_txt n w = false.
Proof. intros I N. destruct (is_txt n w) eqn:E; [|reflexivity]. apply str_eqb_eq in E. subst. exfalso. apply N. now apply in_map. Qed.
Lemma good_option l s : harmless l -> exists s', row_option' l s = Ok (inl s').
Proof.
  intro H. unfold row_option. destruct (split_sep l space) as [|v [|n r]] eqn:E; eauto. specialize (H v n r E). destruct (is_txt n "writeLog"); eauto.
  unfold put_option. destruct (find _ real_options); cbn [obind]; eauto.
  assert (X1 : is_txt n "tScheme" = false) by (eapply not_txt; [|exact H]; left; reflexivity).
  assert (X2 : is_txt n "WaveKin" = false) by (eapply not_txt; [|exact H]; right; left; reflexivity).
  assert (X3 : is_txt n "dtWave" = false) by (eapply not_txt; [|exact H]; do 2 right; left; reflexivity).
  assert (X4 : is_txt n "Currents" = false) by (eapply not_txt; [|exact H]; do 3 right; left; reflexivity).
  assert (X5 : is_txt n "SeafloorFile" = false) by (eapply not_txt; [|exact H]; do 4 right; left; reflexivity).
  rewrite X1, X2, X3, X4, X5. destruct (is_txt n "WtrDpth"); cbn [obind]; eauto. destruct (is_txt n "UnifyCurrentGrid"); cbn [obind]; eauto. destruct (is_txt n "WriteUnits"); cbn [obind]; eauto.
Qed.
Definition fails_well {A} (P : A -> Prop) (r : outcome (A + Z)) : Prop := exists x, r = Ok x /\ match x with inl a => P a | inr e => known e end.
Lemma run_well (body : str -> sys -> outcome (sys + Z)) (P : sys -> Prop) (Q : str -> Prop) : (forall l s, Q l -> P s -> fails_well P (body l s)) ->
  forall ls s, (forall l, In l ls -> Q l) -> (exists l, In l ls /\ dashed l) -> P s -> fails_well P (run body ls s).
Proof.
  intro Hb. induction ls as [|l ls IH]; intros s HQ (x & I & D) HP; [destruct I|]. cbn [run]. destruct (dashes l) eqn:E; [now exists (inl s)|].
  destruct (Hb l s (HQ l (or_introl eq_refl)) HP) as ([s'|e] & -> & H); cbn [obind]; [|now exists (inr e)]. apply IH; auto; [intros; apply HQ; now right|].
  destruct I as [->|I]; [apply dashes_iff in D; congruence|now exists x].
Qed.
Lemma sec_well t keys skip (body : str -> sys -> outcome (sys + Z)) (P : sys -> Prop) (Q : str -> Prop) s : (forall l s, Q l -> P s -> fails_well P (body l s)) ->
  (forall l, In l t -> Q l) -> closed t keys skip -> P s -> fails_well P (sec (from t keys skip) body s).
Proof.
  intros Hb HQ C HP. unfold from. destruct (find_start t keys skip) as [i|] eqn:E; [|now exists (inl s)]. cbn [sec]. apply find_start_iff in E as (j & H & ->). apply (run_well body P Q); auto.
  - intros l I. apply HQ. rewrite <- (firstn_skipn (j + skip) t). apply in_or_app. now right.
  - destruct (C j H) as (k & l & L & N & D). exists l. split; [|exact D]. rewrite <- (firstn_skipn (j + skip) t) in N. rewrite nth_error_app2 in N; [exact (nth_error_In _ _ N)|]. rewrite firstn_length. lia.
Qed.
Lemma bind_well {A B} (P : A -> Prop) (Q : B -> Prop) r f : fails_well P r -> (forall a, P a -> fails_well Q (f a)) -> fails_well Q (rbind r f).
Proof. intros ([a|e] & -> & H) Hf; [exact (Hf a H)|]. exists (inr e). now split. Qed.
Lemma good_point l s : short_body l -> fails_well (fun s' => s_rods s' = s_rods s) (row_point' l s).
Proof.
  intro Hs. unfold row_point. destruct (_ <? 9); [exists (inr MOORDYN_INVALID_INPUT); split; [reflexivity|now left]|]. unfold short_body, field in Hs. unfold ent.
  destruct (point_type _ _ _) as [[[t n] b]|] eqn:E; [|exists (inr MOORDYN_INVALID_INPUT); split; [reflexivity|now left]].
  set (d := decomposeString (nth 1 (split_sep l space) [])) in *. unfold point_type in E. destruct b as [m|]; [|cbn [obind]; eexists; split; [reflexivity|]; reflexivity].
  destruct (is_any (d_let1 d) _); [discriminate|]. destruct (is_txt (d_let1 d) "BODY") eqn:B; [|destruct (is_any (d_let1 d) _); [discriminate|]; destruct (is_any (d_let1 d) _); discriminate].
  destruct (nonempty _); [|discriminate]. destruct ((_ =? 0)%Z || _) eqn:F; [discriminate|]. assert (M : m = d_num1 d) by congruence. subst m. clear E. apply str_eqb_eq in B. destruct (Hs B) as (id & Hi & U).
  apply orb_false_iff in F as [A1 A2]. apply Z.eqb_neq in A1. apply Z.ltb_ge in A2. assert (N : (0 <= u32 (atoi (d_num1 d)))%Z) by (unfold u32; apply Z.mod_pos_bound; reflexivity).
  unfold body_at. rewrite Hi. cbn [obind]. rewrite U in A1, A2, N. assert (X : (1 <=? id)%Z && (id <=? Z.of_nat (length (s_bodies s)))%Z = true) by (apply andb_true_iff; split; apply Z.leb_le; lia).
  rewrite X. cbn [obind]. eexists. split; [reflexivity|]. reflexivity.
Qed.
Lemma place_well e s : s_rods s = [] -> fails_well (fun _ => True) (read_place true e s).
Proof.
  intro R. assert (K : fails_well (fun _ : place => True) (Ok (inr MOORDYN_INVALID_INPUT))) by (eexists; split; [reflexivity|now left]).
  unfold read_place. destruct (nonempty _); [|exact K]. destruct (is_any _ _).
  - rewrite R. assert (N : (0 <= u32 (atoi (d_num1 (decomposeString e))))%Z) by (unfold u32; apply Z.mod_pos_bound; reflexivity).
    destruct ((_ =? 0)%Z || _) eqn:F; [exact K|]. apply orb_false_iff in F as [A1 A2]. apply Z.eqb_neq in A1. apply Z.ltb_ge in A2. cbn [length] in A2. lia.
  - destruct (_ || is_any _ _); [|exact K]. destruct (_ || _); [exact K|]. eexists. split; [reflexivity|exact I].
Qed.
Lemma good_line l s : s_rods s = [] -> fails_well (fun s' => s_rods s' = []) (row_line' l s).
Proof.
  intro R. assert (K : fails_well (fun s' => s_rods s' = []) (Ok (inr MOORDYN_INVALID_INPUT))) by (eexists; split; [reflexivity|now left]).
  unfold row_line. destruct (_ <? 7); [exact K|]. destruct (last_index _ _ _ _); [|exact K]. destruct (_ && _); [eexists; split; [reflexivity|now right]|].
  eapply bind_well; [apply place_well; exact R|]. intros a _. eapply bind_well; [apply place_well; exact R|]. intros b _. eexists. split; [reflexivity|]. exact R.
Qed.
Lemma create_well t : (forall v, setup_log v = MOORDYN_SUCCESS \/ known (setup_log v)) -> all_closed t ->
  (forall keys, In keys [["RODS"; "ROD LIST"; "ROD PROPERTIES"]; ["FAILURE"]; ["OUTPUT"]]%string -> forall i, ~ header_at t keys i) ->
  (forall l, In l t -> harmless l) -> (forall l, In l t -> short_body l) ->
  exists r, create atof stof stold opened basepath can_create setup_log floor_setup t = Ok r.
Proof.
  intros HL C NS Hh Hb.
  assert (G : fails_well (fun _ => True) (read_file' t)).
  { rewrite read_file_run. unfold read_run. assert (W : exists w, match from t ["OPTIONS"%string] 1 with Some ls => wl ls | None => Ok None end = Ok w).
    { unfold from. destruct (find_start t ["OPTIONS"%string] 1) as [i|] eqn:E; [|eauto]. apply find_start_iff in E as (j & H & ->). apply wl_good.
      destruct (C ["OPTIONS"%string] 1 (or_introl eq_refl) j H) as (k & l & L & N & D). exists l. split; [|exact D].
      rewrite <- (firstn_skipn (j + 1) t) in N. rewrite nth_error_app2 in N; [exact (nth_error_In _ _ N)|]. rewrite firstn_length. lia. }
    destruct W as (w & ->). cbn [obind]. destruct (negb _) eqn:E.
    { destruct w as [v|]; [|discriminate]. destruct (HL v) as [H|H]; [rewrite H in E; discriminate|]. eexists. split; [reflexivity|exact H]. }
    assert (NR : forall keys skip, In keys [["RODS"; "ROD LIST"; "ROD PROPERTIES"]; ["FAILURE"]; ["OUTPUT"]]%string -> from t keys skip = None).
    { intros keys skip I. unfold from. specialize (NS keys I). apply (find_start_none _ _ skip) in NS. now rewrite NS. }
    rewrite (NR ["RODS"; "ROD LIST"; "ROD PROPERTIES"]%string 3), (NR ["FAILURE"]%string 3), (NR ["OUTPUT"]%string 1) by (cbn; tauto). cbn [sec].
    apply (bind_well (fun s => s_rods s = [])).
    { apply (sec_well _ _ _ _ _ harmless); auto; [|apply C; cbn; tauto]. intros l s Hl R. destruct (good_option l s Hl) as (s' & X). exists (inl s'). split; [exact X|]. apply form_option in X as (o & ->). exact R. }
    intros s1 R1. apply (bind_well (fun s => s_rods s = [])).
    { apply (sec_well _ _ _ _ _ (fun _ => True)); auto; [|apply C; cbn; tauto]. intros l s _ R. unfold row_line_props. destruct (read_line_props _ _ _ _ _); eexists; (split; [reflexivity|]); [exact R|now left]. }
    intros s2 R2. apply (bind_well (fun s => s_rods s = [])).
    { apply (sec_well _ _ _ _ _ (fun _ => True)); auto; [|apply C; cbn; tauto]. intros l s _ R. unfold row_rod_props. destruct (_ <? 7); eexists; (split; [reflexivity|]); [now left|exact R]. }
    intros s3 R3. apply (bind_well (fun s => s_rods s = [])).
    { apply (sec_well _ _ _ _ _ (fun _ => True)); auto; [|apply C; cbn; tauto]. intros l s _ R. unfold row_body. destruct (_ <? 14); [eexists; split; [reflexivity|now left]|].
      destruct (one_or_three _ _ _); [|eexists; split; [reflexivity|now left]]. destruct (one_or_three _ _ _); [|eexists; split; [reflexivity|now left]]. destruct (read_CdA _ _); [|eexists; split; [reflexivity|now left]].
      destruct (one_or_three _ _ _); [|eexists; split; [reflexivity|now left]]. destruct (body_type _). destruct (can_create _ _); eexists; (split; [reflexivity|]); [exact R|now left]. }
    intros s4 R4. apply (bind_well (fun s => s_rods s = [])).
    { apply (sec_well _ _ _ _ _ short_body); auto; [|apply C; cbn; tauto]. intros l s Hl R. destruct (good_point l s Hl) as ([s'|e] & X & Y); eexists; (split; [exact X|]); [congruence|exact Y]. }
    intros s5 R5. unfold rbind at 1. cbn [obind].
    assert (L : fails_well (fun s => s_rods s = []) (sec (from t ["LINES"; "LINE LIST"; "LINE PROPERTIES"]%string 3) row_line' s5)).
    { apply (sec_well _ _ _ _ _ (fun _ => True)); auto; [|apply C; cbn; tauto]. intros l s _ R. now apply good_line. }
    apply (bind_well (fun s => s_rods s = [])).
    { destruct (from t ["LINES"; "LINE LIST"; "LINE PROPERTIES"]%string 3); [|exact L]. destruct (s_lprops s5); [eexists; split; [reflexivity|now left]|exact L]. }
    intros s7 R7. unfold rbind. cbn [obind]. unfold check_rods. rewrite R7. cbn [filter length]. eexists. split; [reflexivity|exact I]. }
  destruct G as ([s|e] & E & K); unfold create; rewrite E; [eauto|]. destruct K as [-> | ->]; cbn; eauto.
Qed.
End Tables.
