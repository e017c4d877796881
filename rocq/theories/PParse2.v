(** Proofs about reading the input file: what holds of the system that is read. *)
From Coq Require Import String Ascii List Arith ZArith Bool Reals Lia.
From Verif Require Import MErr MStr MVec MStateOps MBody MCurve MDetach MParse SParse PParse.
From Verif Require MTime MScheme.
Import ListNotations.
Local Open Scope nat_scope.

Lemma rbind_inl {A B} (r : outcome (A + Z)) (f : A -> outcome (B + Z)) b : rbind r f = Ok (inl b) -> exists a, r = Ok (inl a) /\ f a = Ok (inl b).
Proof. unfold rbind. destruct r as [[a|e]| | |]; cbn [obind]; try discriminate. intro H. now exists a. Qed.
Lemma obind_ok {A B} (r : outcome A) (f : A -> outcome B) b : obind r f = Ok b -> exists a, r = Ok a /\ f a = Ok b.
Proof. destruct r; cbn [obind]; try discriminate. intro H. now exists a. Qed.
Lemma sec_inv {S0} (P : S0 -> Prop) o (body : str -> S0 -> outcome (S0 + Z)) s s' :
  (forall l s s', P s -> body l s = Ok (inl s') -> P s') -> sec o body s = Ok (inl s') -> P s -> P s'.
Proof. intros Hb. destruct o as [ls|]; cbn [sec]; [apply (run_inv body P Hb)|intro H; injection H as <-; auto]. Qed.
Lemma u32_add a b : u32 (u32 a + b) = u32 (a + b).
Proof. unfold u32. now rewrite Zplus_mod_idemp_l. Qed.
Lemma u32_mul_add a k n : u32 (a + k * (u32 n)) = u32 (a + k * n).
Proof. unfold u32. rewrite <- Zplus_mod_idemp_r, Zmult_mod_idemp_r, Zplus_mod_idemp_r. reflexivity. Qed.
Lemma zsum_app a b : zsum (a ++ b) = (zsum a + zsum b)%Z.
Proof. unfold zsum. induction a as [|x a IH]; cbn [app fold_right]; lia. Qed.

Section Sys.
Variable atof : str -> R.
Variable stof : str -> option R.
Variable stold : str -> stold_res.
Variable opened : str -> option str.
Variable basepath : str.
Variable can_create : nat -> Z -> bool.
Variable setup_log : Z -> Z.
Variable floor_setup : str -> outcome unit.
Notation row_option' := (row_option atof stof floor_setup).
Notation row_line_props' := (row_line_props atof stold opened basepath).
Notation row_rod_props' := (row_rod_props atof).
Notation row_body' := (row_body atof can_create).
Notation row_point' := (row_point atof).
Notation row_rod' := (row_rod atof can_create).
Notation row_line' := (row_line atof can_create).
Notation row_fail' := (row_fail atof).
Notation read_file' := (read_file atof stof stold opened basepath can_create setup_log floor_setup).

(** how each row changes the system *)
Inductive step : sys -> sys -> Prop :=
| st_opt s o : step s (set_opt s o)
| st_same s : step s s
| st_lprop s p : step s (add_lprop s p)
| st_rprop s p : step s (add_rprop s p)
| st_body s b : step s (add_body s b (2 * body_dof b))
| st_point s o p : parent_ok s (pi_on p) -> step s (add_point (set_opt s o) p (2 * point_dof p))
| st_rod s r : parent_ok s (ri_on r) -> ri_prop r < length (s_rprops s) -> step s (add_rod s (Some r) (2 * rod_dof (Some r)))
| st_null s n : step s (add_rod s None n)
| st_line s l k : li_prop l < length (s_lprops s) -> place_ok s (li_a l) -> place_ok s (li_b l) -> li_segs l = u32 k -> step s (add_line s l (6 * (k - 1)))
| st_fail s f : (match fi_at f with AtPoint i => i < length (s_points s) | AtRod i _ => i < length (s_rods s) end) -> (forall k, In k (fi_lines f) -> k < length (s_lines s)) -> step s (add_fail s f)
| st_chan s c : step s (add_chan s c).

Lemma step_option l s s' : row_option' l s = Ok (inl s') -> step s s'.
Proof.
  unfold row_option. destruct (split_sep l space) as [|v [|n r]]; try (intro H; injection H as <-; apply st_same). destruct (is_txt n "writeLog"); [intro H; injection H as <-; apply st_same|].
  intro H. apply obind_ok in H as (o & _ & H). injection H as <-. apply st_opt.
Qed.
Lemma step_lprops l s s' : row_line_props' l s = Ok (inl s') -> step s s'.
Proof. unfold row_line_props. destruct (read_line_props atof stold opened basepath l); [|discriminate]. intro H. injection H as <-. apply st_lprop. Qed.
Lemma step_rprops l s s' : row_rod_props' l s = Ok (inl s') -> step s s'.
Proof. unfold row_rod_props. destruct (_ <? 7); [discriminate|]. intro H. injection H as <-. apply st_rprop. Qed.
Lemma body_type_dof w t n : body_type w = (t, n) -> n = (2 * match t with BFree => 6 | BCpldPin => 3 | _ => 0 end)%Z.
Proof.
  unfold body_type. destruct (is_any w _); [intro H; injection H as <- <-; reflexivity|]. destruct (is_any w _); [intro H; injection H as <- <-; reflexivity|].
  destruct (is_any w _); intro H; injection H as <- <-; reflexivity.
Qed.
Lemma step_body l s s' : row_body' l s = Ok (inl s') -> step s s'.
Proof.
  unfold row_body. destruct (_ <? 14); [discriminate|]. destruct (one_or_three _ _ _) as [cg|]; [|discriminate]. destruct (one_or_three _ _ _) as [ii|]; [|discriminate].
  destruct (read_CdA _ _) as [cda|]; [|discriminate]. destruct (one_or_three _ _ _) as [ca|]; [|discriminate]. destruct (body_type _) as [t n] eqn:E. destruct (can_create _ _); [|discriminate].
  intro H. injection H as <-. apply body_type_dof in E. subst n. match goal with |- step s (add_body s ?b _) => exact (st_body s b) end.
Qed.
Lemma body_at_ok num nb p : body_at num nb = Ok p -> exists i, p = OnBody i /\ i < nb.
Proof.
  unfold body_at. intro H. apply obind_ok in H as (id & _ & H). destruct ((1 <=? id)%Z && (id <=? Z.of_nat nb)%Z) eqn:E; [|discriminate]. injection H as <-.
  apply andb_true_iff in E as [A B]. apply Z.leb_le in A, B. exists (Z.to_nat (id - 1)). split; [reflexivity|lia].
Qed.
Lemma point_type_dof w m nb t n b : point_type w m nb = Some (t, n, b) -> n = (2 * match t with PFree => 3 | _ => 0 end)%Z.
Proof.
  unfold point_type. destruct (is_any w _); [intro H; injection H as <- <- <-; reflexivity|]. destruct (is_txt w _).
  - destruct (nonempty m); [|discriminate]. destruct (_ || _); [discriminate|]. intro H. injection H as <- <- <-. reflexivity.
  - destruct (is_any w _); [intro H; injection H as <- <- <-; reflexivity|]. destruct (is_any w _); [intro H; injection H as <- <- <-; reflexivity|discriminate].
Qed.
Lemma step_point l s s' : row_point' l s = Ok (inl s') -> step s s'.
Proof.
  unfold row_point. destruct (_ <? 9); [discriminate|]. destruct (point_type _ _ _) as [[[t n] b]|] eqn:E; [|discriminate].
  intro H. apply obind_ok in H as (on & Hon & H). injection H as <-. apply point_type_dof in E. subst n.
  match goal with |- step s (add_point (set_opt s ?o) ?p _) => refine (st_point s o p _) end. cbn [pi_on].
  destruct b as [m|]; [apply body_at_ok in Hon as (i & -> & Hi); exact Hi|]. injection Hon as <-. destruct (is_any _ _); exact I.
Qed.
Lemma rod_type_dof w m v nb t n : rod_type w m v nb = Some (t, n) -> n = (2 * match t with RFree => 6 | RPinned | RCpldPin => 3 | _ => 0 end)%Z.
Proof.
  unfold rod_type. destruct (is_any w _); [intro H; injection H as <- <-; reflexivity|]. destruct (is_any w _); [intro H; injection H as <- <-; reflexivity|]. destruct (is_txt w _).
  - destruct (nonempty m); [|discriminate]. destruct (_ || _); [discriminate|]. destruct (is_any v _); intro H; injection H as <- <-; reflexivity.
  - destruct (is_any w _); [intro H; injection H as <- <-; reflexivity|]. destruct (is_any w _); [intro H; injection H as <- <-; reflexivity|].
    destruct (is_any w _); [intro H; injection H as <- <-; reflexivity|discriminate].
Qed.
Lemma last_index_lt {A} (f : A -> bool) l : forall i found k, last_index f l i found = Some k -> (match found with Some j => j < i | None => True end) -> k < i + length l.
Proof.
  induction l as [|x l IH]; intros i found k; cbn [last_index length]; [intros -> H; lia|]. intros H Hf. specialize (IH _ _ _ H). enough (k < S i + length l) by lia. apply IH. destruct (f x); [lia|]. destruct found; [lia|exact I].
Qed.
Lemma step_rod l s s' : row_rod' l s = Ok (inl s') -> step s s'.
Proof.
  unfold row_rod. intro H. apply obind_ok in H as ([r n] & Hr & H). injection H as <-. cbn [fst snd]. revert Hr. unfold read_rod. destruct (_ <? 11); [intro H; injection H as <- <-; apply st_null|].
  destruct (rod_type _ _ _ _) as [[t m]|] eqn:E; [|intro H; injection H as <- <-; apply st_null].
  destruct (last_index _ _ _ _) as [p|] eqn:L; [|intro H; injection H as <- <-; apply st_null]. destruct (_ && _); [intro H; injection H as <- <-; apply st_null|].
  intro H. apply obind_ok in H as (on & Hon & H). injection H as <- <-. apply rod_type_dof in E. subst m. 
  match goal with |- step s (add_rod s (Some ?x) _) => refine (st_rod s x _ _) end; cbn [ri_on ri_prop].
  - destruct (is_any _ _); [injection Hon as <-; exact I|]. destruct (is_txt _ _); [apply body_at_ok in Hon as (i & -> & Hi); exact Hi|injection Hon as <-; exact I].
  - apply (last_index_lt _ _ _ _ _ L I).
Qed.
Lemma read_place_ok d e s p : read_place d e s = Ok (inl p) ->
  match p with AtPoint i => i < length (s_points s) | AtRod i _ => i < length (s_rods s) /\ (d = true -> exists r, nth_error (s_rods s) i = Some (Some r)) end.
Proof.
  unfold read_place. destruct (nonempty _); [|discriminate]. destruct (is_any _ _).
  - destruct ((_ =? 0)%Z || _) eqn:E; [discriminate|]. apply orb_false_iff in E as [A B]. apply Z.eqb_neq in A. apply Z.ltb_ge in B.
    assert (N : (0 <= u32 (atoi (d_num1 (decomposeString e))))%Z) by (unfold u32; apply Z.mod_pos_bound; reflexivity).
    set (id := u32 (atoi (d_num1 (decomposeString e)))) in *. cbv zeta. assert (K : Z.to_nat (id - 1) < length (s_rods s)) by lia. set (k := Z.to_nat (id - 1)) in *.
    destruct d; cbn beta iota zeta.
    + destruct (nth_error (s_rods s) k) as [[r|]|] eqn:R; destruct (is_txt _ _); try discriminate; try (destruct (is_txt _ _); discriminate).
      * intro H. injection H as <-. split; [exact K|]. intros _. now exists r.
      * destruct (is_txt _ _); [|discriminate]. intro H. injection H as <-. split; [exact K|]. intros _. now exists r.
    + destruct (is_txt _ _); [intro H; injection H as <-; split; [exact K|discriminate]|]. destruct (is_txt _ _); [intro H; injection H as <-; split; [exact K|discriminate]|discriminate].
  - destruct (_ || _); [|discriminate]. destruct ((_ =? 0)%Z || _) eqn:E; [discriminate|]. apply orb_false_iff in E as [A B]. apply Z.eqb_neq in A. apply Z.ltb_ge in B.
    assert (N : (0 <= u32 (atoi (d_num1 (decomposeString e))))%Z) by (unfold u32; apply Z.mod_pos_bound; reflexivity).
    cbv zeta. revert A B N. generalize (u32 (atoi (d_num1 (decomposeString e)))). intros id A B N H. injection H as <-. lia.
Qed.
Lemma step_line l s s' : row_line' l s = Ok (inl s') -> step s s'.
Proof.
  unfold row_line. destruct (_ <? 7); [discriminate|]. destruct (last_index _ _ _ _) as [p|] eqn:L; [|discriminate]. destruct (_ && _); [discriminate|].
  intro H. apply rbind_inl in H as (a & Ha & H). apply rbind_inl in H as (b & Hb & H). injection H as <-. apply read_place_ok in Ha, Hb.
  apply st_line; cbn [li_prop li_a li_b li_segs]; [apply (last_index_lt _ _ _ _ _ L I)| | |reflexivity].
  - destruct a; [exact Ha|]. now apply Ha.
  - destruct b; [exact Hb|]. now apply Hb.
Qed.
Lemma fail_lines_ok n : forall ws ls, fail_lines ws n = Some ls -> forall k, In k ls -> k < n.
Proof.
  induction ws as [|w ws IH]; intros ls; cbn [fail_lines]; [intro H; injection H as <-; intros k []|]. destruct ((_ =? 0)%Z || _) eqn:E; [discriminate|]. destruct (fail_lines ws n) as [l|]; [|discriminate].
  apply orb_false_iff in E as [A B]. apply Z.eqb_neq in A. apply Z.ltb_ge in B. assert (N : (0 <= u32 (atoi w))%Z) by (unfold u32; apply Z.mod_pos_bound; reflexivity).
  intro H. injection H as <-. intros k [<-|I]; [lia|now apply (IH l)].
Qed.
Lemma step_fail l s s' : row_fail' l s = Ok (inl s') -> step s s'.
Proof.
  unfold row_fail. destruct (_ <? 4); [discriminate|]. intro H. apply rbind_inl in H as (a & Ha & H). destruct (fail_lines _ _) as [ls|] eqn:F; [|discriminate].
  apply obind_ok in H as (t & _ & H). injection H as <-. apply read_place_ok in Ha. apply st_fail; cbn [fi_at fi_lines]; [destruct a; [exact Ha|apply Ha]|]. exact (fail_lines_ok _ _ _ F).
Qed.
Inductive steps : sys -> sys -> Prop := steps_0 s : steps s s | steps_1 s s1 s2 : step s s1 -> steps s1 s2 -> steps s s2.
Lemma steps_app a b c : steps a b -> steps b c -> steps a c.
Proof. induction 1; [auto|]. intro H1. eapply steps_1; eauto. Qed.
Lemma steps_chans : forall ws s s', read_chans ws s = Ok s' -> steps s s'.
Proof.
  induction ws as [|w ws IH]; intros s s'; cbn [read_chans]; [intro H; injection H as <-; apply steps_0|]. intro H. apply obind_ok in H as (c & _ & H).
  destruct c as [c|]; [eapply steps_1; [apply st_chan|]|]; apply IH; exact H.
Qed.
Lemma steps_sec o (body : str -> sys -> outcome (sys + Z)) s s' : (forall l s s', body l s = Ok (inl s') -> steps s s') -> sec o body s = Ok (inl s') -> steps s s'.
Proof. intros Hb H. apply (sec_inv (fun x => steps s x) o body s s'); [|exact H|apply steps_0]. intros l x y Hx Hy. exact (steps_app _ _ _ Hx (Hb _ _ _ Hy)). Qed.
Lemma step_steps a b : step a b -> steps a b. Proof. intro H. eapply steps_1; [exact H|apply steps_0]. Qed.
Lemma read_steps t s : read_file' t = Ok (inl s) -> steps no_sys s /\ ~ In None (s_rods s).
Proof.
  rewrite read_file_run. unfold read_run. intro H. apply obind_ok in H as (w & _ & H). destruct (negb _); [discriminate|].
  apply rbind_inl in H as (s1 & H1 & H). apply rbind_inl in H as (s2 & H2 & H). apply rbind_inl in H as (s3 & H3 & H). apply rbind_inl in H as (s4 & H4 & H).
  apply rbind_inl in H as (s5 & H5 & H). apply rbind_inl in H as (s6 & H6 & H). apply rbind_inl in H as (s7 & H7 & H). apply rbind_inl in H as (s8 & H8 & H). apply rbind_inl in H as (s9 & H9 & H).
  assert (H7' : steps s6 s7).
  { destruct (from t ["LINES"; "LINE LIST"; "LINE PROPERTIES"]%string 3); destruct (s_lprops s6); try discriminate; try (injection H7 as <-; apply steps_0).
    eapply (steps_sec (Some l)); [|exact H7]. intros x a b X. apply step_steps. exact (step_line _ _ _ X). }
  apply steps_sec in H1; [|intros; eapply step_steps, step_option; eassumption]. apply steps_sec in H2; [|intros; eapply step_steps, step_lprops; eassumption].
  apply steps_sec in H3; [|intros; eapply step_steps, step_rprops; eassumption]. apply steps_sec in H4; [|intros; eapply step_steps, step_body; eassumption].
  apply steps_sec in H5; [|intros; eapply step_steps, step_point; eassumption]. apply steps_sec in H6; [|intros; eapply step_steps, step_rod; eassumption].
  apply steps_sec in H8; [|intros; eapply step_steps, step_fail; eassumption].
  apply steps_sec in H9; [|intros l a b X; unfold row_output in X; apply obind_ok in X as (c & Hc & X); injection X as <-; exact (steps_chans _ _ _ Hc)].
  unfold check_rods in H. destruct (length (filter _ (s_rods s9))) as [|[|k]] eqn:E; try discriminate. injection H as <-. split.
  - eauto 10 using steps_app.
  - intro X. apply length_zero_iff_nil in E. enough (In (@None rod_in) []) by contradiction. rewrite <- E. apply filter_In. now split.
Qed.

(** references *)
Definition place0 (s : sys) (p : place) : Prop := match p with AtPoint i => i < length (s_points s) | AtRod i _ => i < length (s_rods s) end.
Definition sound0 (s : sys) : Prop :=
  (forall p, In p (s_points s) -> parent_ok s (pi_on p)) /\
  (forall r', In (Some r') (s_rods s) -> parent_ok s (ri_on r') /\ ri_prop r' < length (s_rprops s)) /\
  (forall l, In l (s_lines s) -> li_prop l < length (s_lprops s) /\ place0 s (li_a l) /\ place0 s (li_b l)) /\
  (forall f, In f (s_fails s) -> place0 s (fi_at f) /\ forall k, In k (fi_lines f) -> k < length (s_lines s)).
Lemma place_weak s p : place_ok s p -> place0 s p.
Proof. destruct p; cbn; [auto|]. intros [r H]. apply nth_error_Some. congruence. Qed.
Definition bigger (s s' : sys) : Prop := length (s_lprops s) <= length (s_lprops s') /\ length (s_rprops s) <= length (s_rprops s') /\ length (s_bodies s) <= length (s_bodies s') /\
  length (s_points s) <= length (s_points s') /\ length (s_rods s) <= length (s_rods s') /\ length (s_lines s) <= length (s_lines s').
Lemma place_mono s s' p : bigger s s' -> place0 s p -> place0 s' p.
Proof. unfold bigger. destruct p; cbn; lia. Qed.
Lemma parent_mono s s' p : bigger s s' -> parent_ok s p -> parent_ok s' p.
Proof. unfold bigger. destruct p; cbn; lia. Qed.
Lemma step_bigger s s' : step s s' -> bigger s s'.
Proof. unfold bigger. destruct 1; cbn; rewrite ?app_length; cbn; repeat split; lia. Qed.
Lemma step_sound0 s s' : step s s' -> sound0 s -> sound0 s'.
Proof.
  intros St (P & Q & L & F). pose proof (step_bigger _ _ St) as B. pose proof (fun p => parent_mono s s' p B) as PM. pose proof (fun p => place_mono s s' p B) as LM. 
  assert (P' : forall p, In p (s_points s) -> parent_ok s' (pi_on p)) by auto.
  assert (Q' : forall r', In (Some r') (s_rods s) -> parent_ok s' (ri_on r') /\ ri_prop r' < length (s_rprops s')) by (intros r' I; destruct (Q r' I); unfold bigger in B; split; [auto|lia]).
  assert (L' : forall l, In l (s_lines s) -> li_prop l < length (s_lprops s') /\ place0 s' (li_a l) /\ place0 s' (li_b l)) by (intros l I; destruct (L l I) as (? & ? & ?); unfold bigger in B; repeat split; [lia|auto|auto]).
  assert (F' : forall f, In f (s_fails s) -> place0 s' (fi_at f) /\ forall k, In k (fi_lines f) -> k < length (s_lines s')) by (intros f I; destruct (F f I) as (? & X); unfold bigger in B; split; [auto|intros k Ik; specialize (X k Ik); lia]).
  clear P Q L F. destruct St; (split; [|split; [|split]]); try assumption; cbn [add_body add_point add_rod add_line add_fail set_opt s_points s_rods s_lines s_fails]; intros x I; apply in_app_or in I as [I|[I|[]]]; auto; try subst x; try discriminate.
  - apply PM. exact H.
  - injection I as <-. split; [apply PM; exact H|]. cbn. lia.
  - cbn. split; [lia|]. split; apply LM, place_weak; assumption.
  - split; [apply LM; exact H|]. cbn. assumption.
Qed.
Lemma steps_sound0 s s' : steps s s' -> sound0 s -> sound0 s'.
Proof. induction 1; eauto using step_sound0. Qed.
Lemma read_sound t s : read_file' t = Ok (inl s) -> sound s.
Proof.
  intro H. apply read_steps in H as [St N]. apply steps_sound0 in St; [|repeat split; cbn in *; contradiction]. destruct St as (P & Q & L & F).
  assert (PL : forall p, place0 s p -> place_ok s p).
  { intros [i|i e] X; cbn in *; [exact X|]. destruct (nth_error (s_rods s) i) as [[r|]|] eqn:E; [now exists r|exfalso; apply N; exact (nth_error_In _ _ E)|apply nth_error_None in E; lia]. }
  split; [exact P|]. split; [|split].
  - intros [r|] I; [|contradiction]. exists r. split; [reflexivity|]. now apply Q.
  - intros l I. destruct (L l I) as (A & B & C). auto.
  - intros f I. destruct (F f I) as (A & B). auto.
Qed.

(** number of states *)
Definition counted (s : sys) : Prop := ~ In None (s_rods s) -> s_nX s = u32 (2 * dof s).
Lemma step_counted s s' : step s s' -> counted s -> counted s'.
Proof.
  intros St C N'. assert (N : ~ In None (s_rods s)) by (intro X; apply N'; destruct St; cbn; try exact X; apply in_or_app; now left). specialize (C N).
  destruct St; unfold dof in *; cbn [add_lprop add_rprop add_body add_point add_rod add_line add_fail add_chan set_opt s_bodies s_points s_rods s_lines s_nX]; try exact C;
    rewrite ?map_app, ?zsum_app, C, ?u32_add; cbn [map zsum fold_right]; try (f_equal; lia).
  - exfalso. apply N'. cbn. apply in_or_app. right. now left.
  - unfold line_dof at 3. rewrite H2. match goal with |- u32 (?X + _) = u32 (2 * (?a + ?b + ?c + (?d + (3 * (u32 k - 1) + 0)))) => replace (2 * (a + b + c + (d + (3 * (u32 k - 1) + 0))))%Z with ((X - 6) + 6 * u32 k)%Z by lia end.
    rewrite u32_mul_add. f_equal. lia.
Qed.
Lemma steps_counted s s' : steps s s' -> counted s -> counted s'.
Proof. induction 1; eauto using step_counted. Qed.
Lemma read_counted t s : read_file' t = Ok (inl s) -> s_nX s = u32 (2 * dof s).
Proof. intro H. apply read_steps in H as [St N]. apply steps_counted in St; [|intros _; reflexivity]. exact (St N). Qed.
End Sys.
