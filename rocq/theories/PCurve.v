(** Proofs about MCurve.v *)
From Coq Require Import Ascii String List Arith ZArith Reals Lia Lra.
From Verif Require Import MErr MStr MCurve SCurve PStr.
Import ListNotations.
Open Scope nat_scope.


Lemma good_lines_fuel : forall s f1 f2, length s < f1 -> length s < f2 -> good_lines f1 s = good_lines f2 s.
Proof.
  intros s. remember (length s) as n eqn:En. revert s En. induction n as [n IH] using (well_founded_induction lt_wf).
  intros s En f1 f2 H1 H2.
  destruct f1 as [|f1]; [lia|]. destruct f2 as [|f2]; [lia|]. cbn [good_lines].
  destruct (getline newline s) as [tok [r|]] eqn:E; [| reflexivity].
  f_equal. apply getline_some in E. assert (length r < n) by (subst n; destruct E as [-> _]; rewrite app_length; cbn; lia).
  apply (IH (length r)); auto; lia.
Qed.
Lemma good_lines_sep : forall w r f, ~ In newline w -> length (w ++ newline :: r) < f ->
  good_lines f (w ++ newline :: r) = w :: good_lines (S (length r)) r.
Proof.
  intros w r f Hw Hf. destruct f as [|f]; [lia|].
  change (good_lines (S f) (w ++ newline :: r)) with
    (let '(tok, r) := getline newline (w ++ newline :: r) in tok :: match r with None => [] | Some r' => good_lines f r' end).
  rewrite getline_word_sep by exact Hw. f_equal.
  rewrite app_length in Hf. cbn [length] in Hf. apply good_lines_fuel; lia.
Qed.
Lemma good_lines_word : forall w f, ~ In newline w -> 0 < f -> good_lines f w = [w].
Proof. intros w [|f] Hw Hf; [lia|]. cbn [good_lines]. rewrite getline_word by exact Hw. reflexivity. Qed.
(* a text is a list of lines *)
Lemma good_lines_join : forall ls, ls <> [] -> (forall l, In l ls -> ~ In newline l) -> good_lines (S (length (join ls))) (join ls) = ls.
Proof.
  induction ls as [|l ls IH]; intros Hn H; [congruence|]. destruct ls as [|l2 ls].
  - cbn [join]. apply good_lines_word; [apply H; left; reflexivity | lia].
  - change (join (l :: l2 :: ls)) with (l ++ newline :: join (l2 :: ls)).
    rewrite good_lines_sep; [| apply H; left; reflexivity | lia]. f_equal. apply IH; [discriminate|]. intros x Hx. apply H. right. exact Hx.
Qed.
Lemma join_exists : forall s, exists ls, ls <> [] /\ (forall l, In l ls -> ~ In newline l) /\ s = join ls.
Proof.
  induction s as [|c s [ls [H0 [H1 H2]]]].
  - exists [[]]. repeat split; [discriminate|]. intros l [<-|[]] [].
  - destruct ls as [|l ls]; [congruence|]. destruct (Ascii.eqb_spec c newline) as [->|Hc].
    + exists ([] :: l :: ls). repeat split; [discriminate | |].
      * intros x [<-|Hx]; [intros [] | apply H1; exact Hx].
      * rewrite H2. reflexivity.
    + exists ((c :: l) :: ls). repeat split; [discriminate | |].
      * intros x [<-|Hx]; [| apply H1; right; exact Hx]. intros [E|Hi]; [congruence|]. revert Hi. apply H1. left. reflexivity.
      * rewrite H2. destruct ls; reflexivity.
Qed.
Lemma join_newline : forall ls, ls <> [] -> join ls ++ [newline] = join (ls ++ [[]]).
Proof.
  induction ls as [|l ls IH]; intros H; [congruence|]. destruct ls as [|l2 ls]; [reflexivity|].
  change (join (l :: l2 :: ls)) with (l ++ newline :: join (l2 :: ls)).
  change (join ((l :: l2 :: ls) ++ [[]])) with (l ++ newline :: join ((l2 :: ls) ++ [[]])).
  rewrite <- IH by discriminate. rewrite <- app_assoc. reflexivity.
Qed.

Section Read.
Variable stold : str -> stold_res.
Variable atof : str -> R.
Variable opened : str -> option str.
Variable basepath : str.
Lemma points_code : forall ls c, curve_points atof ls = CErr c -> c = MOORDYN_INVALID_INPUT.
Proof.
  induction ls as [|l ls IH]; cbn; intros c H; [discriminate|].
  destruct (split_sep l space) as [|e0 [|e1 r]]; try (inversion H; reflexivity).
  destruct (curve_points atof ls); [| discriminate]. apply IH. exact H.
Qed.
Lemma points_same : forall ls x y, curve_points atof ls = COk x y -> x = y /\ length x = length ls.
Proof.
  induction ls as [|l ls IH]; cbn; intros x y H; [inversion H; auto|].
  destruct (split_sep l space) as [|e0 [|e1 r]]; try discriminate.
  destruct (curve_points atof ls) as [|x' y']; [discriminate|]. inversion H; subst. destruct (IH x' y' eq_refl) as [-> E]. cbn. auto.
Qed.
Lemma points_blank : forall ls, exists c, curve_points atof (ls ++ [[]]) = CErr c.
Proof.
  induction ls as [|l ls [c IH]]; cbn; [eauto|]. destruct (split_sep l space) as [|e0 [|e1 r]]; eauto. rewrite IH. eauto.
Qed.
Lemma same_columns : forall entry x y, stold entry = StInvalid -> read_curve stold atof opened basepath entry = COk x y -> x = y.
Proof.
  intros entry x y Hs H. unfold read_curve in H. rewrite Hs in H. destruct (opened _); [| discriminate]. cbv zeta in H.
  destruct (Nat.ltb _ 5); [discriminate|]. apply points_same in H. tauto.
Qed.
Lemma final_newline : forall entry s, stold entry = StInvalid -> opened (basepath ++ entry) = Some (s ++ [newline]) ->
  read_curve stold atof opened basepath entry = CErr MOORDYN_INVALID_INPUT.
Proof.
  intros entry s Hs Ho. unfold read_curve. rewrite Hs, Ho. cbv zeta.
  destruct (join_exists s) as [ls [H0 [H1 H2]]]. rewrite H2, (join_newline ls H0).
  rewrite good_lines_join.
  2:{ destruct ls; discriminate. }
  2:{ intros l Hl. apply in_app_or in Hl. destruct Hl as [Hl|[<-|[]]]; [apply H1; exact Hl | intros []]. }
  match goal with |- context [if ?b then _ else _] => destruct b eqn:C end; [reflexivity|].
  apply Nat.ltb_ge in C. unfold str in *. rewrite app_length in C. cbn [length] in C.
  assert (SK : skipn 3 (ls ++ [[]]) = skipn 3 ls ++ [[]]).
  { rewrite skipn_app. replace (3 - length ls) with 0 by lia. reflexivity. }
  rewrite SK, map_app. change (map rtrim [[]]) with [@nil ascii].
  destruct (points_blank (map rtrim (skipn 3 ls))) as [c E]. pose proof (points_code _ _ E) as ->. exact E.
Qed.
Lemma reads_lines : forall entry h1 h2 h3 (rows : list (str * str * str * list str)),
  stold entry = StInvalid ->
  opened (basepath ++ entry) = Some (join (h1 :: h2 :: h3 :: map (fun r => fst (fst (fst r))) rows)) ->
  ~ In newline h1 -> ~ In newline h2 -> ~ In newline h3 ->
  (forall l e0 e1 r, In (l, e0, e1, r) rows -> ~ In newline l /\ split_sep (rtrim l) space = e0 :: e1 :: r) ->
  2 <= length rows ->
  read_curve stold atof opened basepath entry
  = COk (map (fun r => atof (snd (fst (fst r)))) rows) (map (fun r => atof (snd (fst (fst r)))) rows).
Proof.
  intros entry h1 h2 h3 rows Hs Ho H1 H2 H3 HR HL. unfold read_curve. rewrite Hs, Ho. cbv zeta.
  rewrite good_lines_join; [| discriminate |].
  2:{ intros l [<-|[<-|[<-|Hl]]]; auto. apply in_map_iff in Hl. destruct Hl as [[[[a b] c] d] [<- Hi]]. apply (HR a b c d). exact Hi. }
  match goal with |- context [if ?b then _ else _] => destruct b eqn:C end.
  { apply Nat.ltb_lt in C. cbn [length] in C. rewrite map_length in C. lia. }
  cbn [skipn]. clear Ho C HL. induction rows as [|[[[a b] c] d] rows IH]; [reflexivity|].
  cbn [map curve_points fst snd]. destruct (HR a b c d (or_introl eq_refl)) as [_ ->].
  rewrite IH; [reflexivity|]. intros. apply HR. right. assumption.
Qed.
Lemma props_bounds : forall entry c n x y, stold entry = StInvalid -> read_curve_props stold atof opened basepath entry = POk c n x y ->
  2 <= n <= nCoef /\ length x = n /\ length y = n /\ c = 0%R.
Proof.
  intros entry c n x y Hs H. unfold read_curve_props in H. destruct (read_curve stold atof opened basepath entry) as [|x' y'] eqn:E; [discriminate|].
  assert (L : 2 <= length x' /\ x' = y').
  { unfold read_curve in E. rewrite Hs in E. destruct (opened _) as [s|]; [| discriminate]. cbv zeta in E.
    match type of E with context [if ?b then _ else _] => destruct b eqn:C end; [discriminate|]. apply Nat.ltb_ge in C.
    apply points_same in E. destruct E as [-> E]. rewrite map_length, skipn_length in E. split; [lia | reflexivity]. }
  destruct L as [L ->]. destruct (Nat.eqb_spec (length y') 1); [lia|].
  destruct (Nat.ltb_spec nCoef (length y')); [discriminate|]. inversion H; subst. repeat split; auto; lia.
Qed.
End Read.
