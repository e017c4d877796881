(** Proofs about the names of files. *)
From Coq Require Import String Ascii List Arith ZArith Bool Lia DecimalString DecimalNat.
From Verif Require Import MErr MStr MOut MPath SPath.
Import ListNotations.
Open Scope Z_scope.

Definition none (p : ascii -> bool) (s : str) := Forall (fun c => p c = false) s.
Lemma last_none p s : forall i, none p s -> last_from p s i = npos.
Proof. induction s as [|c s IH]; intros i H; [reflexivity|]. inversion H; subst. cbn [last_from]. rewrite IH by assumption. rewrite Z.eqb_refl, H2. reflexivity. Qed.
Lemma last_at p a c b : p c = true -> none p b -> forall i, 0 <= i -> i + Z.of_nat (length a) < npos -> last_from p (a ++ c :: b) i = i + Z.of_nat (length a).
Proof.
  intros Hc Hb. induction a as [|x a IH]; intros i H0 H.
  - cbn [app last_from length]. rewrite last_none, Z.eqb_refl, Hc by assumption. lia.
  - cbn [app last_from length]. cbn [length] in H. rewrite IH by lia. destruct (Z.eqb_spec (i + 1 + Z.of_nat (length a)) npos); lia.
Qed.
Lemma last_cases p s : none p s \/ exists a c b, s = a ++ c :: b /\ p c = true /\ none p b.
Proof.
  induction s as [|x s IH]; [left; constructor|]. destruct IH as [H|(a & c & b & E & H1 & H2)].
  - destruct (p x) eqn:E; [right; exists [], x, s; repeat split; assumption|left; constructor; assumption].
  - right. exists (x :: a), c, b. rewrite E. repeat split; assumption.
Qed.
Lemma size_small x : 0 <= x < 2 ^ 64 -> size_t x = x.
Proof. apply Z.mod_small. Qed.
Lemma size_minus x y : size_t (size_t x - y) = size_t (x - y).
Proof. apply Zminus_mod_idemp_l. Qed.
Lemma sub_from (d f : str) n : 0 <= n -> substr (d ++ f) (Z.of_nat (length d)) n = Ok (firstn (Z.to_nat (Z.min n (Z.of_nat (length f)))) f).
Proof.
  intro H. unfold substr. rewrite app_length, Nat2Z.inj_add. destruct (Z.ltb_spec (Z.of_nat (length d) + Z.of_nat (length f)) (Z.of_nat (length d))); [lia|].
  rewrite Nat2Z.id, skipn_app, skipn_all, Nat.sub_diag. cbn [app skipn]. do 3 f_equal. f_equal. lia.
Qed.
Lemma size_wrap x : - 2 ^ 64 <= x < 0 -> size_t x = x + 2 ^ 64.
Proof. intro H. unfold size_t. symmetry. apply (Z.mod_unique_pos _ _ (-1)); lia. Qed.

Lemma names_ok s d f t : s <> [] -> Z.of_nat (length s) < 2 ^ 63 -> splits s d f -> stem f t -> set_names (Some s) = Ok (Names s t d).
Proof.
  intros H0 HL (E & Hf & Hd) Ht. unfold set_names. destruct s as [|c0 s0]; [congruence|]. remember (c0 :: s0) as s eqn:ES. clear ES c0 s0.
  assert (LS : Z.of_nat (length s) = Z.of_nat (length d) + Z.of_nat (length f)) by (rewrite E, app_length; lia).
  assert (SL : size_t (find_last_of is_slash s + 1) = Z.of_nat (length d) /\ - 1 <= find_last_of is_slash s <= npos /\ (find_last_of is_slash s = npos /\ length d = 0%nat \/ find_last_of is_slash s = Z.of_nat (length d) - 1)).
  { destruct Hd as [->|(d' & c & -> & Hc)].
    - cbn [app] in E. subst f. unfold find_last_of. rewrite last_none by exact Hf. split; [reflexivity|]. split; [unfold npos; lia|]. left. split; reflexivity.
    - unfold find_last_of. rewrite E, <- app_assoc. cbn [app]. rewrite app_length in LS |- *. cbn [length] in LS |- *. rewrite last_at; [|exact Hc|exact Hf|lia|unfold npos; lia]. rewrite size_small by lia. unfold npos. lia. }
  destruct SL as (S1 & S2 & S3). rewrite S1.
  assert (PATH : substr s 0 (Z.of_nat (length d)) = Ok d).
  { rewrite E. pose proof (sub_from [] (d ++ f) (Z.of_nat (length d)) ltac:(lia)) as Q. change (Z.of_nat (length (@nil ascii))) with 0 in Q. cbn [app] in Q. rewrite Q. rewrite app_length, Z.min_l by lia. rewrite Nat2Z.id, firstn_app, firstn_all, Nat.sub_diag. cbn. rewrite app_nil_r. reflexivity. }
  rewrite PATH. rewrite size_minus.
  assert (NM : size_t (find_last_of is_dot s - find_last_of is_slash s - 1) = size_t (find_last_of is_dot s - Z.of_nat (length d))).
  { destruct S3 as [[S3 S4]|S3]; rewrite S3; [|f_equal; lia]. rewrite S4. unfold size_t, npos. replace (find_last_of is_dot s - (2 ^ 64 - 1) - 1) with (find_last_of is_dot s - Z.of_nat 0 + (-1) * 2 ^ 64) by lia. apply Z.mod_add. lia. }
  rewrite NM.
  assert (W : substr s (Z.of_nat (length d)) (size_t (find_last_of is_dot s - Z.of_nat (length d))) = Ok t).
  { rewrite E at 1. rewrite sub_from by (unfold size_t; apply Z.mod_pos_bound; lia). f_equal.
    destruct Ht as [[Nf ->]|(e & c & Ef & Hc & Ne)].
    - assert (B : Z.of_nat (length f) <= size_t (find_last_of is_dot s - Z.of_nat (length d))).
      { destruct (last_cases is_dot d) as [Nd|(a & c & b & Ed & Hc & Nb)].
        - unfold find_last_of. rewrite last_none by (rewrite E; apply Forall_app; split; assumption). rewrite size_small; unfold npos; lia.
        - unfold find_last_of. rewrite E, Ed, <- app_assoc. cbn [app]. assert (LD : length d = (length a + S (length b))%nat) by (rewrite Ed, app_length; reflexivity).
          rewrite last_at; [|exact Hc|apply Forall_app; split; assumption|lia|unfold npos; lia]. rewrite <- Ed. rewrite size_wrap; lia. }
      rewrite Z.min_r by exact B. rewrite Nat2Z.id. apply firstn_all.
    - assert (LF : length f = (length t + S (length e))%nat) by (rewrite Ef, app_length; reflexivity).
      unfold find_last_of. rewrite E, Ef, app_assoc. rewrite last_at; [|exact Hc|exact Ne|lia|rewrite app_length; unfold npos; lia]. rewrite app_length.
      rewrite size_small by lia. rewrite app_length. cbn [length]. rewrite Z.min_l by lia. replace (Z.to_nat (0 + Z.of_nat (length d + length t) - Z.of_nat (length d))) with (length t) by lia. rewrite firstn_app, firstn_all, Nat.sub_diag. cbn. apply app_nil_r. }
  rewrite W. reflexivity.
Qed.

(** *** places *)
Lemma parts_app a : forall cur c b, is_slash c = true -> parts cur (a ++ c :: b) = parts cur a ++ parts [] b.
Proof. induction a as [|x a IH]; intros cur c b H; cbn; [rewrite H; reflexivity|]. destruct (is_slash x); [cbn; rewrite IH by exact H; reflexivity|apply IH; exact H]. Qed.
Lemma steps_app a c b : is_slash c = true -> steps (a ++ c :: b) = steps a ++ steps b.
Proof. intro H. unfold steps. rewrite parts_app by exact H. apply filter_app. Qed.
Lemma parts_plain s : forall cur, none is_slash s -> parts cur s = [rev cur ++ s].
Proof.
  induction s as [|x s IH]; intros cur H; cbn; [rewrite app_nil_r; reflexivity|]. inversion H; subst. rewrite H2. rewrite IH by assumption. cbn. rewrite <- app_assoc. reflexivity.
Qed.
Lemma steps_plain s : none is_slash s -> (1 < length s)%nat -> steps s = [s].
Proof. intros H L. unfold steps. rewrite parts_plain by exact H. cbn. destruct s as [|x [|y s]]; cbn in L; try lia. reflexivity. Qed.
Lemma place_dir cwd d c f : is_slash c = true -> place cwd ((d ++ [c]) ++ f) = place cwd (d ++ [c]) ++ steps f.
Proof.
  intro H. assert (E : steps (d ++ c :: f) = steps (d ++ [c]) ++ steps f). { rewrite !steps_app by exact H. rewrite <- app_assoc. reflexivity. }
  rewrite <- app_assoc. cbn [app]. unfold place. destruct d as [|x d]; cbn [app]; [rewrite H; exact E|]. cbn [app] in E. destruct (is_slash x); [exact E|]. rewrite E. apply app_assoc.
Qed.
Lemma place_beside s d f g cwd : splits s d f -> d <> [] \/ relative g -> place cwd (d ++ g) = beside cwd d g.
Proof.
  intros (_ & _ & [->|(d' & c & -> & Hc)]) H; unfold beside; [|apply place_dir; exact Hc]. destruct H as [H|H]; [congruence|]. cbn [app]. unfold place. destruct g as [|c g]; [cbn; rewrite app_nil_r; reflexivity|]. cbn in H. rewrite H. reflexivity.
Qed.
Lemma uint_plain u : none is_slash (ot (NilEmpty.string_of_uint u)).
Proof. induction u; cbn; constructor; try assumption; try reflexivity. Qed.
Lemma dec_plain n : none is_slash (dec n).
Proof. unfold dec. destruct (Nat.to_uint n); try (apply (uint_plain (Decimal.D0 Decimal.Nil))); apply uint_plain. Qed.
Lemma written_plain w : none is_slash (written_name w) /\ (1 < length (written_name w))%nat.
Proof.
  assert (A : forall a b n, none is_slash a -> none is_slash b -> none is_slash (a ++ dec n ++ b)) by (intros a b n H1 H2; repeat (apply Forall_app; split); [exact H1|apply dec_plain|exact H2]).
  destruct w; split; cbn [written_name]; try (apply A; repeat constructor); try (repeat constructor; fail); rewrite ?app_length; cbn; lia.
Qed.
Lemma stem_plain f t : none is_slash f -> stem f t -> none is_slash t.
Proof. intros H [[_ ->]|(e & c & -> & _)]; [exact H|]. apply Forall_app in H. apply H. Qed.
Lemma written_place s d f t w cwd : splits s d f -> stem f t -> place cwd (written_file (Names s t d) w) = place cwd d ++ [t ++ written_name w].
Proof.
  intros Hs Ht. destruct (written_plain w) as [W1 W2]. assert (T : none is_slash (t ++ written_name w)) by (apply Forall_app; split; [apply (stem_plain f); [apply Hs|exact Ht]|exact W1]).
  unfold written_file. cbn [n_path n_name]. rewrite (place_beside s d f _ cwd Hs) by (right; destruct (t ++ written_name w); [exact Logic.I|inversion T; assumption]).
  unfold beside. rewrite steps_plain; [reflexivity|exact T|rewrite app_length; lia].
Qed.
Lemma ot_inj a b : ot a = ot b -> a = b.
Proof. intro H. rewrite <- (string_of_list_ascii_of_string a), <- (string_of_list_ascii_of_string b). unfold ot in H. rewrite H. reflexivity. Qed.
Lemma to_uint_nonnil n : Nat.to_uint n <> Decimal.Nil.
Proof. intro H. pose proof (Unsigned.of_to n) as Q. destruct n; [discriminate|]. rewrite H in Q. discriminate. Qed.
Lemma dec_inj a b : dec a = dec b -> a = b.
Proof.
  intro H. apply ot_inj in H. apply Unsigned.to_uint_inj. pose proof (NilZero.usu _ (to_uint_nonnil a)) as A. pose proof (NilZero.usu _ (to_uint_nonnil b)) as B. rewrite H in A. congruence.
Qed.
Lemma written_inj w w' : written_name w = written_name w' -> w = w'.
Proof.
  destruct w as [|a|a|a|], w' as [|b|b|b|]; cbn; intro H; try discriminate; try reflexivity; injection H as H; apply app_inv_tail in H; apply dec_inj in H; subst; reflexivity.
Qed.
Lemma companions_place s d f t c cwd : splits s d f -> (d <> [] \/ match c with CCurve e => relative e | C4D => True | _ => False end) -> (forall e, c <> CSeafloor e) ->
  place cwd (companion_file (Names s t d) c) = beside cwd d (given c).
Proof.
  intros Hs H NS. assert (W : forall g, relative g -> d <> [] -> place cwd (d ++ "/"%char :: g) = beside cwd d g).
  { intros g _ Hd. rewrite (place_beside s d f _ cwd Hs) by (left; exact Hd). unfold beside. reflexivity. }
  destruct c; cbn [companion_file given n_path].
  2,3,4,5,6: destruct H as [H|[]]; apply (W (ot _)); [reflexivity|exact H].
  - apply (place_beside s d f _ cwd Hs). exact H.
  - apply (place_beside s d f _ cwd Hs). right. reflexivity.
  - exfalso. exact (NS entry eq_refl).
Qed.
Lemma waves_root s f t c cwd : splits s [] f -> cwd <> [] -> In c [CFrequencies; CElevation; CGrid; CSteady; CDynamic] ->
  place cwd (companion_file (Names s t []) c) = steps (given c) /\ place cwd (companion_file (Names s t []) c) <> beside cwd [] (given c).
Proof.
  intros Hs HC Hi. assert (P : place cwd (companion_file (Names s t []) c) = steps (given c)) by (cbn in Hi; decompose [or] Hi; subst; try contradiction; reflexivity).
  split; [exact P|]. rewrite P. unfold beside. cbn [place]. intro E. apply HC. destruct cwd as [|x cwd]; [reflexivity|]. exfalso. apply (f_equal (@length _)) in E. rewrite app_length in E. cbn [length] in E. lia.
Qed.
Lemma absolute_curve s d f t g cwd : splits s d f -> place cwd d <> [] -> d <> [] ->
  place cwd (companion_file (Names s t d) (CCurve ("/"%char :: g))) = place cwd d ++ steps g /\ place cwd (companion_file (Names s t d) (CCurve ("/"%char :: g))) <> place cwd ("/"%char :: g).
Proof.
  intros Hs HC Hd. assert (P : place cwd (companion_file (Names s t d) (CCurve ("/"%char :: g))) = place cwd d ++ steps g).
  { cbn [companion_file n_path]. rewrite (place_beside s d f _ cwd Hs) by (left; exact Hd). unfold beside. reflexivity. }
  split; [exact P|]. rewrite P. change (place cwd ("/"%char :: g)) with (steps ("/"%char :: g)). rewrite (steps_app [] "/"%char g eq_refl : steps ("/"%char :: g) = steps [] ++ steps g). change (steps []) with (@nil str). cbn [app].
  intro E. apply HC. destruct (place cwd d) as [|x l]; [reflexivity|]. exfalso. apply (f_equal (@length _)) in E. rewrite app_length in E. cbn [length] in E. lia.
Qed.
Lemma overwritten s d f t : splits s d f -> (written_file (Names s t d) WMain = s <-> f = t ++ ot ".out").
Proof. intros (E & _). unfold written_file. cbn [n_path n_name written_name]. rewrite E. split; intro H; [apply app_inv_head in H; symmetry; exact H|rewrite H; reflexivity]. Qed.
