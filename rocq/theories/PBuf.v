(** Arrays handed over by the caller: proofs. *)
From Coq Require Import String Ascii List Arith ZArith Bool Reals Lra Lia DecimalString DecimalNat.
From Verif Require Import MErr MStr MOut MPack MIO MIOFile PIOFile MObj MScheme MTime SIO PIO SObj PObj PState MBuf SBuf PPath.
Import ListNotations.
Local Open Scope nat_scope.

Lemma factor_1 : factor 1 = ot "1".
Proof. unfold factor. destruct (Req_EM_T 1 1); [reflexivity|lra]. Qed.
Lemma factor_05 : factor 0.5 = ot "0.5".
Proof. unfold factor. destruct (Req_EM_T 0.5 1); [lra|]. destruct (Req_EM_T 0.5 0.5); [reflexivity|lra]. Qed.
Lemma factor_025 : factor 0.25 = ot "0.25".
Proof. unfold factor. destruct (Req_EM_T 0.25 1); [lra|]. destruct (Req_EM_T 0.25 0.5); [lra|]. destruct (Req_EM_T 0.25 0.25); [reflexivity|lra]. Qed.
Lemma factor_137 : factor 1.37 = ot "1.37".
Proof. unfold factor. destruct (Req_EM_T 1.37 1); [lra|]. destruct (Req_EM_T 1.37 0.5); [lra|]. destruct (Req_EM_T 1.37 0.25); [lra|]. destruct (Req_EM_T 1.37 1.37); [reflexivity|lra]. Qed.

Definition made (c : MScheme.scheme) : Prop :=
  In c [Euler; LocalEuler; Heun; RK2; RK4; AB 2 false; AB 3 false; AB 4 false] \/
  exists i, In c [ImplicitEuler i 1; ImplicitEuler i 0.5; AndersonEuler i 0.5; Newmark i 0.5 0.25; Wilson i 1.37].
Lemma created_made n c : create_time_scheme n = Ok c -> made c.
Proof.
  unfold create_time_scheme. cbv zeta. intro H.
  repeat match type of H with (if ?b then _ else _) = _ => destruct b end; try discriminate H;
  try (injection H as <-; left; cbn; tauto);
  match type of H with obind ?x _ = _ => destruct x as [i| | |]; try discriminate H end; cbn [obind] in H; injection H as <-; right; exists i; cbn; tauto.
Qed.
Lemma made_cases (P : MScheme.scheme -> Prop) : P Euler -> P LocalEuler -> P Heun -> P RK2 -> P RK4 -> P (AB 2 false) -> P (AB 3 false) -> P (AB 4 false) ->
  (forall i, P (ImplicitEuler i 1)) -> (forall i, P (ImplicitEuler i 0.5)) -> (forall i, P (AndersonEuler i 0.5)) -> (forall i, P (Newmark i 0.5 0.25)) -> (forall i, P (Wilson i 1.37)) -> forall c, made c -> P c.
Proof. intros. match goal with H : made _ |- _ => destruct H as [H|[i H]]; cbn in H; decompose [or] H end; subst; auto; contradiction. Qed.

Lemma name_inj c c' : made c -> made c' -> scheme_name c = scheme_name c' -> c = c'.
Proof.
  intros M M'. revert c M. apply (made_cases (fun c => scheme_name c = scheme_name c' -> c = c')); revert c' M';
  refine (made_cases _ _ _ _ _ _ _ _ _ _ _ _ _ _); intros; unfold scheme_name in *; rewrite ?factor_1, ?factor_05, ?factor_025, ?factor_137 in *;
  match goal with H : _ = _ |- _ => cbn in H; try discriminate H; try reflexivity; injection H as H; apply app_inv_tail in H; apply dec_inj in H; subst; reflexivity end.
Qed.
Lemma name_unknown c : made c -> create_time_scheme (scheme_name c) = Throw ExInvalidValue.
Proof.
  revert c. apply made_cases; intros; unfold scheme_name; rewrite ?factor_1, ?factor_05, ?factor_025, ?factor_137; reflexivity.
Qed.

Lemma uint_full u : ~ In nul (ot (NilEmpty.string_of_uint u)).
Proof. induction u; cbn; intros H; try contradiction; destruct H as [H|H]; try discriminate H; exact (IHu H). Qed.
Lemma dec_full n : ~ In nul (dec n).
Proof. unfold dec. destruct (Nat.to_uint n); try (apply (uint_full (Decimal.D0 Decimal.Nil))); apply uint_full. Qed.
Lemma factor_full x : ~ In nul (factor x).
Proof. unfold factor. repeat destruct (Req_EM_T _ _); cbn; intuition discriminate. Qed.
Lemma name_full c : ~ In nul (scheme_name c).
Proof.
  assert (A : forall a b : str, ~ In nul a -> ~ In nul b -> ~ In nul (a ++ b)) by (intros a b Ha Hb H; apply in_app_or in H; tauto).
  destruct c; cbn [scheme_name]; repeat apply A; try apply dec_full; try apply factor_full; try (cbn; intuition discriminate).
  destruct local; cbn; intuition discriminate.
Qed.
Lemma cstr_full s : ~ In nul s -> cstr s = s.
Proof. induction s as [|c s IH]; [reflexivity|]. intro H. cbn. destruct (Ascii.eqb_spec c nul) as [->|N]; [exfalso; apply H; left; reflexivity|]. rewrite IH; [reflexivity|]. intro Q. apply H. right. exact Q. Qed.
Lemma strncpy_full buf s : ~ In nul s -> strncpy buf s (length s) = memcpy buf s.
Proof. intro H. unfold strncpy. rewrite (cstr_full s H), firstn_all, Nat.sub_diag. cbn [repeat]. rewrite app_nil_r. reflexivity. Qed.

Lemma untouched_app {A} (a buf : list A) : length a <= length buf -> untouched_from (length a) buf (a ++ skipn (length a) buf).
Proof.
  intro H. split; [rewrite app_length, skipn_length; lia|]. intros i Hi. rewrite nth_error_app2 by exact Hi.
  rewrite <- (firstn_skipn (length a) buf) at 2. rewrite nth_error_app2; rewrite firstn_length_le; try lia. reflexivity.
Qed.
Lemma skip_skip {A} a b (l : list A) : skipn a (skipn b l) = skipn (a + b) l.
Proof. revert l. induction b as [|b IH]; intro l; [rewrite Nat.add_0_r; reflexivity|]. rewrite Nat.add_succ_r. destruct l; [destruct a; reflexivity|]. apply IH. Qed.
Lemma name_written c buf len : length (scheme_name c) + 1 <= length buf ->
  get_time_scheme (Some c) (Some buf) len = Ok (MOORDYN_SUCCESS, Some ((scheme_name c ++ [nul]) ++ skipn (length (scheme_name c ++ [nul])) buf), match len with Some _ => Some (length (scheme_name c) + 1) | None => None end).
Proof.
  intro H. unfold get_time_scheme. rewrite (strncpy_full _ _ (name_full c)). set (s := scheme_name c) in *. unfold memcpy.
  destruct (Nat.leb_spec (length s) (length buf)) as [L|L]; [|lia]. cbn [obind]. unfold store.
  destruct (Nat.ltb_spec (length s) (length (s ++ skipn (length s) buf))) as [K|K]; [|rewrite app_length, skipn_length in K; lia]. cbn [obind]. do 3 f_equal.
  rewrite firstn_app, firstn_all, Nat.sub_diag, firstn_O, app_nil_r, <- app_assoc. cbn [app]. do 2 f_equal.
  rewrite skipn_app. replace (S (length s) - length s) with 1 by lia. rewrite (skipn_all2 s) by lia. cbn [app]. rewrite skip_skip. f_equal. rewrite app_length. cbn [length]. rewrite Nat.add_comm. reflexivity.
Qed.
Lemma name_two_calls c l l' n buf : get_time_scheme (Some c) None (Some l) = Ok (MOORDYN_SUCCESS, None, Some n) -> n <= length buf ->
  exists buf', get_time_scheme (Some c) (Some buf) (Some l') = Ok (MOORDYN_SUCCESS, Some buf', Some n) /\ holds buf' (scheme_name c) /\ untouched_from n buf buf'.
Proof.
  intros H L. cbn in H. injection H as <-. rewrite (name_written c buf (Some l') L). eexists. split; [reflexivity|]. split.
  - split; [apply name_full|]. rewrite <- app_assoc. eexists. reflexivity.
  - assert (E : length (scheme_name c) + 1 = length (scheme_name c ++ [nul])) by (rewrite app_length; reflexivity). rewrite E. apply untouched_app. rewrite <- E. exact L.
Qed.
Lemma name_short c buf len : length buf < length (scheme_name c) + 1 -> get_time_scheme (Some c) (Some buf) len = UB.
Proof.
  intro H. unfold get_time_scheme. rewrite (strncpy_full _ _ (name_full c)). set (s := scheme_name c) in *. unfold memcpy.
  destruct (Nat.leb_spec (length s) (length buf)) as [L|L]; [|reflexivity]. cbn [obind]. unfold store.
  destruct (Nat.ltb_spec (length s) (length (s ++ skipn (length s) buf))) as [K|K]; [rewrite app_length, skipn_length in K; lia|reflexivity].
Qed.

Lemma bytes_two_calls be fuel s o z z' : (1100 <= Z.of_nat fuel)%Z -> system_ok s -> same_layout s o -> exists n,
  serialize be fuel (Some s) (Some z) None = Ok (MOORDYN_SUCCESS, Some (8 * n), None) /\
  forall buf, (n <= length buf ->
    exists buf' o', serialize be fuel (Some s) (Some z') (Some buf) = Ok (MOORDYN_SUCCESS, Some (8 * n), Some buf') /\ untouched_from n buf buf' /\
    deserialize be (Some o) (Some buf') = Ok (MOORDYN_SUCCESS, Some o') /\ system_saved o' = system_saved s /\ system_unsaved o' = system_unsaved o) /\
  (length buf < n -> serialize be fuel (Some s) (Some z') (Some buf) = UB).
Proof.
  intros F Hs Hl. destruct (restore_system_ok be fuel F s o Hs Hl) as (ws & E & _ & R). exists (length ws). unfold serialize. rewrite E. rewrite (Nat.mul_comm (length ws)). split; [reflexivity|].
  intro buf. unfold memcpy. destruct (Nat.leb_spec (length ws) (length buf)) as [L|L]; (split; intro K; [|try lia]); try lia; [|reflexivity].
  destruct (R (skipn (length ws) buf)) as (o' & D & S1 & S2). eexists. exists o'. split; [reflexivity|]. split; [apply untouched_app; exact L|].
  split; [unfold deserialize, system_deserialize; rewrite D; reflexivity|]. split; assumption.
Qed.
