(** Proofs about the C interfaces. *)
From Coq Require Import String ZArith List Arith Bool Reals Lia.
From Verif Require Import MErr MStateOps MVec MInterp MApi SApi.
Import ListNotations.
Open Scope Z_scope.

(* ------------------------------ getters ------------------------------ *)
Lemma get_object_spec {A} (l : list A) b o : 0 <= b ->
  (get_object l b = Some o <-> 1 <= b <= Z.of_nat (length l) /\ nth_error l (Z.to_nat b - 1) = Some o).
Proof.
  intros Hb. unfold get_object. destruct (Z.eqb_spec b 0); cbn.
  - split; [discriminate|lia].
  - destruct (Z.ltb_spec (Z.of_nat (length l)) b).
    + split; [discriminate|lia].
    + replace (Z.to_nat (b - 1)) with (Z.to_nat b - 1)%nat by lia. intuition lia.
Qed.
Lemma get_object_none {A} (l : list A) b : 0 <= b -> (get_object l b = None <-> b = 0 \/ Z.of_nat (length l) < b).
Proof.
  intros Hb. unfold get_object. destruct (Z.eqb_spec b 0); cbn; [intuition|].
  destruct (Z.ltb_spec (Z.of_nat (length l)) b); [intuition|]. rewrite nth_error_None. intuition lia.
Qed.
Lemma get_object_int {A} (l : list A) i o : Z.of_nat (length l) < 2 ^ 31 -> - 2 ^ 31 <= i < 2 ^ 31 ->
  (get_object l (to_uint i) = Some o <-> 1 <= i <= Z.of_nat (length l) /\ nth_error l (Z.to_nat i - 1) = Some o).
Proof.
  intros Hl Hi. rewrite get_object_spec by (unfold to_uint; apply Z.mod_pos_bound; lia). unfold to_uint.
  destruct (Z.neg_nonneg_cases i) as [N|P].
  - replace (i mod 2 ^ 32) with (i + 2 ^ 32); [lia|]. rewrite <- (Z.mod_add i 1) by lia. rewrite Z.mul_1_l. symmetry. apply Z.mod_small. lia.
  - rewrite Z.mod_small by lia. reflexivity.
Qed.
Lemma node_ok q L i : (i <= ld_N L)%nat -> exists v, MoorDyn_GetLineNode q (Some L) i = Ok (Reply MOORDYN_SUCCESS (Some v)) /\ line_node q L i = Ok v.
Proof. intros H. unfold MoorDyn_GetLineNode, line_node. destruct (Nat.ltb_spec (ld_N L) i); [lia|]. eexists. split; reflexivity. Qed.
Lemma node_bad q h i : (forall L, h = Some L -> (ld_N L < i)%nat) -> MoorDyn_GetLineNode q h i = Ok (Reply MOORDYN_INVALID_VALUE None).
Proof.
  intros H. destruct h as [L|]; [|reflexivity]. specialize (H L eq_refl). unfold MoorDyn_GetLineNode, line_node.
  destruct (Nat.ltb_spec (ld_N L) i); [reflexivity|lia].
Qed.
Lemma number_nodes L q i : MoorDyn_GetLineNumberNodes (Some L) = Reply MOORDYN_SUCCESS (Some (ld_N L + 1)%nat) /\
  ((i < ld_N L + 1)%nat <-> exists v, MoorDyn_GetLineNode q (Some L) i = Ok (Reply MOORDYN_SUCCESS (Some v))).
Proof.
  split; [reflexivity|]. split; intros H.
  - destruct (node_ok q L i ltac:(lia)) as (v & E & _). eauto.
  - destruct H as [v E]. destruct (Nat.lt_ge_cases (ld_N L) i); [|lia]. rewrite node_bad in E; [discriminate|]. intros L' [= <-]. assumption.
Qed.
Lemma attached {A} (l : list A) i : MoorDyn_GetPointNAttached (Some l) = Reply MOORDYN_SUCCESS (Some (length l)) /\
  MoorDyn_GetPointAttached (Some l) i = Ok (match nth_error l i with Some a => Reply MOORDYN_SUCCESS (Some a) | None => Reply MOORDYN_INVALID_VALUE None end).
Proof.
  split; [reflexivity|]. unfold MoorDyn_GetPointAttached, vget. destruct (Nat.leb_spec (length l) i) as [H|H].
  - apply nth_error_None in H. now rewrite H.
  - destruct (nth_error l i) eqn:E; [reflexivity|]. apply nth_error_None in E. lia.
Qed.
Lemma fast_loop_run {A B} (q : A -> B) (lines : list A) n : forall l, (l + n <= length lines)%nat -> fast_loop q lines l n = Ok (map q (firstn n (skipn l lines))).
Proof.
  induction n; intros l H; [reflexivity|]. cbn [fast_loop]. unfold vget. destruct (nth_error lines l) as [x|] eqn:E; [|apply nth_error_None in E; lia].
  cbn [obind]. rewrite IHn by lia. cbn [obind]. assert (S : skipn l lines = x :: skipn (S l) lines).
  { clear - E. revert lines E. induction l; intros [|y lines] E; try discriminate; cbn in *; [now injection E as -> | now apply IHl]. }
  rewrite S. reflexivity.
Qed.
Lemma fast_tens {A B} (q : A -> B) (lines : list A) n : Z.of_nat (length lines) < 2 ^ 31 -> - 2 ^ 31 <= n < 2 ^ 31 ->
  MoorDyn_GetFASTtens q (Some lines) n = Ok (if (0 <=? n) && (n <=? Z.of_nat (length lines))
    then Reply MOORDYN_SUCCESS (Some (map q (firstn (Z.to_nat n) lines))) else Reply MOORDYN_INVALID_VALUE None).
Proof.
  intros Hl Hn. unfold MoorDyn_GetFASTtens, to_uint. destruct (Z.leb_spec 0 n) as [P|N]; cbn [andb].
  - rewrite Z.mod_small by lia. destruct (Z.ltb_spec (Z.of_nat (length lines)) n), (Z.leb_spec n (Z.of_nat (length lines))); try lia; [reflexivity|].
    rewrite fast_loop_run by lia. reflexivity.
  - replace (n mod 2 ^ 32) with (n + 2 ^ 32) by (rewrite <- (Z.mod_add n 1) by lia; rewrite Z.mul_1_l; symmetry; apply Z.mod_small; lia).
    destruct (Z.ltb_spec (Z.of_nat (length lines)) (n + 2 ^ 32)); [reflexivity|lia].
Qed.

(* ------------------------------ version 1 ------------------------------ *)
Section V1.
Variables (Sys X F : Type).
Variable create : string -> option Sys.
Variable init : Sys -> X -> Z * Sys.
Variable step : Sys -> X -> Z * F * Sys.
Notation process := (process Sys). Notation v1call := (v1call X).
Notation run := (v1_run Sys X F create init step).
Notation cur := (current Sys X F create init step).

(** addresses are fresh and the singleton is allocated *)
Definition wf (p : process) : Prop :=
  (forall a s, In (a, s) (heap _ p) -> (a < next _ p)%nat) /\ NoDup (map fst (heap _ p)) /\
  match single _ p with Some a => lookup _ (heap _ p) a <> None | None => True end.
Notation sys_of := (sys_of Sys).

Lemma lookup_in h a : lookup Sys h a <> None -> In a (map fst h).
Proof. induction h as [|[b s] h IH]; cbn; [congruence|]. destruct (Nat.eqb_spec a b); [auto|]. intros H. right. auto. Qed.
Lemma release_in h a x : In x (release Sys h a) -> In x h.
Proof. intros H. apply filter_In in H. apply H. Qed.
Lemma release_nodup h a : NoDup (map fst h) -> NoDup (map fst (release Sys h a)).
Proof.
  induction h as [|[b s] h IH]; cbn; [auto|]. intros H. inversion H; subst. destruct (Nat.eqb a b); cbn; [auto|].
  constructor; [|auto]. intros G. apply H2. apply in_map_iff in G. destruct G as (y & E & G). apply release_in in G. apply in_map_iff. eauto.
Qed.
Lemma store_keys h a s : map fst (store Sys h a s) = map fst h.
Proof. induction h as [|[b t] h IH]; cbn; [reflexivity|]. destruct (Nat.eqb a b); cbn; congruence. Qed.
Lemma store_in h a s x : In x (store Sys h a s) -> In (fst x) (map fst h).
Proof. intros H. rewrite <- (store_keys h a s). now apply in_map. Qed.
Lemma lookup_store h a s : lookup Sys h a <> None -> lookup Sys (store Sys h a s) a = Some s.
Proof. induction h as [|[b t] h IH]; cbn; [congruence|]. destruct (Nat.eqb_spec a b); cbn; [subst; now rewrite Nat.eqb_refl|]. destruct (Nat.eqb_spec a b); [congruence|]. exact IH. Qed.
Lemma release_length h a : NoDup (map fst h) -> lookup Sys h a <> None -> length h = S (length (release Sys h a)).
Proof.
  induction h as [|[b s] h IH]; cbn; [congruence|]. intros H L. inversion H; subst. destruct (Nat.eqb_spec a b); cbn.
  - subst. f_equal. clear - H2. induction h as [|[c t] h IH]; cbn in *; [reflexivity|]. destruct (Nat.eqb_spec b c); [subst; tauto|]. cbn. f_equal. apply IH. tauto.
  - f_equal. auto.
Qed.
Lemma wf_start : wf (start Sys).
Proof. unfold wf, start. cbn. repeat split; [tauto|constructor]. Qed.
Lemma wf_lt p a : wf p -> In a (map fst (heap _ p)) -> (a < next _ p)%nat.
Proof. intros (H & _) I. apply in_map_iff in I. destruct I as ([b s] & <- & I). eauto. Qed.

Lemma do_ok c p : wf p -> exists e p', v1_do Sys X F create init step c p = Ok (e, p') /\ wf p' /\ sys_of p' = cur [c] (sys_of p) /\
  length (heap _ p') = (length (heap _ p) - (if sys_of p then 1 else 0) + (if sys_of p' then 1 else 0) + (if failed_init Sys X create init c then 1 else 0))%nat /\
  (1 <= length (heap _ p) \/ sys_of p = None)%nat.
Proof.
  intros W. pose proof W as (Hlt & Hnd & Hs).
  assert (Hone : (1 <= length (heap _ p) \/ sys_of p = None)%nat).
  { unfold sys_of. destruct (single _ p); [|auto]. left. apply lookup_in in Hs. destruct (heap _ p); cbn in *; [tauto|lia]. }
  destruct c as [x name|x|]; cbn [v1_do current failed_init].
  - unfold MoorDynInit, started. destruct (create name) as [s|]; [|eexists _, _; split; [reflexivity|]; split; [exact W|]; split; [reflexivity|]; split; [destruct Hone as [?|E0]; [destruct (sys_of p); lia|rewrite E0; lia]|exact Hone]].
    destruct (init s x) as [err s'] eqn:Ei. cbn [fst]. unfold MOORDYN_SUCCESS. destruct (Z.eqb_spec err 0); cbn [negb].
    + eexists _, _. split; [reflexivity|]. set (a := next _ p). cbn [heap next single].
      set (h := match single _ p with Some old => release Sys ((a, s') :: heap _ p) old | None => (a, s') :: heap _ p end).
      assert (Hh : h = (a, s') :: match single _ p with Some old => release Sys (heap _ p) old | None => heap _ p end).
      { unfold h. destruct (single _ p) as [old|] eqn:Eo; [|reflexivity]. cbn. destruct (Nat.eqb_spec old a); [|reflexivity].
        exfalso. assert (old < a)%nat by (apply wf_lt; [exact W|now apply lookup_in]). lia. }
      assert (Ha : ~ In a (map fst (heap _ p))) by (intros I; apply wf_lt in I; [unfold a in I; lia|exact W]).
      split; [|split; [|split; [|exact Hone]]].
      * unfold wf. cbn [heap next single]. rewrite Hh. split; [|split].
        -- intros b t [E|I]; [injection E as <- <-; lia|]. assert (In (b, t) (heap _ p)) by (destruct (single _ p); [eapply release_in; eassumption|assumption]). apply Hlt in H. unfold a. lia.
        -- cbn [map fst]. constructor.
           ++ intros I. apply Ha. destruct (single _ p); [|assumption]. apply in_map_iff in I. destruct I as (y & E & I). apply release_in in I. apply in_map_iff. eauto.
           ++ destruct (single _ p); [now apply release_nodup|assumption].
        -- cbn [lookup]. rewrite Nat.eqb_refl. discriminate.
      * unfold sys_of. cbn [single heap]. rewrite Hh. cbn [lookup]. now rewrite Nat.eqb_refl.
      * unfold sys_of at 2. cbn [single heap]. rewrite Hh. cbn [lookup length]. rewrite Nat.eqb_refl. unfold sys_of. destruct (single _ p) as [old|] eqn:Eo.
        -- pose proof (release_length (heap _ p) old Hnd Hs). destruct (lookup Sys (heap _ p) old); [|congruence]. lia.
        -- lia.
    + eexists _, _. split; [reflexivity|]. set (a := next _ p).
      assert (Ha : forall old, single _ p = Some old -> old <> a).
      { intros old E ->. rewrite E in Hs. assert (a < a)%nat by (apply wf_lt; [exact W|now apply lookup_in]). lia. }
      assert (Hsys : sys_of {| heap := (a, s') :: heap Sys p; next := S a; single := single Sys p |} = sys_of p).
      { unfold sys_of. cbn [single heap lookup]. destruct (single _ p) as [old|]; [|reflexivity]. destruct (Nat.eqb_spec old a); [exfalso; now apply (Ha old)|reflexivity]. }
      split; [|split; [exact Hsys|split; [|exact Hone]]].
      * unfold wf. cbn [heap next single]. split; [|split].
        -- intros b t [E|I]; [injection E as <- <-; lia|]. apply Hlt in I. unfold a. lia.
        -- cbn [map fst]. constructor; [|assumption]. intros I. apply wf_lt in I; [unfold a in I; lia|exact W].
        -- destruct (single _ p) as [old|]; [|exact I]. cbn [lookup]. destruct (Nat.eqb_spec old a); [discriminate|assumption].
      * rewrite Hsys. cbn [heap length]. destruct (sys_of p); destruct Hone; try discriminate; lia.
  - unfold MoorDynStep, sys_of. destruct (single _ p) as [a|] eqn:Ea.
    + pose proof (lookup_in _ _ Hs) as Hin. destruct (lookup _ (heap _ p) a) as [s|] eqn:El; [|congruence]. destruct (step s x) as [[err f] s'] eqn:Es. cbn [obind].
      eexists _, _. split; [reflexivity|]. assert (Hl : lookup Sys (store Sys (heap _ p) a s') a = Some s') by (apply lookup_store; congruence).
      split; [|split; [|split; [|left]]].
      * unfold wf. cbn [heap next single]. rewrite ?Ea. split; [|split].
        -- intros b t I. apply store_in in I. now apply wf_lt.
        -- rewrite store_keys. exact Hnd.
        -- congruence.
      * cbn [single heap]. rewrite ?Ea, Hl. cbn. rewrite ?Es. reflexivity.
      * cbn [single heap]. rewrite ?Ea, Hl. rewrite <- (map_length fst (store _ _ _ _)), store_keys, map_length.
        destruct (heap _ p); cbn in *; [tauto|lia].
      * destruct (heap _ p); cbn in *; [tauto|lia].
    + cbn [obind]. eexists _, _. split; [reflexivity|]. split; [exact W|]. rewrite Ea. split; [reflexivity|]. split; [lia|auto].
  - unfold MoorDynClose, sys_of. destruct (single _ p) as [a|] eqn:Ea.
    + pose proof (lookup_in _ _ Hs) as Hin. destruct (lookup _ (heap _ p) a) as [s|] eqn:El; [|congruence]. eexists _, _. split; [reflexivity|]. split; [|split; [reflexivity|split; [|left]]].
      * unfold wf. cbn [heap next single]. split; [|split; [|exact I]].
        -- intros b t I. apply release_in in I. now apply Hlt in I.
        -- now apply release_nodup.
      * cbn [single heap]. pose proof (release_length (heap _ p) a Hnd ltac:(congruence)). lia.
      * destruct (heap _ p); cbn in *; [tauto|lia].
    + eexists _, _. split; [reflexivity|]. split; [exact W|]. rewrite Ea. split; [reflexivity|]. split; [lia|auto].
Qed.

Lemma current_app h1 h2 c : cur (h1 ++ h2) c = cur h2 (cur h1 c).
Proof. revert c. induction h1 as [|[x n|x|] h1 IH]; intros c; cbn; auto. Qed.
Notation leaks := (leaks Sys X create init).
Lemma run_ok h : forall p, wf p -> exists p', run h p = Ok p' /\ wf p' /\ sys_of p' = cur h (sys_of p) /\
  (length (heap _ p') + (if sys_of p then 1 else 0) = length (heap _ p) + (if sys_of p' then 1 else 0) + leaks h)%nat.
Proof.
  induction h as [|c h IH]; intros p W.
  - exists p. cbn. split; [reflexivity|]. split; [exact W|]. split; [reflexivity|lia].
  - destruct (do_ok c p W) as (e & p1 & E & W1 & S1 & L1 & O1). destruct (IH p1 W1) as (p2 & E2 & W2 & S2 & L2). exists p2. cbn [v1_run]. rewrite E. cbn [obind snd].
    split; [exact E2|]. split; [exact W2|]. split; [rewrite S2, S1; change (c :: h) with ([c] ++ h); now rewrite current_app|].
    unfold leaks in *. cbn [filter]. destruct (failed_init Sys X create init c); cbn [length]; destruct (sys_of p), (sys_of p1), (sys_of p2); destruct O1; try discriminate; lia.
Qed.
Lemma run_start h : exists p, run h (start Sys) = Ok p /\ sys_of p = cur h None /\ length (heap _ p) = ((if cur h None then 1 else 0) + leaks h)%nat.
Proof.
  destruct (run_ok h (start Sys) wf_start) as (p & E & W & S & L). exists p. split; [exact E|]. cbn in S, L. split; [exact S|]. rewrite S in L. lia.
Qed.
(** the codes returned after a history *)
Lemma step_after h x : exists p, run h (start Sys) = Ok p /\
  match cur h None with
  | Some s => exists p', MoorDynStep Sys X F step x p = Ok (fst (fst (step s x)), Some (snd (fst (step s x))), p') /\ sys_of p' = Some (snd (step s x))
  | None => MoorDynStep Sys X F step x p = Ok (MOORDYN_INVALID_VALUE, None, p)
  end.
Proof.
  destruct (run_ok h (start Sys) wf_start) as (p & E & W & S & _). exists p. split; [exact E|]. cbn in S. rewrite <- S. destruct W as (_ & _ & Hs).
  unfold sys_of, MoorDynStep. destruct (single _ p) as [a|] eqn:Ea; [|reflexivity]. destruct (lookup _ (heap _ p) a) as [s|] eqn:El; [|congruence].
  destruct (step s x) as [[e f] s'] eqn:Es. cbn. eexists. split; [reflexivity|]. cbn. rewrite ?Ea. apply lookup_store. congruence.
Qed.
Lemma active_current h : (cur h None <> None <-> active Sys X create init h).
Proof.
  induction h as [|c h IH] using rev_ind.
  - cbn. split; [congruence|]. intros (a & x & n & b & E & _). destruct a; discriminate.
  - rewrite current_app. split.
    + destruct c as [x n|x|]; cbn.
      * destruct (started Sys X create init x n) as [s|] eqn:Es.
        -- intros _. exists h, x, n, []. split; [reflexivity|]. split; [congruence|auto].
        -- intros H. apply IH in H. destruct H as (a & x' & n' & b & -> & H1 & H2). exists a, x', n', (b ++ [VInit X x n]). rewrite <- app_assoc. split; [reflexivity|].
           split; [exact H1|]. intros I. apply in_app_or in I. destruct I as [I|[I|[]]]; [auto|discriminate].
      * destruct (cur h None) as [s|] eqn:Ec; [|congruence]. intros _. destruct IH as [IH _]. destruct (IH ltac:(congruence)) as (a & x' & n' & b & -> & H1 & H2).
        exists a, x', n', (b ++ [VStep X x]). rewrite <- app_assoc. split; [reflexivity|]. split; [exact H1|]. intros I. apply in_app_or in I. destruct I as [I|[I|[]]]; [auto|discriminate].
      * congruence.
    + intros (a & x' & n' & b & E & H1 & H2). destruct b as [|d b _] using rev_ind.
      * apply app_inj_tail in E. destruct E as [-> ->]. cbn. destruct (started Sys X create init x' n') as [s|]; [congruence|tauto].
      * change (VInit X x' n' :: b ++ [d]) with ((VInit X x' n' :: b) ++ [d]) in E. rewrite app_assoc in E. apply app_inj_tail in E. destruct E as [-> ->].
        assert (Hc : cur (a ++ VInit X x' n' :: b) None <> None).
        { apply IH. exists a, x', n', b. split; [reflexivity|]. split; [exact H1|]. intros I. apply H2, in_or_app. auto. }
        destruct d as [x n|x|]; cbn.
        -- destruct (started Sys X create init x n); [congruence|exact Hc].
        -- destruct (cur (a ++ VInit X x' n' :: b) None); [congruence|exact Hc].
        -- exfalso. apply H2, in_or_app. right. left. reflexivity.
Qed.
Variable nlines : Sys -> list line_data.
Lemma queries_after h l i : exists p, run h (start Sys) = Ok p /\
  match cur h None with
  | Some s => GetFairTen Sys nlines l p = obind (MoorDyn_GetLineFairTen (get_object (nlines s) (to_uint l))) (fun r => match rp_out r with Some t => Ok t | None => UB end) /\
              GetNodePos Sys nlines l i p = MoorDyn_GetLineNode QPos (get_object (nlines s) (to_uint l)) (Z.to_nat (to_uint i))
  | None => GetFairTen Sys nlines l p = Ok (-1)%R /\ GetNodePos Sys nlines l i p = Ok (Reply MOORDYN_MEM_ERROR None)
  end.
Proof.
  destruct (run_ok h (start Sys) wf_start) as (p & E & W & S & _). exists p. split; [exact E|]. cbn in S. rewrite <- S. destruct W as (_ & _ & Hs).
  unfold sys_of, GetFairTen, GetNodePos. destruct (single _ p) as [a|] eqn:Ea; [|auto]. destruct (lookup _ (heap _ p) a) as [s|] eqn:El; [|congruence]. auto.
Qed.
End V1.
