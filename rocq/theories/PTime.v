(** Proofs about the integrator bookkeeping. *)
From Coq Require Import String Ascii List Arith ZArith Bool Reals Lia Lra.
From Verif Require Import MErr MStr MStateOps MScheme MTime STime.
Import ListNotations.

Lemma find_none o l : find_at o l = None <-> ~ In o l.
Proof.
  induction l as [|x l IH]; cbn; [tauto|]. destruct (Nat.eqb_spec x o) as [->|N]; [split; [discriminate|tauto]|].
  destruct (find_at o l); split; intro H; try discriminate; try tauto.
  - exfalso. apply H. right. destruct IH as [_ IH]. apply Decidable.not_not; [|intro C; specialize (IH C); discriminate]. destruct (in_dec Nat.eq_dec o l); [now left|now right].
Qed.
Lemma find_some o l i : find_at o l = Some i -> nth_error l i = Some o /\ (i < length l)%nat.
Proof.
  revert i; induction l as [|x l IH]; intros i H; [discriminate|]. cbn in H. destruct (Nat.eqb_spec x o) as [->|N]; [injection H as <-; cbn; split; [reflexivity|lia]|].
  destruct (find_at o l) as [j|]; [|discriminate]. injection H as <-. destruct (IH j eq_refl). cbn. split; [assumption|lia].
Qed.
Section Reg.
Variables (A B : Type).
Implicit Types s : slots A B.
Lemma add_new z0 d0 o s : aligned s -> ~ In o (ids s) -> exists s', add_obj z0 d0 o s = Ok s' /\ aligned s' /\
  ids s' = ids s ++ [o] /\ (forall k l, nth_error (ss s) k = Some l -> entry_of s' k o z0) /\
  (forall k o' a, entry_of s k o' a -> entry_of s' k o' a).
Proof.
  intros (HN & HS & HD & HM) Hi. unfold add_obj. apply find_none in Hi as E. rewrite E. eexists; split; [reflexivity|]. split; [|split; [reflexivity|split]].
  - repeat split; cbn.
    + rewrite <- (rev_involutive (ids s ++ [o])). apply NoDup_rev. rewrite rev_app_distr. cbn. constructor; [now rewrite <- in_rev|now apply NoDup_rev].
    + rewrite app_length. rewrite Forall_map. revert HS. apply Forall_impl. intros l Hl. rewrite app_length, Hl. reflexivity.
    + rewrite app_length. rewrite Forall_map. revert HD. apply Forall_impl. intros l Hl. rewrite app_length, Hl. reflexivity.
    + rewrite !app_length, HM. reflexivity.
  - intros k l Hk. exists (length (ids s)), (l ++ [z0]). cbn. rewrite nth_error_app2 by lia. rewrite Nat.sub_diag. split; [reflexivity|].
    split; [now apply (map_nth_error (fun l0 => l0 ++ [z0]))|].
    rewrite Forall_forall in HS. rewrite <- (HS l) by (eapply nth_error_In; eassumption). rewrite nth_error_app2 by lia. now rewrite Nat.sub_diag.
  - intros k o' a (i & l & H1 & H2 & H3). exists i, (l ++ [z0]). cbn. split; [rewrite nth_error_app1; [assumption|]; apply nth_error_Some; congruence|].
    split; [now apply (map_nth_error (fun l0 => l0 ++ [z0]))|]. rewrite nth_error_app1; [assumption|]; apply nth_error_Some; congruence.
Qed.
Lemma add_twice z0 d0 o s : In o (ids s) -> add_obj z0 d0 o s = Throw ExInvalidValue.
Proof. intro H. unfold add_obj. destruct (find_at o (ids s)) eqn:E; [reflexivity|]. apply find_none in E. contradiction. Qed.
Lemma remove_missing o s : ~ In o (ids s) -> remove_obj o s = Throw ExInvalidValue.
Proof. intro H. unfold remove_obj. apply find_none in H. now rewrite H. Qed.
Lemma empty_aligned n m : aligned (@no_slots A B n m).
Proof. repeat split; cbn; try constructor; rewrite Forall_forall; intros l H; apply repeat_spec in H; now subst. Qed.
Lemma add_all_ok z0 d0 os s : aligned s -> NoDup os -> (forall o, In o os -> ~ In o (ids s)) ->
  exists s', add_all z0 d0 os s = Ok s' /\ aligned s' /\ ids s' = ids s ++ os /\ length (ss s') = length (ss s) /\ length (sd s') = length (sd s).
Proof.
  revert s; induction os as [|o os IH]; intros s HA HN HO; cbn [add_all].
  - exists s. rewrite app_nil_r. split; [reflexivity|split; [exact HA|repeat split]].
  - inversion HN; subst. destruct (add_new z0 d0 o s HA) as (s1 & E & A1 & I1 & _ & _); [apply HO; now left|]. rewrite E. cbn [obind].
    destruct (IH s1 A1) as (s2 & E2 & A2 & I2 & L2 & M2); [assumption| |].
    { intros o' Ho'. rewrite I1, in_app_iff. intros [C|[C|[]]]; [revert C; apply HO; now right|subst; contradiction]. }
    exists s2. split; [exact E2|]. split; [exact A2|]. rewrite I2, I1, <- app_assoc. split; [reflexivity|].
    unfold add_obj in E. destruct (find_at o (ids s)); [discriminate|]. injection E as <-. cbn in L2, M2. rewrite map_length in L2, M2. now split.
Qed.
(** removal *)
Lemma erase_ok {X} (l : list X) i : (i < length l)%nat -> exists r, erase l i = Ok r /\ S (length r) = length l /\ r = firstn i l ++ skipn (S i) l.
Proof.
  revert i; induction l as [|x l IH]; intros [|i] H; cbn in *; try lia.
  - exists l. repeat split.
  - destruct (IH i) as (r & E & L & F); [lia|]. rewrite E. cbn. exists (x :: r). split; [reflexivity|]. split; [cbn; lia|]. now rewrite F.
Qed.
Lemma erase_ub {X} (l : list X) i : (length l <= i)%nat -> erase l i = UB.
Proof. revert i; induction l as [|x l IH]; intros [|i] H; cbn in *; try reflexivity; try lia. rewrite IH by lia. reflexivity. Qed.
Lemma erase_diag_ok {X} (rs : list (list X)) i n : Forall (fun l => length l = n) rs -> (i + length rs <= n)%nat ->
  exists q, erase_diag rs i = Ok q /\ Forall (fun l => S (length l) = n) q /\ length q = length rs.
Proof.
  revert i; induction rs as [|l rs IH]; intros i HF Hi; cbn in *.
  - exists []. repeat split; constructor.
  - inversion HF; subst. destruct (erase_ok l i) as (r & E & L & _); [lia|]. rewrite E. cbn.
    destruct (IH (S i)) as (q & Eq & Fq & Lq); [assumption|lia|]. rewrite Eq. cbn. exists (r :: q). split; [reflexivity|]. split; [now constructor|cbn; lia].
Qed.
Lemma erase_diag_ub {X} (rs : list (list X)) i n : Forall (fun l => length l = n) rs -> rs <> [] -> (n < i + length rs)%nat -> erase_diag rs i = UB.
Proof.
  revert i; induction rs as [|l rs IH]; intros i HF H0 Hi; [contradiction|]. inversion HF; subst. cbn [erase_diag].
  destruct (Nat.lt_ge_cases i (length l)) as [Hl|Hl]; [|now rewrite erase_ub].
  destruct (erase_ok l i Hl) as (r & E & _). rewrite E. cbn [obind]. destruct rs as [|l' rs]; [cbn in Hi; lia|].
  rewrite (IH (S i)); [reflexivity|assumption|discriminate|cbn in *; lia].
Qed.
Lemma remove_sizes o s : aligned s -> In o (ids s) -> (length (ss s) <= length (ids s))%nat -> (length (sd s) <= length (ids s))%nat ->
  exists s' i, remove_obj o s = Ok (s', i) /\ nth_error (ids s) i = Some o /\ aligned s' /\ (forall o', In o' (ids s') <-> In o' (ids s) /\ o' <> o).
Proof.
  intros (HN & HS & HD & HM) Hi H1 H2. unfold remove_obj. destruct (find_at o (ids s)) as [i|] eqn:E; [|apply find_none in E; contradiction].
  apply find_some in E as [Ei Li]. destruct (erase_ok (ids s) i Li) as (is & Eis & Lis & Fis). rewrite Eis. cbn [obind].
  destruct (erase_diag_ok (ss s) 0 _ HS ltac:(lia)) as (rs & Ers & Frs & _). rewrite Ers. cbn [obind].
  destruct (erase_diag_ok (sd s) 0 _ HD ltac:(lia)) as (ds & Eds & Fds & _). rewrite Eds. cbn [obind].
  destruct (erase_ok (msk s) i) as (ms & Ems & Lms & _); [lia|]. rewrite Ems. cbn [obind]. do 2 eexists; split; [reflexivity|]. split; [exact Ei|].
  assert (HP : ids s = firstn i (ids s) ++ o :: skipn (S i) (ids s)).
  { rewrite <- (firstn_skipn i (ids s)) at 1. f_equal. clear - Ei. revert i Ei. induction (ids s) as [|x l IH]; intros [|i] H; cbn in *; try discriminate; [now injection H as ->|now apply IH]. }
  rewrite HP in HN. pose proof (NoDup_remove_1 _ _ _ HN) as N1. pose proof (NoDup_remove_2 _ _ _ HN) as N2. rewrite <- Fis in N1, N2.
  split; [repeat split; cbn; try assumption|].
  - revert Frs. apply Forall_impl. intros; lia.
  - revert Fds. apply Forall_impl. intros; lia.
  - lia.
  - cbn. intro o'. assert (HI : In o' (ids s) <-> In o' (firstn i (ids s)) \/ o = o' \/ In o' (skipn (S i) (ids s))) by (rewrite HP at 1; rewrite in_app_iff; reflexivity).
    rewrite HI, Fis, in_app_iff. split.
    + intros H. split; [tauto|]. intros ->. apply N2. rewrite Fis, in_app_iff. exact H.
    + intros [[H|[H|H]] Hn]; try tauto. congruence.
Qed.
Lemma remove_ub o s : aligned s -> In o (ids s) -> (length (ids s) < length (ss s))%nat -> remove_obj o s = UB.
Proof.
  intros (HN & HS & HD & HM) Hi H1. unfold remove_obj. destruct (find_at o (ids s)) as [i|] eqn:E; [|apply find_none in E; contradiction].
  apply find_some in E as [Ei Li]. destruct (erase_ok (ids s) i Li) as (is & Eis & Lis & Fis). rewrite Eis. cbn [obind].
  rewrite (erase_diag_ub (ss s) 0 _ HS); [reflexivity| |lia]. destruct (ss s); [cbn in H1; lia|discriminate].
Qed.
End Reg.
(** two points in a scheme with one state: removing the second one erases the entry of the first *)
Lemma remove_wrong_entry : exists (s s' : slots nat nat), aligned s /\ remove_obj 2 s = Ok (s', 1%nat) /\ ids s' = [1%nat] /\
  entry_of s 0 1 11%nat /\ entry_of s 0 2 22%nat /\ entry_of s' 0 1 22%nat /\ ~ entry_of s' 0 1 11%nat.
Proof.
  exists (Slots [1; 2] [[11; 22]] [[0; 0]] [true; true])%nat, (Slots [1] [[22]] [[0]] [true])%nat.
  split; [repeat split; cbn; repeat constructor; cbn; intuition lia|]. split; [reflexivity|]. split; [reflexivity|].
  split; [exists 0%nat, [11; 22]%nat; now split|]. split; [exists 1%nat, [11; 22]%nat; now split|]. split; [exists 0%nat, [22]%nat; now split|].
  intros (i & l & H1 & H2 & H3). cbn in *. injection H2 as <-. destruct i as [|[|i]]; cbn in *; discriminate.
Qed.

(** creation by name *)
Lemma str_eqb_eq a b : str_eqb a b = true <-> a = b.
Proof.
  revert b; induction a as [|x a IH]; intros [|y b]; cbn; split; intro H; try discriminate; try reflexivity.
  - apply andb_prop in H as [H1 H2]. apply Ascii.eqb_eq in H1. apply IH in H2. congruence.
  - injection H as -> ->. now rewrite Ascii.eqb_refl, (proj2 (IH b) eq_refl).
Qed.
Lemma create_fixed w c name : In (w, c) fixed_names -> lower name = stm w -> create_time_scheme name = Ok c.
Proof.
  intros H L. unfold create_time_scheme. rewrite L. cbn in H.
  repeat (destruct H as [H|H]; [injection H as <- <-; reflexivity|]). contradiction.
Qed.
Lemma create_local w c name : In (w, c) local_names -> lower name = stm w -> exists k, c = AB k true /\ create_time_scheme name = Ok (AB k false).
Proof.
  intros H L. unfold create_time_scheme. rewrite L. cbn in H.
  repeat (destruct H as [H|H]; [injection H as <- <-; eexists; split; reflexivity|]). contradiction.
Qed.
Lemma digit_range c : is_digit c = true -> (48 <= code c <= 57)%N.
Proof. unfold is_digit. intro H. apply andb_prop in H as [H1 H2]. apply N.leb_le in H1, H2. now split. Qed.
Lemma lower_digits ds : Forall (fun c => is_digit c = true) ds -> lower ds = ds.
Proof.
  induction 1 as [|c ds Hc _ IH]; [reflexivity|]. change (lower (c :: ds)) with (to_lower c :: lower ds). rewrite IH. f_equal. unfold to_lower, is_upper.
  apply digit_range in Hc. destruct (N.leb_spec 65 (code c)); [lia|reflexivity].
Qed.
Lemma digits_fold ds a : Forall (fun c => is_digit c = true) ds -> digits ds a = fold_left (fun a c => (10 * a + Z.of_N (code c - 48))%Z) ds a.
Proof. intro H. revert a. induction H as [|c ds Hc _ IH]; intro a; [reflexivity|]. cbn [digits fold_left]. rewrite Hc. apply IH. Qed.
Lemma fold_nonneg ds a : (0 <= a)%Z -> (0 <= fold_left (fun a c => (10 * a + Z.of_N (code c - 48))%Z) ds a)%Z.
Proof. revert a; induction ds as [|c ds IH]; intros a H; cbn [fold_left]; [exact H|]. apply IH. lia. Qed.
Lemma stoi_numeral ds : numeral ds -> stoi ds = if (decimal ds <? 2 ^ 31)%Z then Ok (decimal ds) else Throw ExStd.
Proof.
  intros [H0 HF]. pose proof (digits_fold ds 0 HF) as HD. fold (decimal ds) in HD. pose proof (fold_nonneg ds 0 ltac:(lia)) as HP. fold (decimal ds) in HP.
  unfold stoi. destruct ds as [|c ds]; [contradiction|]. inversion HF as [|? ? Hc HT]; subst. pose proof (digit_range c Hc) as Hr.
  assert (HS : is_space c = false). { unfold is_space. apply orb_false_intro; [apply andb_false_intro2; apply N.leb_gt; lia|apply N.eqb_neq; lia]. }
  cbn [dropwhile]. rewrite HS.
  destruct (Ascii.eqb_spec c "-") as [->|_]; [discriminate|]. destruct (Ascii.eqb_spec c "+") as [->|_]; [discriminate|].
  rewrite Hc, HD. rewrite Z.mul_1_l. replace (- 2 ^ 31 <=? decimal (c :: ds))%Z with true; [reflexivity|]. symmetry. apply Z.leb_le. lia.
Qed.
Lemma lower_app a b : lower (a ++ b) = lower a ++ lower b. Proof. apply map_app. Qed.
Lemma startswith_nil s : startswith s [] = true. Proof. now destruct s. Qed.
Lemma create_numbered w mk q ds : In (w, mk) numbered_names -> lower q = stm w -> numeral ds ->
  create_time_scheme (q ++ ds) = if (decimal ds <? 2 ^ 31)%Z then Ok (mk (Z.to_nat (decimal ds))) else Throw ExStd.
Proof.
  intros H L HN. assert (LQ : length q = length (stm w)) by (rewrite <- L; symmetry; apply map_length).
  assert (SK : skipn (length (stm w)) (q ++ ds) = ds). { rewrite <- LQ, skipn_app, skipn_all, Nat.sub_diag. reflexivity. }
  assert (IT : iters_of (q ++ ds) (length (stm w)) = if (decimal ds <? 2 ^ 31)%Z then Ok (Z.to_nat (decimal ds)) else Throw ExStd).
  { unfold iters_of. rewrite SK, (stoi_numeral ds HN). destruct (decimal ds <? 2 ^ 31)%Z eqn:E; [|reflexivity]. cbn [obind]. unfold to_unsigned.
    rewrite Z.mod_small; [reflexivity|]. apply Z.ltb_lt in E. pose proof (fold_nonneg ds 0 ltac:(lia)) as HP. fold (decimal ds) in HP. lia. }
  unfold create_time_scheme. rewrite lower_app, L, (lower_digits ds (proj2 HN)).
  cbn in H. repeat (destruct H as [H|H]; [injection H as <- <-; cbn -[iters_of decimal Z.ltb Z.pow] in IT; cbn -[iters_of decimal Z.ltb Z.pow]; rewrite startswith_nil, IT; destruct (decimal ds <? 2 ^ 31)%Z; reflexivity|]). contradiction.
Qed.
Lemma startswith_split p s : startswith s p = true -> exists r, s = p ++ r.
Proof.
  revert s; induction p as [|x p IH]; intros s H; [now exists s|]. destruct s as [|y s]; [discriminate|]. cbn in H. apply andb_prop in H as [H1 H2].
  apply Ascii.eqb_eq in H1. destruct (IH s H2) as (r & ->). exists r. cbn. congruence.
Qed.
Lemma create_unknown name : (forall w c, In (w, c) (fixed_names ++ local_names) -> lower name <> stm w) ->
  (forall w mk r, In (w, mk) numbered_names -> lower name <> stm w ++ r) -> create_time_scheme name = Throw ExInvalidValue.
Proof.
  intros HF HN. unfold create_time_scheme.
  assert (E1 : forall w c, In (w, c) (fixed_names ++ local_names) -> str_eqb (lower name) (stm w) = false).
  { intros w c H. destruct (str_eqb (lower name) (stm w)) eqn:E; [|reflexivity]. apply str_eqb_eq in E. now apply HF in H. }
  assert (E2 : forall w mk, In (w, mk) numbered_names -> startswith (lower name) (stm w) = false).
  { intros w mk H. destruct (startswith (lower name) (stm w)) eqn:E; [|reflexivity]. apply startswith_split in E as (r & E). now apply (HN w mk r) in H. }
  cbv zeta.
  rewrite (E1 "euler"%string Euler), (E1 "leuler"%string LocalEuler), (E1 "heun"%string Heun), (E1 "rk2"%string RK2), (E1 "rk4"%string RK4),
    (E1 "ab2"%string (AB 2 false)), (E1 "ab3"%string (AB 3 false)), (E1 "ab4"%string (AB 4 false)),
    (E1 "lab2"%string (AB 2 true)), (E1 "lab3"%string (AB 3 true)), (E1 "lab4"%string (AB 4 true)) by (cbn; tauto).
  rewrite (E2 "beuler"%string (fun n => ImplicitEuler n 1%R)), (E2 "midpoint"%string (fun n => ImplicitEuler n 0.5%R)), (E2 "anderson"%string (fun n => AndersonEuler n 0.5%R)),
    (E2 "aca"%string (fun n => Newmark n 0.5%R 0.25%R)), (E2 "wilson"%string (fun n => Wilson n 1.37%R)) by (cbn; tauto). reflexivity.
Qed.
Lemma create_no_number w mk q r : In (w, mk) numbered_names -> lower q = stm w -> (forall c r', r = c :: r' -> is_digit c = false /\ is_space c = false /\ c <> "-"%char /\ c <> "+"%char) ->
  create_time_scheme (q ++ r) = Throw ExInvalidValue.
Proof.
  intros H L HR. assert (LQ : length q = length (stm w)) by (rewrite <- L; symmetry; apply map_length).
  assert (SK : skipn (length (stm w)) (q ++ r) = r). { rewrite <- LQ, skipn_app, skipn_all, Nat.sub_diag. reflexivity. }
  assert (IT : iters_of (q ++ r) (length (stm w)) = Throw ExInvalidValue).
  { unfold iters_of. rewrite SK. unfold stoi. destruct r as [|c r]; [reflexivity|]. destruct (HR c r eq_refl) as (A1 & A2 & A3 & A4). cbn [dropwhile]. rewrite A2.
    destruct (Ascii.eqb_spec c "-"); [contradiction|]. destruct (Ascii.eqb_spec c "+"); [contradiction|]. rewrite A1. reflexivity. }
  unfold create_time_scheme. rewrite lower_app, L. 
  cbn in H. repeat (destruct H as [H|H]; [injection H as <- <-; cbn -[iters_of lower] in IT; cbn -[iters_of lower]; rewrite startswith_nil, IT; reflexivity|]). contradiction.
Qed.
Lemma create_accepts_junk : exists n, create_time_scheme (stm "beuler-1") = Ok (ImplicitEuler n 1%R) /\ Z.of_nat n = (2 ^ 32 - 1)%Z.
Proof.
  exists (to_unsigned (-1)). split; [reflexivity|]. unfold to_unsigned. rewrite Z2Nat.id; [reflexivity|]. vm_compute. discriminate.
Qed.

(** calculation mask *)
Open Scope R_scope.
Lemma set_mask_cases dt0 c dt : (set_mask dt0 c dt = (dt, true) /\ dt0 <= c + dt) \/ (set_mask dt0 c dt = (c + dt, false) /\ c + dt < dt0).
Proof. unfold set_mask. destruct (Rge_dec (c + dt) dt0); [left|right]; split; try reflexivity; lra. Qed.
(** after a computed step of size d the counter is d *)
Lemma mask_later dt0 c dts : forall pre d m post, mask_run dt0 c dts = pre ++ (d, m) :: post ->
  (exists a d0 b, pre = a ++ (d0, true) :: b /\ Forall (fun e => snd e = false) b /\ (m = true <-> dt0 <= d0 + rsuml (map fst b) + d)) \/
  (Forall (fun e => snd e = false) pre /\ (m = true <-> dt0 <= c + rsuml (map fst pre) + d)).
Proof.
  revert c; induction dts as [|dt dts IH]; intros c pre d m post H; cbn in H; [destruct pre; discriminate|].
  destruct (set_mask_cases dt0 c dt) as [[E L]|[E L]]; rewrite E in H.
  - destruct pre as [|e pre]; cbn in H; injection H as <- H.
    + right. split; [constructor|]. subst m. cbn. split; [lra|reflexivity].
    + destruct (IH dt pre d m post H) as [(a & d0 & b & -> & Fb & Hm)|(Fp & Hm)]; left.
      * exists ((dt, true) :: a), d0, b. split; [reflexivity|split; assumption].
      * exists [], dt, pre. split; [reflexivity|split; assumption].
  - destruct pre as [|e pre]; cbn in H; injection H as <- H.
    + right. split; [constructor|]. subst m. cbn. split; [discriminate|lra].
    + destruct (IH (c + dt) pre d m post H) as [(a & d0 & b & -> & Fb & Hm)|(Fp & Hm)].
      * left. exists ((dt, false) :: a), d0, b. split; [reflexivity|split; assumption].
      * right. split; [constructor; [reflexivity|exact Fp]|]. rewrite Hm. change (rsuml (map fst ((dt, false) :: pre))) with (dt + rsuml (map fst pre)). split; lra.
Qed.
Lemma line_first dt_line dt dts : 0 <= dt_line -> 0 <= dt -> exists r, mask_run (line_dt0 dt_line) (line_cnt dt_line) (dt :: dts) = (dt, true) :: r.
Proof.
  intros H0 H. cbn [mask_run]. destruct (set_mask_cases (line_dt0 dt_line) (line_cnt dt_line) dt) as [[-> _]|[_ L]]; [eexists; reflexivity|].
  unfold line_dt0, line_cnt in L. lra.
Qed.
Lemma line_mask dt_line dts pre d m post : 0 <= dt_line -> Forall (fun x => 0 <= x) dts ->
  mask_run (line_dt0 dt_line) (line_cnt dt_line) dts = pre ++ (d, m) :: post ->
  (pre = [] /\ m = true) \/
  exists a d0 b, pre = a ++ (d0, true) :: b /\ Forall (fun e => snd e = false) b /\ (m = true <-> 0.999 * dt_line <= d0 + rsuml (map fst b) + d).
Proof.
  intros H0 HF H. destruct (mask_later _ _ _ _ _ _ _ H) as [K|(Fp & Hm)]; [now right|]. left.
  destruct dts as [|dt dts]; [cbn in H; destruct pre; discriminate|]. inversion HF; subst.
  destruct (line_first dt_line dt dts H0 H3) as (r & E). rewrite E in H.
  destruct pre as [|e pre]; cbn in H; injection H as <- H; [now split|]. inversion Fp; subst. discriminate.
Qed.
Lemma other_mask dts : Forall (fun x => 0 <= x) dts -> mask_run other_dt0 other_cnt dts = map (fun d => (d, true)) dts.
Proof.
  intro H. assert (G : forall c, 0 <= c -> mask_run other_dt0 c dts = map (fun d => (d, true)) dts).
  { induction H as [|d dts Hd _ IH]; intros c Hc; [reflexivity|]. cbn. destruct (set_mask_cases other_dt0 c d) as [[-> _]|[_ L]]; [|unfold other_dt0 in L; lra].
    f_equal. apply IH, Hd. }
  apply G. unfold other_cnt. lra.
Qed.
