(** The operators of State.cpp on states of one shape, and the exactness of the schemes. *)
From Coq Require Import Reals List Arith Bool Lra Lia.
From Verif Require Import MErr MVec MInterp PInterp MStateOps SStateOps PStateOps MScheme SScheme PScheme PSchemeTot.
Import ListNotations.
Open Scope R_scope.

Lemma zip_shape {A} (n n' : A -> nat) (f : A -> A -> outcome A) (a b : list A) :
  (forall x y, n x = n y -> n' x = n x -> n' y = n y -> exists z, f x y = Ok z /\ n z = n x /\ n' z = n z) ->
  map n a = map n b -> Forall (fun x => n' x = n x) a -> Forall (fun x => n' x = n x) b ->
  exists c, zipw f a b = Ok c /\ map n c = map n a /\ Forall (fun x => n' x = n x) c.
Proof.
  intros Hf. revert b; induction a as [|x a IH]; intros [|y b] H Ha Hb; try discriminate.
  - exists []. repeat split. constructor.
  - injection H as Hn H. inversion Ha; inversion Hb; subst.
    destruct (Hf x y) as (z & Hz & Hnz & Hnz'); try assumption.
    destruct (IH b H) as (c & Hc & Hm & HF); try assumption.
    exists (z :: c). cbn [zipw]. rewrite Hz. cbn [obind]. rewrite Hc. cbn [obind map]. split; [reflexivity|].
    split; [now rewrite Hnz, Hm|now constructor].
Qed.
Lemma lnewmark_ok dt g be (x y : dlst) : length (dvel x) = length (dvel y) -> length (dacc x) = length (dvel x) ->
  length (dacc y) = length (dvel y) -> exists z, lnewmark x y dt g be = Ok z /\ length (dvel z) = length (dvel x) /\ length (dacc z) = length (dvel z).
Proof.
  intros A B C. unfold lnewmark. rewrite !take_all by lia. cbn [obind].
  rewrite zipw_ok2 by (rewrite map_length, combine_length; lia). cbn [obind]. rewrite zipw_ok2 by lia. cbn [obind].
  eexists; split; [reflexivity|]. cbn. rewrite !map_length, !combine_length, !map_length, !combine_length. lia.
Qed.
Lemma lwilson_ok tau dt (x y : dlst) : length (dvel x) = length (dvel y) -> length (dacc x) = length (dvel x) ->
  length (dacc y) = length (dvel y) -> exists z, lwilson x y tau dt = Ok z /\ length (dvel z) = length (dvel x) /\ length (dacc z) = length (dvel z).
Proof.
  intros A B C. unfold lwilson. rewrite !take_all by lia. cbn [obind].
  rewrite zipw_ok2 by (rewrite map_length, combine_length; lia). cbn [obind]. rewrite zipw_ok2 by lia. cbn [obind].
  eexists; split; [reflexivity|]. cbn. rewrite !map_length, !combine_length, !map_length, !combine_length. lia.
Qed.
Lemma zlen {A B C} (f : A -> B -> C) a b : length a = length b -> length (map (fun p => f (fst p) (snd p)) (combine a b)) = length a.
Proof. intro. rewrite map_length, combine_length. lia. Qed.

Lemma mnewmark_ok sh a b dt g be : okD sh a -> okD sh b -> exists c, mnewmark_d a b dt g be = Ok c /\ okD sh c.
Proof.
  intros [Ra Sa] [Rb Sb]. unfold mnewmark_d. assert (HS : shaped a = shaped b) by congruence.
  unfold shaped in HS. injection HS as H1 H2 H3 H4. rewrite czip_len by (eapply map_len; eassumption).
  destruct (zip_shape (fun l => length (dvel l)) (fun l => length (dacc l)) (fun x y : dlst => lnewmark x y dt g be) (d_lines a) (d_lines b)) as (l & El & Ml & Fl); try assumption.
  { intros; now apply lnewmark_ok. }
  match goal with |- context [zipw ?f (d_lines a) (d_lines b)] => replace (zipw f (d_lines a) (d_lines b)) with (Ok l) by (symmetry; exact El) end. cbn [obind]. rewrite !czip_len by assumption. rewrite !zipw_ok2 by assumption. cbn [obind].
  eexists; split; [reflexivity|]. split; [exact Fl|]. rewrite <- Sa. unfold shaped; cbn [d_lines d_points d_rods d_bodies].
  apply quad; [exact Ml| | |]; rewrite map_length, combine_length; lia.
Qed.
Lemma mwilson_ok sh a b tau dt : okD sh a -> okD sh b -> exists c, mwilson_d a b tau dt = Ok c /\ okD sh c.
Proof.
  intros [Ra Sa] [Rb Sb]. unfold mwilson_d. assert (HS : shaped a = shaped b) by congruence.
  unfold shaped in HS. injection HS as H1 H2 H3 H4. rewrite czip_len by (eapply map_len; eassumption).
  destruct (zip_shape (fun l => length (dvel l)) (fun l => length (dacc l)) (fun x y : dlst => lwilson x y tau dt) (d_lines a) (d_lines b)) as (l & El & Ml & Fl); try assumption.
  { intros; now apply lwilson_ok. }
  match goal with |- context [zipw ?f (d_lines a) (d_lines b)] => replace (zipw f (d_lines a) (d_lines b)) with (Ok l) by (symmetry; exact El) end. cbn [obind]. rewrite !czip_len by assumption. rewrite !zipw_ok2 by assumption. cbn [obind].
  eexists; split; [reflexivity|]. split; [exact Fl|]. rewrite <- Sa. unfold shaped; cbn [d_lines d_points d_rods d_bodies].
  apply quad; [exact Ml| | |]; rewrite map_length, combine_length; lia.
Qed.
Lemma mstat_ok sh d dt : okD sh d -> exists e c, mstat_d d dt = Ok (e, c) /\ okD sh c.
Proof.
  intros [Rd Sd]. unfold mstat_d.
  assert (H : exists l, omap (fun x => lstat x dt) (d_lines d) = Ok l /\
     map (fun l => length (dvel l)) (map snd l) = map (fun l => length (dvel l)) (d_lines d) /\
     Forall (fun l : dlst => length (dacc l) = length (dvel l)) (map snd l)).
  { unfold regulard in Rd. induction Rd as [|x ls Hx _ (l & El & Ml & Rl)]; [exists []; repeat split; constructor|].
    cbn [omap]. unfold lstat at 1. rewrite take_all by exact Hx. cbn [obind]. rewrite El. cbn [obind]. eexists; split; [reflexivity|].
    cbn [map snd]. rewrite Ml. cbn [dvel]. rewrite map_length, Hx. split; [reflexivity|]. constructor; [|exact Rl].
    cbn [dvel dacc]. rewrite map_length, app_length, repeat_length, skipn_length. lia. }
  destruct H as (l & El & Ml & Rl). rewrite El. cbn [obind]. do 2 eexists. split; [reflexivity|]. split; [exact Rl|].
  rewrite <- Sd. unfold shaped; cbn [d_lines d_points d_rods d_bodies]. apply quad; [exact Ml| | |]; now rewrite !map_length.
Qed.

Lemma system_closed sh : closed system_ops (okS sh) (okD sh).
Proof.
  constructor; cbn [system_ops o_sadd o_ssub o_smix o_scale o_dadd o_dsub o_dmix o_newmark o_wilson o_stat].
  - intros a b [Ra Sa] [Rb Sb]. destruct (madd_s_ok a b Ra Rb) as (c & E & _ & Sc & Rc & _); [congruence|]. exists c. repeat split; auto. congruence.
  - intros a b [Ra Sa] [Rb Sb]. destruct (msub_s_ok a b Ra Rb) as (c & E & Sc & Rc & _); [congruence|]. exists c. repeat split; auto. congruence.
  - intros a b f [Ra Sa] [Rb Sb]. destruct (mmix_s_ok a b f Ra Rb) as (c & E & _ & Sc & Rc); [congruence|]. exists c. repeat split; auto. congruence.
  - intros d k [Rd Sd]. destruct (mscale_d_ok d k Rd) as (c & E & _ & Sc & Rc). exists c. repeat split; auto. congruence.
  - intros a b [Ra Sa] [Rb Sb]. destruct (madd_d_spec a b Ra Rb) as [H _]. destruct H as (c & E & _ & Sc & Rc & _); [congruence|]. exists c. repeat split; auto. congruence.
  - intros a b [Ra Sa] [Rb Sb]. destruct (msub_d_spec a b Ra Rb) as [H _]. destruct H as (c & E & _ & Sc & Rc & _); [congruence|]. exists c. repeat split; auto. congruence.
  - intros a b f [Ra Sa] [Rb Sb]. destruct (mmix_d_ok a b f Ra Rb) as (c & E & _ & Sc & Rc & _); [congruence|]. exists c. repeat split; auto. congruence.
  - intros; now apply mnewmark_ok.
  - intros; now apply mwilson_ok.
  - intros; now apply mstat_ok.
Qed.

(** numbers: entry i of a flattened state or derivative *)
Lemma each_nth op a b i : length a = length b -> op 0 0 = 0 -> nth i (each op a b) 0 = op (nth i a 0) (nth i b 0).
Proof.
  intros H H0. unfold each. destruct (Nat.lt_ge_cases i (length a)) as [L|L].
  - rewrite (nth_indep _ 0 ((fun p => op (fst p) (snd p)) (0, 0))) by (rewrite map_length, combine_length; lia).
    rewrite (map_nth (fun p => op (fst p) (snd p))). rewrite combine_nth by exact H. reflexivity.
  - rewrite !nth_overflow; [symmetry; exact H0| | |]; try lia. rewrite map_length, combine_length. lia.
Qed.
Lemma add_sc sh a b c : okS sh a -> okS sh b -> madd_s a b = Ok c -> forall i, sc c i = sc a i + sc b i.
Proof.
  intros [Ra Sa] [Rb Sb] E i. destruct (madd_s_ok a b Ra Rb) as (c' & E' & F & _ & _ & L); [congruence|].
  rewrite E in E'. injection E' as <-. unfold sc. rewrite F. apply each_nth; [exact L|lra].
Qed.
Lemma scale_sc d k c : regulard d -> mscale_d d k = Ok c -> forall i, sc c i = k * dc d i.
Proof.
  intros Rd E i. destruct (mscale_d_ok d k Rd) as (c' & E' & F & _). rewrite E in E'. injection E' as <-.
  unfold sc, dc. rewrite F. rewrite <- (Rmult_0_r k) at 1. now rewrite (map_nth (Rmult k)).
Qed.
Lemma dadd_dc sh a b c : okD sh a -> okD sh b -> madd_d a b = Ok c -> forall i, dc c i = dc a i + dc b i.
Proof.
  intros [Ra Sa] [Rb Sb] E i. destruct (madd_d_spec a b Ra Rb) as [H _]. destruct H as (c' & E' & F & _ & _ & L); [congruence|].
  rewrite E in E'. injection E' as <-. unfold dc. rewrite F. apply each_nth; [exact L|lra].
Qed.
Lemma dsub_dc sh a b c : okD sh a -> okD sh b -> msub_d a b = Ok c -> forall i, dc c i = dc a i - dc b i.
Proof.
  intros [Ra Sa] [Rb Sb] E i. destruct (msub_d_spec a b Ra Rb) as [H _]. destruct H as (c' & E' & F & _ & _ & L); [congruence|].
  rewrite E in E'. injection E' as <-. unfold dc. rewrite F. apply each_nth; [exact L|lra].
Qed.
Lemma sub_sc sh a b c : okS sh a -> okS sh b -> msub_s a b = Ok c ->
  snd (fst sh) = 0%nat -> snd sh = 0%nat -> forall i, sc c i = sc a i - sc b i.
Proof.
  intros [Ra Sa] [Rb Sb] E H3 H4 i. unfold shape in Sa. subst sh. cbn in H3, H4.
  apply length_zero_iff_nil in H3. apply length_zero_iff_nil in H4.
  destruct (sub_partial a b Ra Rb H3 H4) as (c' & E' & F & _); [symmetry; exact Sb|].
  rewrite E in E'. injection E' as <-. unfold sc. rewrite F. apply each_nth; [|lra].
  destruct (madd_s_ok a b Ra Rb) as (_ & _ & _ & _ & _ & L); [symmetry; exact Sb|exact L].
Qed.
Lemma l3s_len l : length (flat_map l3 l) = (3 * length l)%nat.
Proof. induction l as [|x l IH]; [reflexivity|]. cbn [flat_map]. rewrite app_length, IH. cbn [length l3]. lia. Qed.
Lemma lines_len (ls : list lst) : Forall (fun l : lst => length (vel l) = length (pos l)) ls ->
  length (flat_map flat_line ls) = (6 * list_sum (map (fun l : lst => length (pos l)) ls))%nat.
Proof.
  induction 1 as [|x ls Hx _ IH]; [reflexivity|]. cbn [flat_map map]. rewrite app_length, IH. unfold flat_line.
  rewrite app_length, !l3s_len, Hx. change (list_sum (?a :: ?l)) with (a + list_sum l)%nat. lia.
Qed.
Lemma points_len (ls : list pst) : length (flat_map flat_point ls) = (6 * length ls)%nat.
Proof. induction ls as [|x ls IH]; [reflexivity|]. cbn [flat_map]. rewrite app_length, IH. cbn [flat_point app length l3]. lia. Qed.
Lemma head_len sh s : okS sh s -> length (flat_map flat_line (s_lines s) ++ flat_map flat_point (s_points s)) =
  (6 * (list_sum (fst (fst (fst sh))) + snd (fst (fst sh))))%nat.
Proof. intros [R1 <-]. rewrite app_length, (lines_len _ R1), points_len. unfold shape; cbn [fst snd]. rewrite Nat.mul_add_distr_l. reflexivity. Qed.
Lemma each_len op a b : length a = length b -> length (each op a b) = length a.
Proof. intro. unfold each. rewrite map_length, combine_length. lia. Qed.
Lemma rigid_len (a b : list rst) : length a = length b -> length (flat_map flat_rigid a) = length (flat_map flat_rigid b).
Proof.
  revert b; induction a as [|x a IH]; intros [|y b] H; try discriminate; [reflexivity|]. injection H as H.
  cbn [flat_map]. rewrite !app_length, (IH b H). reflexivity.
Qed.
Lemma sub_sc_all sh a b c : okS sh a -> okS sh b -> msub_s a b = Ok c ->
  forall i, sc c i = if rigid_entry sh i then sc a i + sc b i else sc a i - sc b i.
Proof.
  intros Ha Hb E i. pose proof (head_len sh a Ha) as La. pose proof (head_len sh b Hb) as Lb.
  destruct Ha as [Ra Sa], Hb as [Rb Sb]. assert (HS : shape a = shape b) by congruence.
  destruct (msub_s_ok a b Ra Rb HS) as (c' & E' & Sc & Rc & G1 & G2 & G3 & G4 & L1 & L2). rewrite E in E'. injection E' as <-.
  unfold shape in HS. injection HS as H1 H2 H3 H4.
  assert (FA : forall s, flat s = (flat_map flat_line (s_lines s) ++ flat_map flat_point (s_points s)) ++
     (flat_map flat_rigid (s_rods s) ++ flat_map flat_rigid (s_bodies s))) by (intro; unfold flat; now rewrite app_assoc).
  unfold sc. rewrite !FA, G1, G2, G3, G4. rewrite <- !each_app by (try assumption; apply rigid_len; assumption).
  unfold rigid_entry. destruct (Nat.leb_spec (6 * (list_sum (fst (fst (fst sh))) + snd (fst (fst sh))))%nat i) as [L|L].
  - rewrite (app_nth2 (each _ _ _)), (app_nth2 (flat_map flat_line (s_lines a) ++ _)), (app_nth2 (flat_map flat_line (s_lines b) ++ _)) by (try rewrite each_len; lia). rewrite each_len by lia. rewrite La, Lb. apply each_nth; [|lra].
    rewrite !app_length. now rewrite (rigid_len _ _ H3), (rigid_len _ _ H4).
  - rewrite (app_nth1 (each _ _ _)), (app_nth1 (flat_map flat_line (s_lines a) ++ _)), (app_nth1 (flat_map flat_line (s_lines b) ++ _)) by (try rewrite each_len; lia). apply each_nth; [lia|lra].
Qed.
