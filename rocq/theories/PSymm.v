(** Time schemes and symmetries: related objects and states stay related. *)
From Coq Require Import Reals List Arith ZArith Bool Lra Lia.
From Verif Require Import MErr MVec MInterp MStateOps MScheme.
Import ListNotations.
Open Scope R_scope.

Definition orel {A B} (P : A -> B -> Prop) (a : outcome A) (b : outcome B) : Prop :=
  match a, b with Ok x, Ok y => P x y | Throw e, Throw e' => e = e' | UB, UB => True | Diverges, Diverges => True | _, _ => False end.
Lemma orel_bind {A A' B B'} (P : A -> A' -> Prop) (Q : B -> B' -> Prop) a a' k k' :
  orel P a a' -> (forall x x', P x x' -> orel Q (k x) (k' x')) -> orel Q (obind a k) (obind a' k').
Proof. intros H K. destruct a, a'; cbn in *; try contradiction; auto. Qed.
Lemma orel_weak {A A'} (P Q : A -> A' -> Prop) a a' : (forall x x', P x x' -> Q x x') -> orel P a a' -> orel Q a a'.
Proof. intros H K. destruct a, a'; cbn in *; auto. Qed.
Lemma vget_rel {A A'} (P : A -> A' -> Prop) l l' i : Forall2 P l l' -> orel P (vget l i) (vget l' i).
Proof. intro H. revert i. induction H as [|x x' l l' Hx H IH]; intros [|i]; cbn; auto. apply IH. Qed.
Lemma vset_rel {A A'} (P : A -> A' -> Prop) l l' i x x' : Forall2 P l l' -> P x x' -> orel (Forall2 P) (vset l i x) (vset l' i x').
Proof.
  intros H Hx. revert i. induction H as [|y y' l l' Hy H IH]; intros [|i]; cbn; auto. specialize (IH i). destruct (vset l i x), (vset l' i x'); cbn in *; try contradiction; auto.
Qed.
Lemma vset_other {A} (l l1 : list A) i j x : vset l i x = Ok l1 -> length l1 = length l /\ vget l1 j = if Nat.eqb j i then Ok x else vget l j.
Proof.
  revert i j l1. induction l as [|y l IH]; intros [|i] j l1; cbn; intro E; try discriminate.
  - injection E as <-. split; [reflexivity|]. now destruct j.
  - destruct (vset l i x) as [l2| | |] eqn:EL; cbn in E; try discriminate. injection E as <-. destruct j as [|j].
    + split; [cbn; f_equal; exact (proj1 (IH i 0%nat l2 EL))|reflexivity].
    + destruct (IH i j l2 EL) as (A1 & A2). split; [cbn; f_equal; exact A1|exact A2].
Qed.

Section Rel.
Variables (S D Env : Type) (o : sops S D).
Variables (upd upd' : Env -> R -> R -> S -> outcome Env) (cal cal' : Env -> D -> outcome (Env * D)) (lim lim' : Env -> R -> R -> R).
Variables (setmask setmask' : Env -> R -> outcome Env) (conv : D -> D -> bool).
Variables (RS RZ : S -> S -> Prop) (RD : D -> D -> Prop) (RE : Env -> Env -> Prop).
Hypothesis Hadd : forall x x' z z', RS x x' -> RZ z z' -> orel RS (o_sadd o x z) (o_sadd o x' z').
Hypothesis Hsub : forall x x' z z', RS x x' -> RZ z z' -> orel RS (o_ssub o x z) (o_ssub o x' z').
Hypothesis Hmix : forall x x' y y' f, RS x x' -> RS y y' -> orel RS (o_smix o x y f) (o_smix o x' y' f).
Hypothesis Hscale : forall d d' k, RD d d' -> orel RZ (o_scale o d k) (o_scale o d' k).
Hypothesis Hdadd : forall d d' f f', RD d d' -> RD f f' -> orel RD (o_dadd o d f) (o_dadd o d' f').
Hypothesis Hdsub : forall d d' f f', RD d d' -> RD f f' -> orel RD (o_dsub o d f) (o_dsub o d' f').
Hypothesis Hdmix : forall d d' f f' k, RD d d' -> RD f f' -> orel RD (o_dmix o d f k) (o_dmix o d' f' k).
Hypothesis Hnm : forall d d' f f' a b c, RD d d' -> RD f f' -> orel RD (o_newmark o d f a b c) (o_newmark o d' f' a b c).
Hypothesis Hwi : forall d d' f f' a b, RD d d' -> RD f f' -> orel RD (o_wilson o d f a b) (o_wilson o d' f' a b).
Hypothesis Hst : forall d d' k, RD d d' -> orel (fun p p' => fst p = fst p' /\ RD (snd p) (snd p')) (o_stat o d k) (o_stat o d' k).
Hypothesis Hupd : forall e e' t l x x', RE e e' -> RS x x' -> orel RE (upd e t l x) (upd' e' t l x').
Hypothesis Hcal : forall e e' d d', RE e e' -> RD d d' -> orel (fun p p' => RE (fst p) (fst p') /\ RD (snd p) (snd p')) (cal e d) (cal' e' d').
Hypothesis Hlim : forall e e' a b, RE e e' -> lim e a b = lim' e' a b.
Notation ts := (tsch S D Env).
Notation TT := (tt S D Env). Notation TL := (tl S D Env). Notation EN := (env S D Env). Notation RR := (rr S D Env). Notation RDD := (rd S D Env).
(** the states in the first [k] places are related *)
Definition srel (k : nat) (s s' : ts) : Prop :=
  TT s = TT s' /\ TL s = TL s' /\ nst _ _ _ s = nst _ _ _ s' /\ err _ _ _ s = err _ _ _ s' /\ boost _ _ _ s = boost _ _ _ s' /\ RE (EN s) (EN s') /\ Forall2 RD (RDD s) (RDD s') /\
  length (RR s) = length (RR s') /\ forall i, (i < k)%nat -> orel RS (vget (RR s) i) (vget (RR s') i).
Lemma srel_weak k j s s' : (j <= k)%nat -> srel k s s' -> srel j s s'.
Proof. intros H (A & B & C & E & F & G & I & J & K). repeat split; auto. intros i Hi. apply K. lia. Qed.
Lemma orel_k k j a a' : (j <= k)%nat -> orel (srel k) a a' -> orel (srel j) a a'. Proof. intros H K. apply (orel_weak (srel k)); [intros; now apply (srel_weak k)|exact K]. Qed.
Ltac dst := match goal with H : srel _ ?s ?s' |- _ => destruct s, s', H as (?A & ?B & ?C & ?E & ?F & ?G & ?II & ?J & ?K); cbn [tt tl nst err boost env rd rr] in *; subst end.
Lemma get_r k s s' i : srel k s s' -> (i < k)%nat -> orel RS (vget (RR s) i) (vget (RR s') i). Proof. intros H Hi. dst. auto. Qed.
Lemma get_d k s s' i : srel k s s' -> orel RD (vget (RDD s) i) (vget (RDD s') i). Proof. intro H. dst. now apply vget_rel. Qed.
Lemma set_t_rel k s s' x x' : srel k s s' -> x = x' -> srel k (set_t _ _ _ s x) (set_t _ _ _ s' x'). Proof. intros H <-. dst. repeat split; auto. Qed.
Lemma set_nst_rel k s s' x x' : srel k s s' -> x = x' -> srel k (set_nst _ _ _ s x) (set_nst _ _ _ s' x'). Proof. intros H <-. dst. repeat split; auto. Qed.
Lemma set_err_rel k s s' x x' : srel k s s' -> x = x' -> srel k (set_err _ _ _ s x) (set_err _ _ _ s' x'). Proof. intros H <-. dst. repeat split; auto. Qed.
Lemma set_boost_rel k s s' x x' : srel k s s' -> x = x' -> srel k (set_boost _ _ _ s x) (set_boost _ _ _ s' x'). Proof. intros H <-. dst. repeat split; auto. Qed.
Lemma put_r_rel k s s' i x x' : srel k s s' -> (i <= k)%nat -> RS x x' -> orel (srel (Nat.max k (Datatypes.S i))) (put_r _ _ _ s i x) (put_r _ _ _ s' i x').
Proof.
  intros H Hi Hx. unfold put_r. destruct H as (A & B & C & E & F & G & I1 & J & K).
  assert (L : forall (l l' : list S), length l = length l' -> orel (fun _ _ => True) (vset l i x) (vset l' i x')).
  { clear. revert i. induction i as [|i IH]; intros [|y l] [|y' l'] E; try discriminate; cbn; auto. specialize (IH l l' ltac:(cbn in E; lia)). destruct (vset l i x), (vset l' i x'); cbn in *; auto. }
  specialize (L _ _ J). destruct (vset (RR s) i x) as [l| | |] eqn:E1, (vset (RR s') i x') as [l'| | |] eqn:E2; cbn in *; try contradiction; auto.
  repeat split; cbn; auto.
  - rewrite (proj1 (vset_other _ _ _ 0 _ E1)), (proj1 (vset_other _ _ _ 0 _ E2)). exact J.
  - intros j Hj. rewrite (proj2 (vset_other _ _ _ j _ E1)), (proj2 (vset_other _ _ _ j _ E2)). destruct (Nat.eqb_spec j i); [exact Hx|]. apply K. lia.
Qed.
Lemma put_d_rel k s s' i x x' : srel k s s' -> RD x x' -> orel (srel k) (put_d _ _ _ s i x) (put_d _ _ _ s' i x').
Proof. intros H Hx. unfold put_d. dst. apply (orel_bind (Forall2 RD)); [now apply vset_rel|]. intros l l' HL. repeat split; auto. Qed.
Lemma update_rel k s s' d i : srel k s s' -> (i < k)%nat -> orel (srel k) (update _ _ _ upd s d i) (update _ _ _ upd' s' d i).
Proof. intros H Hi. unfold update. apply (orel_bind RS); [now apply (get_r k)|]. intros x x' Hx. dst. apply (orel_bind RE); [now apply Hupd|]. intros e e' He. repeat split; auto. Qed.
Lemma calc_rel k s s' i : srel k s s' -> orel (srel k) (calc _ _ _ cal s i) (calc _ _ _ cal' s' i).
Proof. intro H. unfold calc. apply (orel_bind RD); [now apply (get_d k)|]. intros d d' Hd. dst. eapply orel_bind; [apply Hcal; eassumption|]. cbv beta. intros p p' (HE & HD). apply put_d_rel; [|exact HD]. repeat split; auto. Qed.
Lemma axpy_rel k s s' i a d f : srel k s s' -> (i <= k)%nat -> (a < k)%nat -> orel (srel (Nat.max k (Datatypes.S i))) (axpy _ _ _ o s i a d f) (axpy _ _ _ o s' i a d f).
Proof.
  intros H Hi Ha. unfold axpy. apply (orel_bind RS); [now apply (get_r k)|]. intros x x' Hx. apply (orel_bind RD); [now apply (get_d k)|]. intros y y' Hy. apply (orel_bind RZ); [now apply Hscale|]. intros z z' Hz. apply (orel_bind RS); [now apply Hadd|]. intros w w' Hw. now apply put_r_rel.
Qed.
Lemma copy_d_rel k s s' a b : srel k s s' -> orel (srel k) (copy_d _ _ _ s a b) (copy_d _ _ _ s' a b).
Proof. intro H. unfold copy_d. apply (orel_bind RD); [now apply (get_d k)|]. intros. now apply put_d_rel. Qed.
Lemma mix_d_rel k s s' a b f : srel k s s' -> orel (srel k) (mix_d _ _ _ o s a b f) (mix_d _ _ _ o s' a b f).
Proof. intro H. unfold mix_d. apply (orel_bind RD); [now apply (get_d k)|]. intros. apply (orel_bind RD); [now apply (get_d k)|]. intros. apply (orel_bind RD); [now apply Hdmix|]. intros. now apply put_d_rel. Qed.
Lemma finish_rel k s s' dt : srel k s s' -> (0 < k)%nat -> orel (srel k) (finish _ _ _ upd s dt) (finish _ _ _ upd' s' dt).
Proof. intros H Hk. unfold finish. eapply orel_bind; [apply (update_rel k); eassumption|]. cbv beta. intros x x' H'. cbn. destruct H' as (A & B & C & E & F & G & I1 & J & K). repeat split; cbn; auto. now rewrite B. Qed.
Lemma update_err (s : ts) d i (s1 : ts) : update _ _ _ upd s d i = Ok s1 -> err _ _ _ s1 = err _ _ _ s.
Proof. unfold update. destruct (vget _ _); cbn; try discriminate. destruct (upd _ _ _ _); cbn; try discriminate. intro E. injection E as <-. reflexivity. Qed.
Lemma calc_err (s : ts) i (s1 : ts) : calc _ _ _ cal s i = Ok s1 -> err _ _ _ s1 = err _ _ _ s.
Proof. unfold calc, put_d. destruct (vget _ _); cbn; try discriminate. destruct (cal _ _); cbn; try discriminate. destruct (vset _ _ _); cbn; try discriminate. intro E. injection E as <-. reflexivity. Qed.
Local Opaque finish copy_d put_d put_r update calc axpy mix_d.
Lemma tt_rel k s s' : srel k s s' -> TT s = TT s'. Proof. now intros (A & _). Qed.
Ltac sm := cbn [Nat.max].
Ltac go := repeat (first
  [ eapply orel_bind; [first [eapply update_rel; [eassumption|lia]|eapply calc_rel; eassumption|eapply axpy_rel; [first [eassumption|apply set_t_rel; [eassumption|f_equal; eapply tt_rel; eassumption]]|lia|lia]|eapply copy_d_rel; first [eassumption|apply set_t_rel; [eassumption|f_equal; eapply tt_rel; eassumption]]|eapply mix_d_rel; eassumption|eapply get_d; eassumption|eapply get_r; [eassumption|lia]|eapply Hadd; eassumption|eapply Hsub; eassumption|eapply Hscale; eassumption|eapply Hdadd; eassumption|eapply Hdsub; eassumption|eapply Hnm; eassumption|eapply Hwi; eassumption|eapply put_r_rel; [eassumption|lia|eassumption]]|cbv beta; intros; cbn [Nat.max] in *] ]).
Ltac fin := eapply (orel_k _ _); [|eapply finish_rel; [first [eassumption|apply set_t_rel; [eassumption|f_equal; eapply tt_rel; eassumption]]|lia]]; lia.

Lemma euler_rel s s' dt : srel 1 s s' -> orel (srel 1) (step_euler _ _ _ o upd cal s dt) (step_euler _ _ _ o upd' cal' s' dt).
Proof. intro H. unfold step_euler. go. fin. Qed.
Lemma heun_rel s s' dt : srel 1 s s' -> orel (srel 1) (step_heun _ _ _ o upd cal s dt) (step_heun _ _ _ o upd' cal' s' dt).
Proof. intro H. unfold step_heun. go. fin. Qed.
Lemma rk2_rel s s' dt : srel 1 s s' -> orel (srel 1) (step_rk2 _ _ _ o upd cal s dt) (step_rk2 _ _ _ o upd' cal' s' dt).
Proof. intro H. unfold step_rk2. go. fin. Qed.
Lemma rk4_rel s s' dt : srel 1 s s' -> orel (srel 1) (step_rk4 _ _ _ o upd cal s dt) (step_rk4 _ _ _ o upd' cal' s' dt).
Proof. intro H. unfold step_rk4. go. fin. Qed.
Lemma plus_rel k s s' x x' i f : srel k s s' -> RS x x' -> orel RS (plus_d _ _ _ o s x i f) (plus_d _ _ _ o s' x' i f).
Proof. intros H Hx. unfold plus_d. go. now apply Hadd. Qed.
Lemma minus_rel k s s' x x' i f : srel k s s' -> RS x x' -> orel RS (minus_d _ _ _ o s x i f) (minus_d _ _ _ o s' x' i f).
Proof. intros H Hx. unfold minus_d. go. now apply Hsub. Qed.
Lemma formula_rel k s s' x x' dt : srel k s s' -> RS x x' -> orel RS (ab_formula _ _ _ o s x dt) (ab_formula _ _ _ o s' x' dt).
Proof.
  intros H Hx. unfold ab_formula. replace (nst _ _ _ s') with (nst _ _ _ s) by apply H.
  destruct (nst _ _ _ s) as [|[|[|[|]]]]; repeat (first [eapply orel_bind; [first [eapply plus_rel; eassumption|eapply minus_rel; eassumption]|cbv beta; intros]|first [eapply plus_rel; eassumption|eapply minus_rel; eassumption]]).
Qed.
Lemma ab_rel order s s' dt : srel 1 s s' -> orel (srel 1) (step_ab _ _ _ o upd cal setmask order false s dt) (step_ab _ _ _ o upd' cal' setmask' order false s' dt).
Proof.
  intro H. unfold step_ab, ab_shift. go. eapply orel_bind. { go. eapply copy_d_rel. eassumption. } cbv beta. intros. cbn [andb obind]. go. eapply orel_bind; [eapply formula_rel; eassumption|]. cbv beta; intros. go.
  eapply (orel_k 1); [lia|]. apply finish_rel; [|lia]. apply set_t_rel; [apply set_nst_rel; [eassumption|]|].
  - f_equal. f_equal. match goal with Q : srel 1 _ _ |- nst _ _ _ ?a = nst _ _ _ ?b => match type of Q with srel 1 a b => apply Q end end.
  - f_equal. cbn. match goal with Q : srel 1 ?a ?b |- TT ?a = TT ?b => apply Q end.
Qed.
Lemma ie_loop_rel iters c f dt n s s' : srel 1 s s' -> orel (srel 1) (ie_loop _ _ _ o upd cal iters c f dt n s) (ie_loop _ _ _ o upd' cal' iters c f dt n s').
Proof.
  revert s s'. induction n as [|n IH]; intros s s' H; cbn [ie_loop]; [exact H|]. go. eapply orel_bind with (P := srel 2).
  - destruct (0 <? n)%nat; [|cbn; assumption]. go. eapply copy_d_rel; eassumption.
  - intros. apply IH. now apply (srel_weak 2); [lia|].
Qed.
Lemma an_loop_rel iters c f dt n s s' : (forall a a' b b', RD a a' -> RD b b' -> conv a b = conv a' b') -> srel 1 s s' -> orel (srel 1) (an_loop _ _ _ o upd cal conv iters c f dt n s) (an_loop _ _ _ o upd' cal' conv iters c f dt n s').
Proof.
  intro HC. revert s s'. induction n as [|n IH]; intros s s' H; cbn [an_loop]; [exact H|]. go. eapply orel_bind with (P := srel 2).
  - destruct (0 <? n)%nat; [|cbn; assumption]. go. eapply copy_d_rel; eassumption.
  - intros. match goal with |- orel _ (if conv ?a ?b then _ else _) (if conv ?a' ?b' then _ else _) => rewrite (HC a a' b b') by assumption end. destruct (conv _ _); [cbn; now apply (srel_weak 2); [lia|]|]. apply IH. now apply (srel_weak 2); [lia|].
Qed.
Lemma nm_apply_rel k g b dt s s' : srel k s s' -> (0 < k)%nat -> orel (srel (Nat.max k 2)) (nm_apply _ _ _ o g b dt s) (nm_apply _ _ _ o g b dt s').
Proof. intros H Hk. unfold nm_apply. go. eapply put_r_rel; [eassumption|lia|eassumption]. Qed.
Lemma wi_apply_rel k tau tdt s s' : srel k s s' -> (0 < k)%nat -> orel (srel (Nat.max k 2)) (wi_apply _ _ _ o tau tdt s) (wi_apply _ _ _ o tau tdt s').
Proof. intros H Hk. unfold wi_apply. go. eapply put_r_rel; [eassumption|lia|eassumption]. Qed.
Lemma nm_loop_rel iters c g b dt n s s' : srel 1 s s' -> orel (srel 1) (nm_loop _ _ _ o upd cal iters c g b dt n s) (nm_loop _ _ _ o upd' cal' iters c g b dt n s').
Proof.
  revert s s'. induction n as [|n IH]; intros s s' H; cbn [nm_loop]; [exact H|]. eapply orel_bind; [eapply (nm_apply_rel 1); [eassumption|lia]|]. cbn [Nat.max]. intros. go. eapply orel_bind with (P := srel 2).
  - destruct (0 <? n)%nat; [|cbn; assumption]. go. eapply copy_d_rel; eassumption.
  - intros. apply IH. now apply (srel_weak 2); [lia|].
Qed.
Lemma wi_loop_rel iters c tdt n s s' : srel 1 s s' -> orel (srel 1) (wi_loop _ _ _ o upd cal iters c tdt n s) (wi_loop _ _ _ o upd' cal' iters c tdt n s').
Proof.
  revert s s'. induction n as [|n IH]; intros s s' H; cbn [wi_loop]; [exact H|]. eapply orel_bind; [eapply (wi_apply_rel 1); [eassumption|lia]|]. cbn [Nat.max]. intros. go. eapply orel_bind with (P := srel 2).
  - destruct (0 <? n)%nat; [|cbn; assumption]. go. eapply copy_d_rel; eassumption.
  - intros. apply IH. now apply (srel_weak 2); [lia|].
Qed.
Lemma accept_rel s s' : srel 2 s s' -> orel (srel 2) (accept _ _ _ s) (accept _ _ _ s').
Proof. intro H. unfold accept. go. eapply copy_d_rel; eassumption. Qed.
Lemma make_stat_rel k s s' dt : srel k s s' -> orel (srel k) (make_stat _ _ _ o s dt) (make_stat _ _ _ o s' dt).
Proof.
  intro H. unfold make_stat. eapply orel_bind; [eapply get_d; eassumption|]. cbv beta; intros. eapply orel_bind; [apply Hst; eassumption|]. cbv beta. intros ed ed' (E1 & E2). eapply orel_bind; [apply put_d_rel; eassumption|]. cbv beta. intros. cbn. now apply set_err_rel.
Qed.
Local Opaque make_stat accept nm_apply wi_apply ie_loop an_loop nm_loop wi_loop plus_d minus_d ab_formula.
(** the second place of the states counts after the first stationary step *)
Definition places (c : scheme) (s : ts) : nat := match c with Stationary => if Req_EM_T (err _ _ _ s) 0 then 1%nat else 2%nat | _ => 1%nat end.
Lemma orel_eq {A B} (P : A -> B -> Prop) a b : orel P a b -> orel (fun x y => P x y /\ a = Ok x) a b.
Proof. destruct a, b; cbn; auto. Qed.
Lemma st_rel s s' dt : srel (places Stationary s) s s' -> orel (srel 2) (step_st _ _ _ o upd cal lim s dt) (step_st _ _ _ o upd' cal' lim' s' dt).
Proof.
  intro H. unfold step_st. cbn [places] in H. set (k := if Req_EM_T (err _ _ _ s) 0 then 1%nat else 2%nat) in *. assert (Hk : (0 < k)%nat) by (unfold k; destruct (Req_EM_T _ _); lia).
  eapply orel_bind; [apply orel_eq; apply (update_rel k); eassumption|]. cbv beta. intros s1 s1' (H1 & E1). apply update_err in E1.
  eapply orel_bind; [apply orel_eq; apply (calc_rel k); eassumption|]. cbv beta. intros s2 s2' (H2 & E2). apply calc_err in E2.
  assert (Ee : err _ _ _ s2' = err _ _ _ s2) by (symmetry; apply H2). rewrite Ee. cbv zeta. rewrite E2, E1.
  eapply orel_bind; [apply (make_stat_rel k); eassumption|]. cbv beta. intros s3 s3' H3. assert (Ee3 : err _ _ _ s3' = err _ _ _ s3) by (symmetry; apply H3). rewrite Ee3. assert (Eb3 : boost _ _ _ s3' = boost _ _ _ s3) by (symmetry; apply H3). rewrite Eb3.
  eapply orel_bind with (P := srel k).
  - unfold k in *. destruct (Req_EM_T (err _ _ _ s) 0); [exact H3|]. destruct (Rge_dec _ _); [cbn; apply set_boost_rel; [exact H3|reflexivity]|].
    assert (HB : srel 2 (set_boost _ _ _ s3 (boost _ _ _ s3 / 1.01)) (set_boost _ _ _ s3' (boost _ _ _ s3 / 1.01))) by (apply set_boost_rel; [exact H3|reflexivity]).
    eapply orel_bind; [apply (get_r 2 _ _ _ HB); lia|]. cbv beta. intros x x' Hx. eapply orel_bind; [apply (get_r 2 _ _ _ HB); lia|]. cbv beta. intros y y' Hy.
    eapply orel_bind; [apply Hmix; eassumption|]. cbv beta. intros z z' Hz. eapply orel_bind; [apply (put_r_rel 2 _ _ _ _ _ HB); [lia|exact Hz]|]. cbn [Nat.max]. intros. go. apply make_stat_rel. assumption.
  - intros s4 s4' H4. assert (Eb4 : boost _ _ _ s4' = boost _ _ _ s4) by (symmetry; apply H4). rewrite Eb4.
    set (f := fun q => if Rgt_dec (boost _ _ _ s4) 50 then set_boost S D Env q 50 else if Rlt_dec (boost _ _ _ s4) 0.1 then set_boost _ _ _ q 0.1 else q).
    assert (H5 : srel k (f s4) (f s4')) by (unfold f; destruct (Rgt_dec _ _); [apply set_boost_rel; auto|]; destruct (Rlt_dec _ _); [apply set_boost_rel; auto|assumption]).
    change (if Rgt_dec (boost _ _ _ s4) 50 then set_boost S D Env s4 50 else if Rlt_dec (boost _ _ _ s4) 0.1 then set_boost _ _ _ s4 0.1 else s4) with (f s4).
    change (if Rgt_dec (boost _ _ _ s4) 50 then set_boost S D Env s4' 50 else if Rlt_dec (boost _ _ _ s4) 0.1 then set_boost _ _ _ s4' 0.1 else s4') with (f s4').
    generalize dependent (f s4). generalize dependent (f s4'). intros q' q H5. destruct H5 as (A & B & C & E & F & G & I1 & J & K).
    assert (H5 : srel k q q') by (repeat split; assumption). rewrite <- E, <- F. rewrite <- (Hlim _ _ _ _ G).
    eapply orel_bind; [eapply get_r; [exact H5|lia]|]. cbv beta. intros x x' Hx. eapply orel_bind; [eapply put_r_rel; [exact H5|lia|exact Hx]|]. cbv beta. intros q2 q2' H6.
    assert (H7 : srel 2 q2 q2') by (eapply srel_weak; [|exact H6]; unfold k; destruct (Req_EM_T _ _); cbn; lia). go. fin.
Qed.

(** one step of any of the schemes whose calculations are not masked *)
Definition unmasked (c : scheme) : Prop := match c with LocalEuler | AB _ true => False | _ => True end.
Theorem step_rel c s s' dt : unmasked c -> (match c with AndersonEuler _ _ => forall a a' b b', RD a a' -> RD b b' -> conv a b = conv a' b' | _ => True end) ->
  srel (places c s) s s' -> orel (srel (match c with Stationary => 2 | _ => 1 end)) (step _ _ _ o upd cal lim setmask conv c s dt) (step _ _ _ o upd' cal' lim' setmask' conv c s' dt).
Proof.
  intros HU HC H. destruct c as [| | | | | |order []|iters f|iters f|iters g b|iters th]; cbn [unmasked] in HU; try contradiction; cbn [step].
  - now apply st_rel.
  - now apply euler_rel.
  - now apply heun_rel.
  - now apply rk2_rel.
  - now apply rk4_rel.
  - now apply ab_rel.
  - cbn [places] in H. unfold step_ie. go. eapply orel_bind; [eapply ie_loop_rel; eassumption|]. cbv beta; intros. go. fin.
  - cbn [places] in H. unfold step_an. eapply orel_bind; [eapply an_loop_rel; [assumption|apply set_t_rel; [eassumption|f_equal; eapply tt_rel; eassumption]]|]. cbv beta; intros. go. fin.
  - cbn [places] in H. unfold step_nm. go. eapply orel_bind; [eapply nm_loop_rel; eassumption|]. cbv beta; intros. eapply orel_bind; [eapply (nm_apply_rel 1); [eassumption|lia]|]. cbn [Nat.max]. intros. eapply orel_bind; [eapply accept_rel; eassumption|]. cbv beta; intros. fin.
  - cbn [places] in H. unfold step_wi. cbv zeta. go. eapply orel_bind; [eapply wi_loop_rel; eassumption|]. cbv beta; intros. eapply orel_bind; [eapply (wi_apply_rel 1); [apply set_t_rel; [eassumption|f_equal; eapply tt_rel; eassumption]|lia]|]. cbn [Nat.max]. intros. eapply orel_bind; [eapply accept_rel; eassumption|]. cbv beta; intros. fin.
Qed.
End Rel.
