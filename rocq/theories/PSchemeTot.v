(** No scheme fails by itself: when the objects answer, every step completes and keeps
    one entry per object everywhere. *)
From Coq Require Import Reals List Arith Bool Lra Lia.
From Verif Require Import MErr MVec MInterp PInterp MStateOps SStateOps PStateOps MScheme PScheme.
Import ListNotations.
Open Scope R_scope.

Record closed {S D} (o : sops S D) (PS : S -> Prop) (PD : D -> Prop) := Closed {
  c_sadd : forall a b, PS a -> PS b -> exists c, o_sadd o a b = Ok c /\ PS c;
  c_ssub : forall a b, PS a -> PS b -> exists c, o_ssub o a b = Ok c /\ PS c;
  c_smix : forall a b f, PS a -> PS b -> exists c, o_smix o a b f = Ok c /\ PS c;
  c_scale : forall d k, PD d -> exists c, o_scale o d k = Ok c /\ PS c;
  c_dadd : forall a b, PD a -> PD b -> exists c, o_dadd o a b = Ok c /\ PD c;
  c_dsub : forall a b, PD a -> PD b -> exists c, o_dsub o a b = Ok c /\ PD c;
  c_dmix : forall a b f, PD a -> PD b -> exists c, o_dmix o a b f = Ok c /\ PD c;
  c_newmark : forall a b x y z, PD a -> PD b -> exists c, o_newmark o a b x y z = Ok c /\ PD c;
  c_wilson : forall a b x y, PD a -> PD b -> exists c, o_wilson o a b x y = Ok c /\ PD c;
  c_stat : forall d k, PD d -> exists e c, o_stat o d k = Ok (e, c) /\ PD c }.

Lemma vget_all {A} (P : A -> Prop) l i : Forall P l -> (i < length l)%nat -> exists x, vget l i = Ok x /\ P x.
Proof.
  intros HP Hi. unfold vget. destruct (nth_error l i) eqn:E.
  - exists a. split; [reflexivity|]. apply nth_error_In in E. rewrite Forall_forall in HP. auto.
  - apply nth_error_None in E. lia.
Qed.
Lemma vset_all {A} (P : A -> Prop) l i x : Forall P l -> P x -> (i < length l)%nat ->
  exists l', vset l i x = Ok l' /\ Forall P l' /\ length l' = length l.
Proof.
  revert i; induction l as [|y l IH]; intros i HP Hx Hi; [cbn in Hi; lia|]. inversion HP; subst.
  destruct i as [|i]; cbn.
  - eexists; split; [reflexivity|]. split; [now constructor|reflexivity].
  - destruct (IH i) as (l' & E & F & L); try assumption; [cbn in Hi; lia|]. rewrite E. cbn. eexists; split; [reflexivity|].
    split; [now constructor|cbn; lia].
Qed.

Section T.
Variables (S D Env : Type) (o : sops S D) (PS : S -> Prop) (PD : D -> Prop).
Hypothesis HC : closed o PS PD.
Variable upd : Env -> R -> R -> S -> outcome Env.
Variable cal : Env -> D -> outcome (Env * D).
Variable lim : Env -> R -> R -> R.
Variable setmask : Env -> R -> outcome Env.
Variable conv : D -> D -> bool.
Hypothesis Hupd : forall e t l x, PS x -> exists e', upd e t l x = Ok e'.
Hypothesis Hcal : forall e d, PD d -> exists e' d', cal e d = Ok (e', d') /\ PD d'.
Hypothesis Hmask : forall e dt, exists e', setmask e dt = Ok e'.
Notation tsch := (tsch S D Env).
Notation RR := (rr S D Env). Notation RD := (rd S D Env).

Definition good (n m : nat) (s : tsch) := length (RR s) = n /\ length (RD s) = m /\ Forall PS (RR s) /\ Forall PD (RD s).
Definition okg n m (r : outcome tsch) := exists s', r = Ok s' /\ good n m s'.
Lemma bind_okg n m r f : okg n m r -> (forall s, good n m s -> okg n m (f s)) -> okg n m (obind r f).
Proof. intros (s & -> & G) H. cbn. auto. Qed.
Lemma put_r_ok n m s i x : good n m s -> (i < n)%nat -> PS x -> okg n m (put_r S D Env s i x).
Proof.
  intros (A & B & F & G) Hi Hx. unfold put_r. destruct (vset_all PS (RR s) i x F Hx) as (l & E & Fl & Ll); [lia|].
  rewrite E. cbn. eexists; split; [reflexivity|]. repeat split; cbn; try assumption. lia.
Qed.
Lemma put_d_ok n m s i x : good n m s -> (i < m)%nat -> PD x -> okg n m (put_d S D Env s i x).
Proof.
  intros (A & B & F & G) Hi Hx. unfold put_d. destruct (vset_all PD (RD s) i x G Hx) as (l & E & Fl & Ll); [lia|].
  rewrite E. cbn. eexists; split; [reflexivity|]. repeat split; cbn; try assumption. lia.
Qed.
Lemma get_r n m s i : good n m s -> (i < n)%nat -> exists x, vget (RR s) i = Ok x /\ PS x.
Proof. intros (A & B & F & G) Hi. apply vget_all; [assumption|lia]. Qed.
Lemma get_d n m s i : good n m s -> (i < m)%nat -> exists x, vget (RD s) i = Ok x /\ PD x.
Proof. intros (A & B & F & G) Hi. apply vget_all; [assumption|lia]. Qed.
Ltac gr i := match goal with G : good ?n ?m ?s |- _ => let x := fresh "x" in let E := fresh "E" in
   destruct (get_r n m s i G) as (x & E & ?); [lia|]; rewrite E; cbn [obind] end.
Ltac gd i := match goal with G : good ?n ?m ?s |- _ => let x := fresh "x" in let E := fresh "E" in
   destruct (get_d n m s i G) as (x & E & ?); [lia|]; rewrite E; cbn [obind] end.
Lemma update_ok n m s d i : good n m s -> (i < n)%nat -> okg n m (update S D Env upd s d i).
Proof.
  intros G Hi. unfold update. gr i. destruct (Hupd (env S D Env s) (tt S D Env s) (d + tl S D Env s) x H) as [e Ee].
  rewrite Ee. cbn. eexists; split; [reflexivity|]. exact G.
Qed.
Lemma finish_ok n m s d : good n m s -> (0 < n)%nat -> okg n m (finish S D Env upd s d).
Proof.
  intros G Hi. unfold finish. destruct (update_ok n m s d 0 G Hi) as (s' & -> & G'). cbn. eexists; split; [reflexivity|]. exact G'.
Qed.
Lemma calc_ok n m s i : good n m s -> (i < m)%nat -> okg n m (calc S D Env cal s i).
Proof.
  intros G Hi. unfold calc. gd i. destruct (Hcal (env S D Env s) x H) as (e & d & Ee & Hd). rewrite Ee. cbn.
  apply put_d_ok; [exact G|assumption|assumption].
Qed.
Lemma axpy_ok n m s a b c k : good n m s -> (a < n)%nat -> (b < n)%nat -> (c < m)%nat -> okg n m (axpy S D Env o s a b c k).
Proof.
  intros G Ha Hb Hc. unfold axpy. gr b. gd c. destruct (c_scale _ _ _ HC x0 k) as (z & -> & Hz); [assumption|]. cbn.
  destruct (c_sadd _ _ _ HC x z) as (w & -> & Hw); try assumption. cbn. now apply put_r_ok.
Qed.
Lemma copy_d_ok n m s a b : good n m s -> (a < m)%nat -> (b < m)%nat -> okg n m (copy_d S D Env s a b).
Proof. intros G Ha Hb. unfold copy_d. gd b. now apply put_d_ok. Qed.
Lemma mix_d_ok n m s a b f : good n m s -> (a < m)%nat -> (b < m)%nat -> okg n m (mix_d S D Env o s a b f).
Proof.
  intros G Ha Hb. unfold mix_d. gd a. gd b. destruct (c_dmix _ _ _ HC x x0 f) as (z & -> & Hz); try assumption. cbn. now apply put_d_ok.
Qed.
Lemma nm_apply_ok m s g b dt : good 2 m s -> (1 < m)%nat -> okg 2 m (nm_apply S D Env o g b dt s).
Proof.
  intros G Hm. unfold nm_apply. gr 0%nat. gd 0%nat. gd 1%nat.
  destruct (c_newmark _ _ _ HC x0 x1 dt g b) as (z & -> & Hz); try assumption. cbn.
  destruct (c_scale _ _ _ HC z dt) as (w & -> & Hw); [assumption|]. cbn.
  destruct (c_sadd _ _ _ HC x w) as (v & -> & Hv); try assumption. cbn. apply put_r_ok; try assumption. lia.
Qed.
Lemma wi_apply_ok m s g b : good 2 m s -> (1 < m)%nat -> okg 2 m (wi_apply S D Env o g b s).
Proof.
  intros G Hm. unfold wi_apply. gr 0%nat. gd 0%nat. gd 1%nat.
  destruct (c_wilson _ _ _ HC x0 x1 g b) as (z & -> & Hz); try assumption. cbn.
  destruct (c_scale _ _ _ HC z g) as (w & -> & Hw); [assumption|]. cbn.
  destruct (c_sadd _ _ _ HC x w) as (v & -> & Hv); try assumption. cbn. apply put_r_ok; try assumption. lia.
Qed.
Lemma make_stat_ok n m s dt : good n m s -> (0 < m)%nat -> okg n m (make_stat S D Env o s dt).
Proof.
  intros G Hm. unfold make_stat. gd 0%nat. destruct (c_stat _ _ _ HC x dt) as (e & z & -> & Hz); [assumption|]. cbn.
  destruct (put_d_ok n m s 0 z G Hm Hz) as (s' & -> & G'). cbn. eexists; split; [reflexivity|]. exact G'.
Qed.
Lemma plus_d_ok n m s x i k : good n m s -> (i < m)%nat -> PS x -> exists y, plus_d S D Env o s x i k = Ok y /\ PS y.
Proof.
  intros G Hi Hx. unfold plus_d. gd i. destruct (c_scale _ _ _ HC x0 k) as (z & -> & Hz); [assumption|]. cbn. now apply (c_sadd _ _ _ HC).
Qed.
Lemma minus_d_ok n m s x i k : good n m s -> (i < m)%nat -> PS x -> exists y, minus_d S D Env o s x i k = Ok y /\ PS y.
Proof.
  intros G Hi Hx. unfold minus_d. gd i. destruct (c_scale _ _ _ HC x0 k) as (z & -> & Hz); [assumption|]. cbn. now apply (c_ssub _ _ _ HC).
Qed.
Lemma ab_formula_ok n s x dt : good n 5 s -> PS x -> exists y, ab_formula S D Env o s x dt = Ok y /\ PS y.
Proof.
  intros G Hx. unfold ab_formula.
  assert (P : forall i k, (i < 5)%nat -> forall x, PS x -> exists y, plus_d S D Env o s x i k = Ok y /\ PS y) by (intros; eapply plus_d_ok; eauto).
  assert (M : forall i k, (i < 5)%nat -> forall x, PS x -> exists y, minus_d S D Env o s x i k = Ok y /\ PS y) by (intros; eapply minus_d_ok; eauto).
  assert (B : forall (r : outcome S) f, (exists y, r = Ok y /\ PS y) -> (forall y, PS y -> exists z, f y = Ok z /\ PS z) -> exists z, obind r f = Ok z /\ PS z).
  { intros r f (y & -> & Hy) Hf. cbn. auto. }
  destruct (nst S D Env s) as [|[|[|[|?]]]];
  repeat (first [apply P; [lia|assumption] | apply M; [lia|assumption] | apply B; [|intros]]).
Qed.
Lemma accept_ok m s : good 2 m s -> (1 < m)%nat -> okg 2 m (accept S D Env s).
Proof.
  intros G Hm. unfold accept. gr 1%nat. apply bind_okg; [apply put_r_ok; try assumption; lia|]. intros s' G'. apply copy_d_ok; try assumption; lia.
Qed.

Ltac adv := first
  [ apply update_ok; [assumption|lia] | apply calc_ok; [assumption|lia] | apply axpy_ok; [assumption|lia|lia|lia]
  | apply copy_d_ok; [assumption|lia|lia] | apply mix_d_ok; [assumption|lia|lia] | apply finish_ok; [assumption|lia]
  | apply make_stat_ok; [assumption|lia] | apply nm_apply_ok; [assumption|lia] | apply wi_apply_ok; [assumption|lia] | apply accept_ok; [assumption|lia] ].
Ltac go := repeat (cbn [obind]; first [ adv | match goal with
   | |- okg _ _ (obind (vget (RR _) ?i) _) => gr i
   | |- okg _ _ (obind (vget (RD _) ?i) _) => gd i
   | |- okg _ _ (obind _ _) => apply bind_okg; [adv|intros ? ?] end ]).

Lemma ie_loop_ok iters c k dt n s : good 2 2 s -> okg 2 2 (ie_loop S D Env o upd cal iters c k dt n s).
Proof.
  revert s; induction n as [|n IH]; intros s G; [now exists s|]. cbn [ie_loop].
  do 3 (apply bind_okg; [adv|intros]). apply bind_okg; [|auto].
  destruct (0 <? n)%nat; [|eexists; split; [reflexivity|assumption]]. apply bind_okg; [adv|intros; adv].
Qed.
Lemma an_loop_ok iters c k dt n s : good 2 2 s -> okg 2 2 (an_loop S D Env o upd cal conv iters c k dt n s).
Proof.
  revert s; induction n as [|n IH]; intros s G; [now exists s|]. cbn [an_loop].
  apply bind_okg; [adv|intros s1 G1]. apply bind_okg; [adv|intros s2 G2]. apply bind_okg; [adv|intros s3 G3].
  destruct (get_d 2 2 s3 1 G3) as (x & -> & ?); [lia|]. cbn [obind]. destruct (get_d 2 2 s3 0 G3) as (y & -> & ?); [lia|]. cbn [obind].
  apply bind_okg.
  - destruct (0 <? n)%nat; [|eexists; split; [reflexivity|assumption]]. apply bind_okg; [adv|intros; adv].
  - intros s4 G4. destruct (conv _ _); [now exists s4|auto].
Qed.
Lemma nm_loop_ok iters c g b dt n s : good 2 3 s -> okg 2 3 (nm_loop S D Env o upd cal iters c g b dt n s).
Proof.
  revert s; induction n as [|n IH]; intros s G; [now exists s|]. cbn [nm_loop].
  do 3 (apply bind_okg; [adv|intros]). apply bind_okg; [|auto].
  destruct (0 <? n)%nat; [|eexists; split; [reflexivity|assumption]]. apply bind_okg; [adv|intros; adv].
Qed.
Lemma wi_loop_ok iters c tdt n s : good 2 3 s -> okg 2 3 (wi_loop S D Env o upd cal iters c tdt n s).
Proof.
  revert s; induction n as [|n IH]; intros s G; [now exists s|]. cbn [wi_loop].
  do 3 (apply bind_okg; [adv|intros]). apply bind_okg; [|auto].
  destruct (0 <? n)%nat; [|eexists; split; [reflexivity|assumption]]. apply bind_okg; [adv|intros; adv].
Qed.

Lemma step_total c s dt : good (nstate c) (nderiv c) s ->
  exists s', step S D Env o upd cal lim setmask conv c s dt = Ok s' /\ good (nstate c) (nderiv c) s'.
Proof.
  intro G. change (okg (nstate c) (nderiv c) (step S D Env o upd cal lim setmask conv c s dt)).
  destruct c; cbn [step nstate nderiv] in *.
  - unfold step_st. do 3 (apply bind_okg; [adv|intros]).
    apply bind_okg.
    + destruct (Req_EM_T _ _); [eexists; split; [reflexivity|assumption]|].
      destruct (Rge_dec _ _); [eexists; split; [reflexivity|assumption]|].
      match goal with |- context [set_boost S D Env ?x ?y] => set (sb := set_boost S D Env x y) end.
      assert (GB : good 2 1 sb) by assumption. clearbody sb.
      destruct (get_r 2 1 sb 0 GB) as (x & -> & ?); [lia|]. cbn [obind].
      destruct (get_r 2 1 sb 1 GB) as (y & -> & ?); [lia|]. cbn [obind].
      destruct (c_smix _ _ _ HC x y 0.5) as (z & -> & Hz); try assumption. cbn [obind].
      apply bind_okg; [apply put_r_ok; try assumption; lia|intros]. go.
    + intros s3 G3. set (e' := if Rgt_dec _ _ then _ else _).
      assert (GE : good 2 1 e') by (unfold e'; destruct (Rgt_dec _ _); [assumption|destruct (Rlt_dec _ _); assumption]).
      clearbody e'. destruct (get_r 2 1 e' 0 GE) as (x & -> & ?); [lia|]. cbn [obind].
      apply bind_okg; [apply put_r_ok; try assumption; lia|intros]. go.
  - unfold step_euler. go.
  - unfold step_leuler, step_euler. destruct (Hmask (env S D Env s) dt) as [e ->]. cbn [obind].
    assert (GE : good 1 1 (set_env S D Env s e)) by exact G. go.
  - unfold step_heun. apply bind_okg; [adv|intros s1 G1]. apply bind_okg; [adv|intros s2 G2].
    apply bind_okg; [adv|intros s3 G3]. apply bind_okg; [adv|intros s4 G4].
    destruct (get_d 1 2 s4 0 G4) as (x & -> & ?); [lia|]. cbn [obind].
    destruct (get_d 1 2 s4 1 G4) as (y & -> & ?); [lia|]. cbn [obind].
    destruct (c_dsub _ _ _ HC x y) as (z & -> & ?); try assumption. cbn [obind].
    destruct (c_scale _ _ _ HC z (0.5 * dt)) as (w & -> & ?); try assumption. cbn [obind].
    destruct (get_r 1 2 s4 0 G4) as (v & -> & ?); [lia|]. cbn [obind].
    destruct (c_sadd _ _ _ HC v w) as (v' & -> & ?); try assumption. cbn [obind].
    apply bind_okg; [apply put_r_ok; try assumption; lia|intros]. apply finish_ok; [assumption|lia].
  - unfold step_rk2. apply bind_okg; [adv|intros s1 G1]. apply bind_okg; [adv|intros s2 G2].
    apply bind_okg; [apply axpy_ok; [exact G2|lia|lia|lia]|intros s3 G3]. apply bind_okg; [adv|intros s4 G4].
    apply bind_okg; [adv|intros s5 G5]. apply bind_okg; [adv|intros s6 G6]. apply finish_ok; [exact G6|lia].
  - unfold step_rk4. apply bind_okg; [adv|intros s1 G1]. apply bind_okg; [adv|intros s2 G2].
    apply bind_okg; [apply axpy_ok; [exact G2|lia|lia|lia]|intros s3 G3].
    do 5 (apply bind_okg; [adv|intros]).
    apply bind_okg; [apply axpy_ok; [assumption|lia|lia|lia]|intros].
    apply bind_okg; [adv|intros]. apply bind_okg; [adv|intros sz G9].
    destruct (get_d 5 4 sz 0 G9) as (d0 & -> & ?); [lia|]. cbn [obind].
    destruct (get_d 5 4 sz 1 G9) as (d1 & -> & ?); [lia|]. cbn [obind].
    destruct (get_d 5 4 sz 2 G9) as (d2 & -> & ?); [lia|]. cbn [obind].
    destruct (get_d 5 4 sz 3 G9) as (d3 & -> & ?); [lia|]. cbn [obind].
    destruct (get_r 5 4 sz 0 G9) as (v & -> & ?); [lia|]. cbn [obind].
    destruct (c_dadd _ _ _ HC d0 d3) as (z & -> & ?); try assumption. cbn [obind].
    destruct (c_scale _ _ _ HC z (dt / 6)) as (w & -> & ?); try assumption. cbn [obind].
    destruct (c_sadd _ _ _ HC v w) as (v' & -> & ?); try assumption. cbn [obind].
    destruct (c_dadd _ _ _ HC d1 d2) as (z' & -> & ?); try assumption. cbn [obind].
    destruct (c_scale _ _ _ HC z' (dt / 3)) as (w' & -> & ?); try assumption. cbn [obind].
    destruct (c_sadd _ _ _ HC v' w') as (v'' & -> & ?); try assumption. cbn [obind].
    apply bind_okg; [apply put_r_ok; try assumption; lia|intros]. apply finish_ok; [assumption|lia].
  - unfold step_ab. apply bind_okg; [adv|intros s1 G1].
    apply bind_okg; [unfold ab_shift; go|intros s2 G2].
    apply bind_okg.
    { destruct (local && _); [|eexists; split; [reflexivity|assumption]]. destruct (Hmask (env S D Env s2) dt) as [e ->]. cbn [obind].
      eexists; split; [reflexivity|exact G2]. }
    intros s3 G3. apply bind_okg; [adv|intros s4 G4]. destruct (get_r 1 5 s4 0 G4) as (v & -> & ?); [lia|]. cbn [obind].
    destruct (ab_formula_ok 1 s4 v dt G4) as (w & -> & ?); [assumption|]. cbn [obind].
    apply bind_okg; [apply put_r_ok; try assumption; lia|intros]. apply finish_ok; [assumption|lia].
  - unfold step_ie. apply bind_okg; [apply copy_d_ok; [exact G|lia|lia]|intros s1 G1]. apply bind_okg; [now apply ie_loop_ok|intros s2 G2].
    apply bind_okg; [adv|intros]. apply finish_ok; [assumption|lia].
  - unfold step_an. apply bind_okg; [now apply an_loop_ok|intros s2 G2].
    apply bind_okg; [adv|intros]. apply finish_ok; [assumption|lia].
  - unfold step_nm. apply bind_okg; [adv|intros s1 G1]. apply bind_okg; [apply copy_d_ok; [exact G1|lia|lia]|intros s2 G2].
    apply bind_okg; [now apply nm_loop_ok|intros s3 G3]. go.
  - unfold step_wi. apply bind_okg; [apply copy_d_ok; [exact G|lia|lia]|intros s2 G2].
    apply bind_okg; [now apply wi_loop_ok|intros s3 G3]. apply bind_okg; [apply wi_apply_ok; [exact G3|lia]|intros]. go.
Qed.
End T.
