(** Equilibria, relaxation and the last inner iteration. *)
From Coq Require Import Reals List Arith Bool Lra Lia.
From Verif Require Import MErr MVec MInterp PInterp MStateOps SStateOps PStateOps MScheme SScheme PScheme PSchemeTot PSchemeSys PSchemeOrd.
Import ListNotations.
Open Scope R_scope.

(** relaxation *)
Lemma div_bounds p q : 0 < q -> - q < p < q -> -1 < p / q < 1.
Proof.
  intros Hq Hp. assert (p / q * q = p) by (field; lra). split; apply (Rmult_lt_reg_r q); lra.
Qed.
Lemma tanh_bound x : -1 < tanh x < 1.
Proof.
  unfold tanh, sinh, cosh. pose proof (exp_pos x). pose proof (exp_pos (- x)). apply div_bounds; lra.
Qed.
Lemma relax_bounds iters c0 c1 i : (1 <= iters)%nat -> 0 <= c0 -> 0 <= c1 -> 0 <= relax iters (c0, c1) i <= c0 + c1.
Proof.
  intros Hi H0 H1. unfold relax; cbn [fst snd].
  set (x := 4 * _). pose proof (tanh_bound x). assert (1 <= INR iters) by (apply (le_INR 1); exact Hi).
  assert (0 < 1 / INR iters <= 1). { split; [apply Rdiv_lt_0_compat; lra|]. apply (Rmult_le_reg_r (INR iters)); [lra|]. unfold Rdiv. rewrite Rmult_assoc, Rinv_l by lra. lra. }
  assert (0 <= c0 * (1 - 1 / INR iters) <= c0). { split; [apply Rmult_le_pos; lra|]. rewrite <- (Rmult_1_r c0) at 2. apply Rmult_le_compat_l; lra. }
  assert (0 <= c1 * (1 - 0.5 * (tanh x + 1)) <= c1). { split; [apply Rmult_le_pos; lra|]. rewrite <- (Rmult_1_r c1) at 2. apply Rmult_le_compat_l; lra. }
  lra.
Qed.
Lemma relax_unit c iters i : (1 <= iters)%nat -> (forall n g b, c <> Newmark n g b) -> 0 <= relax iters (relax_c c) i < 1.
Proof.
  intros Hi Hc. destruct c; cbn [relax_c]; try (pose proof (relax_bounds iters 0.9 0 i Hi ltac:(lra) ltac:(lra)); lra).
  - exfalso. now apply (Hc iters0 gamma beta).
  - pose proof (relax_bounds iters 0.015 0 i Hi ltac:(lra) ltac:(lra)); lra.
Qed.
Lemma relax_newmark_refuted : exists iters i g b, (i < iters)%nat /\ 1 < relax iters (relax_c (Newmark iters g b)) i.
Proof.
  exists 40%nat, 0%nat, 0, 0. split; [lia|]. unfold relax; cbn [relax_c fst snd].
  replace (INR 40) with 40 by (cbn; lra). replace (INR 0) with 0 by reflexivity. replace (4 * ((0 + 1) / 40 - 0.5)) with (- (1.9)) by lra.
  assert (E : tanh (- (1.9)) <= - 0.8).
  { unfold tanh, sinh, cosh. rewrite Ropp_involutive. set (u := exp 1.9). assert (Hu : exp (- (1.9)) = / u) by apply exp_Ropp. rewrite Hu.
    assert (U : 1.475 * 1.475 * (1.475 * 1.475) <= u).
    { unfold u. replace 1.9 with (0.475 + 0.475 + (0.475 + 0.475)) by lra. rewrite !exp_plus. assert (1.475 <= exp 0.475) by (pose proof (exp_ineq1_le 0.475); lra).
      apply Rmult_le_compat; try nra. }
    assert (P : 0 < u) by lra. assert (0 < / u) by now apply Rinv_0_lt_compat.
    assert (I : / u <= / 4). { apply Rinv_le_contravar; lra. }
    apply (Rmult_le_reg_r ((/ u + u) / 2)); [lra|]. replace ((/ u - u) / 2 / ((/ u + u) / 2) * ((/ u + u) / 2)) with ((/ u - u) / 2) by (field; split; nra).
    assert (U2 : 9 <= u * u) by nra. assert (u * / u = 1) by (apply Rinv_r; lra). nra. }
  lra.
Qed.

(** the last inner iteration is not relaxed: the derivative applied is the one that the
    objects answered last *)
Section L.
Variables (S D Env : Type) (o : sops S D).
Variable upd : Env -> R -> R -> S -> outcome Env.
Variable cal : Env -> D -> outcome (Env * D).
Variable lim : Env -> R -> R -> R.
Variable setmask : Env -> R -> outcome Env.
Variable conv : D -> D -> bool.
Notation RD := (rd S D Env). Notation RR := (rr S D Env).
Lemma vset_get {A} (l l' : list A) i x : vset l i x = Ok l' -> vget l' i = Ok x.
Proof.
  revert i l'; induction l as [|y l IH]; intros [|i] l' H; cbn in H; try discriminate; [injection H as <-; reflexivity|].
  peel H l1 He1. injection H as <-. cbn. unfold vget. cbn. specialize (IH i l1 He1). unfold vget in IH. exact IH.
Qed.
Lemma calc_last s i s' : calc S D Env cal s i = Ok s' -> exists e d e' g, cal e d = Ok (e', g) /\ vget (RD s') i = Ok g.
Proof.
  unfold calc. intro H. peel H d He1. peel H ed He2. unfold put_d in H. peel H l He3. injection H as <-. destruct ed as [e' g].
  do 4 eexists. split; [exact He2|]. cbn. cbn in He3. now apply vset_get in He3.
Qed.
Lemma ie_last iters c k dt n s s' : ie_loop S D Env o upd cal iters c k dt (Datatypes.S n) s = Ok s' ->
  exists e d e' g, cal e d = Ok (e', g) /\ vget (RD s') 0 = Ok g.
Proof.
  revert s; induction n as [|n IH]; intros s H.
  - cbn in H. peel H a He1. peel H b He2. peel H c' He3. injection H as <-. now apply calc_last in He3.
  - set (n1 := Datatypes.S n) in *. cbn [ie_loop] in H. peel H a He1. peel H b He2. peel H c' He3. peel H d He4. exact (IH d H).
Qed.
Lemma nm_last iters c g0 b0 dt n s s' : nm_loop S D Env o upd cal iters c g0 b0 dt (Datatypes.S n) s = Ok s' ->
  exists e d e' g, cal e d = Ok (e', g) /\ vget (RD s') 1 = Ok g.
Proof.
  revert s; induction n as [|n IH]; intros s H.
  - cbn in H. peel H a He1. peel H b He2. peel H c' He3. injection H as <-. now apply calc_last in He3.
  - set (n1 := Datatypes.S n) in *. cbn [nm_loop] in H. peel H a He1. peel H b He2. peel H c' He3. peel H d He4. exact (IH d H).
Qed.
(** the implicit Euler step moves the state along the last answer *)
Lemma ie_step_last iters k s dt s' : (1 <= iters)%nat -> step S D Env o upd cal lim setmask conv (ImplicitEuler iters k) s dt = Ok s' ->
  exists e d e' g x y z x', cal e d = Ok (e', g) /\ vget (RR y) 0 = Ok x /\ o_scale o g dt = Ok z /\ o_sadd o x z = Ok x' /\ vget (RR s') 0 = Ok x'.
Proof.
  intros Hi H. cbn [step] in H. unfold step_ie in H. peel H a He1. peel H b He2. peel H c He3. destruct iters as [|n]; [lia|].
  apply ie_last in He2 as (e & d & e' & g & C & G). unfold axpy in He3. rewrite (* rd *) G in He3.
  peel He3 x He4. cbn [obind] in He3. peel He3 z He5. peel He3 x' He6. unfold put_r in He3. peel He3 l He7. injection He3 as <-.
  unfold finish, update in H. peel H t1 He8. peel He8 t2 He9. peel He8 t3 Ha1. injection He8 as <-. injection H as <-. cbn in *.
  apply vset_get in He7. exists e, d, e', g, x, b, z, x'. repeat split; assumption.
Qed.
End L.

Lemma mix_same sh d ff c : okD sh d -> mmix_d d d ff = Ok c -> forall i, dc c i = dc d i.
Proof.
  intros [Rd Sd] E i. destruct (mmix_d_ok d d ff Rd Rd eq_refl) as (c' & E' & F & _). rewrite E in E'. injection E' as <-.
  unfold dc. rewrite F, each_nth; unfold rmx; [lra|reflexivity|lra].
Qed.

Section Q.
Variables (Env : Type) (sh : shp) (f : R -> mst -> mdst) (cur : Env -> R * mst).
Variable upd : Env -> R -> R -> mst -> outcome Env.
Variable cal : Env -> mdst -> outcome (Env * mdst).
Variable lim : Env -> R -> R -> R.
Variable setmask : Env -> R -> outcome Env.
Variable conv : mdst -> mdst -> bool.
Hypothesis HF : follows sh f cur upd cal.
Notation step := (step mst mdst Env system_ops upd cal lim setmask conv).
Notation TT := (tt mst mdst Env). Notation NST := (nst mst mdst Env).
Notation RR := (rr mst mdst Env). Notation RD := (rd mst mdst Env).
Variable x : mst.
Hypothesis HX : equilibrium sh f x.

Lemma same_entries y : okS sh y -> (forall i, sc y i = sc x i) -> y = x.
Proof.
  intros O H. destruct HX as [Ox _]. apply (moved_unique sh x 0 (f 0 x)); split; try assumption; intro i; rewrite ?H; lra.
Qed.
Lemma moved_still k d y : still d -> moved sh x k d y -> y = x.
Proof. intros Hd [O M]. apply same_entries; [exact O|]. intro i. rewrite M, Hd. lra. Qed.
Lemma eq_euler s dt : ready sh Euler s -> state0 s x -> exists s', step Euler s dt = Ok s' /\ state0 s' x.
Proof.
  intros G H0. destruct (euler_run Env sh f cur upd cal lim setmask conv HF s x dt G H0) as (s' & E & G' & x' & H0' & M).
  exists s'. split; [exact E|]. apply moved_still in M; [now subst|apply HX].
Qed.
Lemma eq_rk2 s dt : ready sh RK2 s -> state0 s x -> exists s', step RK2 s dt = Ok s' /\ state0 s' x.
Proof.
  intros G H0. destruct (rk2_run Env sh f cur upd cal lim setmask conv HF s x dt G H0) as (s' & E & G' & m & x' & H0' & M & M').
  exists s'. split; [exact E|]. apply moved_still in M; [subst m|apply HX]. apply moved_still in M'; [now subst|apply HX].
Qed.
Lemma eq_rk4 s dt : ready sh RK4 s -> state0 s x -> exists s', step RK4 s dt = Ok s' /\ state0 s' x.
Proof.
  intros G H0. destruct (rk4_run Env sh f cur upd cal lim setmask conv HF s x dt G H0) as (s' & E & G' & x2 & x3 & x4 & x' & H0' & M2 & M3 & M4 & O' & M).
  exists s'. split; [exact E|]. apply moved_still in M2; [subst x2|apply HX]. apply moved_still in M3; [subst x3|apply HX]. apply moved_still in M4; [subst x4|apply HX].
  assert (x' = x); [|now subst]. apply same_entries; [exact O'|]. intro i. rewrite M. destruct HX as [_ Hs]. rewrite !(Hs _ i). lra.
Qed.
Lemma eq_heun s d dt : ready sh Heun s -> state0 s x -> deriv0 s d -> still d -> exists s' d', step Heun s dt = Ok s' /\ state0 s' x /\ deriv0 s' d' /\ still d'.
Proof.
  intros G H0 H1 Hd. destruct (heun_run Env sh f cur upd cal lim setmask conv HF s x d dt G H0 H1) as (s' & E & G' & p & x' & Mp & H0' & H1' & O' & M).
  apply moved_still in Mp; [subst p|exact Hd]. exists s', (f (TT s) x). split; [exact E|]. split; [|split; [exact H1'|apply HX]].
  assert (x' = x); [|now subst]. apply same_entries; [exact O'|]. intro i. rewrite M, (Hd i). destruct HX as [_ Hs]. rewrite (Hs _ i). lra.
Qed.
Lemma eq_ab k s d dt : ready sh (AB k false) s -> state0 s x -> deriv0 s d -> still d ->
  exists s' d', step (AB k false) s dt = Ok s' /\ state0 s' x /\ deriv0 s' d' /\ still d'.
Proof.
  intros G H0 H1 Hd. destruct (ab_run Env sh f cur upd cal lim setmask conv HF k s x d dt G H0 H1) as (s' & E & G' & N & H1' & x' & H0' & O' & M).
  exists s', (f (TT s) x). split; [exact E|]. split; [|split; [exact H1'|apply HX]].
  assert (x' = x); [|now subst]. apply same_entries; [exact O'|]. intro i. rewrite M, (Hd i). destruct HX as [_ Hs]. rewrite (Hs _ i). lra.
Qed.

Ltac open := cbv beta iota zeta delta [update calc axpy copy_d mix_d put_r put_d finish
   set_t set_tl set_env set_rr set_rd set_nst set_err set_boost tt tl env rr rd nst err boost vget vset nth_error obind
   o_sadd o_scale o_dadd o_dsub o_ssub o_dmix o_newmark o_wilson system_ops fst snd andb].
Lemma move_it d k : okD sh d -> still d -> exists z, mscale_d d k = Ok z /\ madd_s x z = Ok x.
Proof.
  intros Hd Hs. destruct HX as [Ox _]. destruct (c_scale _ _ _ (system_closed sh) d k Hd) as (z & E & Z). cbn in E.
  destruct (c_sadd _ _ _ (system_closed sh) x z Ox Z) as (y & E' & Y). cbn in E'. exists z. split; [exact E|]. rewrite E'. f_equal.
  apply same_entries; [exact Y|]. intro i. rewrite (add_sc sh x z y Ox Z E'), (scale_sc d k z (proj1 Hd) E), (Hs i). lra.
Qed.
Lemma mix_still a b ff : okD sh a -> okD sh b -> still a -> still b -> exists c, mmix_d a b ff = Ok c /\ okD sh c /\ still c.
Proof.
  intros [Ra Sa] [Rb Sb] Ha Hb. destruct (mmix_d_ok a b ff Ra Rb) as (c & E & F & Sc & Rc & L); [congruence|]. exists c. split; [exact E|].
  split; [split; congruence|]. intro i. unfold dc. rewrite F, each_nth by (try exact L; unfold rmx; lra). unfold rmx.
  specialize (Ha i); specialize (Hb i). unfold dc in *. rewrite Ha, Hb. lra.
Qed.
(** the inner loops keep the state and two derivatives that are zero *)
Definition quiet (s : tsch mst mdst Env) := (exists y, RR s = [x; y] /\ okS sh y) /\ (exists a b, RD s = [a; b] /\ okD sh a /\ okD sh b /\ still a /\ still b).
Lemma quiet_inv s : quiet s -> exists t l e y a b nn er bo, s = Ts mst mdst Env t l e [x; y] [a; b] nn er bo /\ okS sh y /\ okD sh a /\ okD sh b /\ still a /\ still b /\ okS sh x.
Proof.
  destruct s as [t l e rs ds nn er bo]. intros ((y & Hr & Oy) & (a & b & Hd & Oa & Ob & Sa & Sb)). cbn in Hr, Hd. subst rs ds.
  exists t, l, e, y, a, b, nn, er, bo. repeat (split; [first [assumption|reflexivity]|]). apply HX.
Qed.
Ltac body s := match goal with H : quiet s |- _ => let t := fresh "t" in let l := fresh "l" in let e := fresh "e" in
  destruct (quiet_inv s H) as (t & l & e & y & a & b & nn & er & bo & -> & Oy & Oa & Ob & Sa & Sb & Ox); clear H; pose proof (proj2 HX) as Hs end.
Lemma ie_quiet iters c k dt n s : quiet s -> exists s', ie_loop mst mdst Env system_ops upd cal iters c k dt n s = Ok s' /\ quiet s'.
Proof.
  revert s; induction n as [|n IH]; intros s Q; [exists s; now split|]. body s. cbn [ie_loop]. open.
  destruct (move_it a (k * dt) Oa Sa) as (z & Ez & Ea). rewrite Ez. open. rewrite Ea. open.
  destruct (fol_upd _ _ _ _ _ HF e t (k * dt + l) x Ox) as (e' & E & C). rewrite E. open.
  destruct (fol_cal _ _ _ _ _ HF e' a _ _ C Oa) as (e'' & E' & C'). rewrite E'. open.
  pose proof (fol_f _ _ _ _ _ HF t x Ox) as Of. destruct (0 <? n)%nat.
  - destruct (mix_still (f t x) b (relax iters c (iters - S n)) Of Ob (Hs t) Sb) as (m & Em & Om & Sm). rewrite Em. open. apply IH.
    split; [exists x; now split|]. exists m, m. repeat split; try assumption; apply Om.
  - apply IH. split; [exists x; now split|]. exists (f t x), b. repeat split; try assumption; try apply Of; try apply Ob. apply Hs.
Qed.
Lemma an_quiet iters c k dt n s : quiet s -> exists s', an_loop mst mdst Env system_ops upd cal conv iters c k dt n s = Ok s' /\ quiet s'.
Proof.
  revert s; induction n as [|n IH]; intros s Q; [exists s; now split|]. body s. cbn [an_loop]. open.
  destruct (move_it a (k * dt) Oa Sa) as (z & Ez & Ea). rewrite Ez. open. rewrite Ea. open.
  destruct (fol_upd _ _ _ _ _ HF e t (k * dt + l) x Ox) as (e' & E & C). rewrite E. open.
  destruct (fol_cal _ _ _ _ _ HF e' a _ _ C Oa) as (e'' & E' & C'). rewrite E'. open.
  pose proof (fol_f _ _ _ _ _ HF t x Ox) as Of. destruct (0 <? n)%nat.
  - destruct (mix_still (f t x) b (relax iters c (iters - S n)) Of Ob (Hs t) Sb) as (m & Em & Om & Sm). rewrite Em. open.
    match goal with |- context [if conv ?u ?v then Ok ?s0 else _] => assert (Q : quiet s0) end.
    { split; [exists x; now split|]. exists m, m. repeat split; try assumption; apply Om. }
    destruct (conv b (f t x)); [eexists; split; [reflexivity|exact Q]|now apply IH].
  - match goal with |- context [if conv ?u ?v then Ok ?s0 else _] => assert (Q : quiet s0) end.
    { split; [exists x; now split|]. exists (f t x), b. repeat split; try assumption; try apply Of; try apply Ob. apply Hs. }
    destruct (conv b (f t x)); [eexists; split; [reflexivity|exact Q]|now apply IH].
Qed.
Lemma tail_quiet k dt s : quiet s -> exists s', (s <- axpy mst mdst Env system_ops s 0 0 0 dt ;; finish mst mdst Env upd (set_t mst mdst Env s (TT s + (1 - k) * dt)) dt) = Ok s' /\ quiet s'.
Proof.
  intro Q. body s. open. destruct (move_it a dt Oa Sa) as (z & Ez & Ea). rewrite Ez. open. rewrite Ea. open.
  match goal with |- context [upd e ?u ?v x] => destruct (fol_upd _ _ _ _ _ HF e u v x Ox) as (e' & E & C) end. rewrite E. open.
  eexists; split; [reflexivity|]. split; [exists y; now split|]. exists a, b. repeat split; try assumption; try apply Oa; apply Ob.
Qed.
Lemma eq_ie n k s dt : quiet s -> exists s', step (ImplicitEuler n k) s dt = Ok s' /\ quiet s'.
Proof.
  intro Q. cbn [MScheme.step]. unfold step_ie.
  match goal with |- context [copy_d _ _ _ ?s0 1 0] => assert (Q0 : exists s1, copy_d mst mdst Env s0 1 0 = Ok s1 /\ quiet s1) end.
  { body s. open. eexists; split; [reflexivity|]. split; [exists y; now split|]. exists a, a. repeat split; try assumption; apply Oa. }
  destruct Q0 as (s1 & -> & Q1). cbn [obind]. destruct (ie_quiet n (relax_c (ImplicitEuler n k)) k dt n s1 Q1) as (s2 & -> & Q2). cbn [obind].
  now apply tail_quiet.
Qed.
Lemma eq_an n k s dt : quiet s -> exists s', step (AndersonEuler n k) s dt = Ok s' /\ quiet s'.
Proof.
  intro Q. cbn [MScheme.step]. unfold step_an.
  destruct (an_quiet n (relax_c (AndersonEuler n k)) k dt n (set_t mst mdst Env s (TT s + k * dt))) as (s2 & -> & Q2); [exact Q|]. cbn [obind].
  now apply tail_quiet.
Qed.
End Q.

(** A body that rests with an orientation other than the identity: the implicit Newmark
    and Wilson schemes and the stationary scheme change its orientation quaternion. *)
Definition tilted : mst := Ms [] [] [] [St (XQ vzero (Q4 0 1 0 0)) v6zero].
Definition rest : mdst := Md [] [] [] [Dr (XQ vzero (Q4 0 0 0 0)) v6zero].
Definition resting (_ : R) (_ : mst) : mdst := rest.
Definition bodysh : shp := ([], 0%nat, 0%nat, 1%nat).
Definition env1 := (R * mst)%type.
Definition upd1 (f : R -> mst -> mdst) (e : env1) (t l : R) (x : mst) : outcome env1 := Ok (t, x).
Definition cal1 (f : R -> mst -> mdst) (e : env1) (d : mdst) : outcome (env1 * mdst) := Ok (e, f (fst e) (snd e)).
Lemma follows1 sh f : (forall t x, okS sh x -> okD sh (f t x)) -> follows sh f (fun e => e) (upd1 f) (cal1 f).
Proof.
  intro H. constructor; [exact H| |].
  - intros e t l x _. exists (t, x). now split.
  - intros e d t x -> _. exists (t, x). now split.
Qed.
Lemma rest_ok : forall t x, okS bodysh x -> okD bodysh (resting t x).
Proof. intros. split; [constructor|reflexivity]. Qed.
Lemma tilted_eq : equilibrium bodysh resting tilted.
Proof. split; [split; [constructor|reflexivity]|]. intros t i. unfold dc. destruct (Nat.lt_ge_cases i 13) as [L|L]; [|now apply nth_overflow]. do 13 (destruct i as [|i]; [reflexivity|]). lia. Qed.
Lemma e2q0 : euler2quat vzero = qident.
Proof. unfold euler2quat, qmul, qident, vzero. cbn. replace (0 / 2) with 0 by lra. rewrite cos_0, sin_0. f_equal; lra. Qed.
Lemma newmark_refuted dt : dt <> 0 -> exists s' x', step mst mdst env1 system_ops (upd1 resting) (cal1 resting) (fun _ a _ => a) (fun e _ => Ok e) (fun _ _ => false)
    (Newmark 1 0.5 0.25) (Ts mst mdst env1 0 0 (0, tilted) [tilted; tilted] [rest; rest; rest] 0 0 1) dt = Ok s' /\ state0 s' x' /\ sc x' 3 = dt /\ sc tilted 3 = 0.
Proof.
  intros Hd.
  cbv beta iota zeta delta [step step_nm nm_loop nm_apply accept update calc copy_d put_r put_d finish set_t set_tl set_env set_rr set_rd
    tt tl env rr rd nst err boost vget vset nth_error obind upd1 cal1 resting o_sadd o_scale o_newmark system_ops fst snd Nat.ltb Nat.leb
    negb omap mnewmark_d mscale_d madd_s czip zipw ok2 rest tilted d_lines d_points d_rods d_bodies s_lines s_points s_rods s_bodies length Nat.eqb map rscale radd rnewmark pos vel dvel dacc].
  eexists. exists (Ms [] [] [] [St (XQ vzero (Q4 dt 1 0 0)) v6zero]). split; [reflexivity|].
  split; [|split; [unfold sc; cbn [nth flat flat_map flat_rigid app lq l3 l6 s_lines s_points s_rods s_bodies pos vel xq_pos xq_quat vzero vx vy vz qw]; reflexivity|reflexivity]].
  unfold state0. cbn [rr nth_error]. 
  replace (v6scale dt (nmkb6 0.25 v6zero v6zero)) with v6zero by (cbv [v6scale nmkb6 v6zero v6add v6hd v6tl vzero vscale vadd vx vy vz]; f_equal; f_equal; ring).
  replace (nmk6 0.5 v6zero v6zero) with v6zero by (cbv [v6scale nmk6 v6zero v6add v6hd v6tl vzero vscale vadd vx vy vz]; f_equal; f_equal; ring).
  unfold fromVec6. cbn [v6hd v6tl v6zero]. rewrite e2q0.
  cbv [xqadd xqscale qadd qscale qident xq_pos xq_quat qw qx qy qz v6scale v6zero v6add v6hd v6tl vzero vscale vadd vx vy vz].
  repeat (f_equal; try ring).
Qed.
