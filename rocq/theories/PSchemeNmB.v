(** A resting system of lines and points is left at rest by the implicit Newmark and Wilson schemes. *)
From Coq Require Import Reals List Arith Bool Lra Lia.
From Verif Require Import MErr MVec MInterp PInterp MStateOps SStateOps PStateOps MScheme SScheme PScheme PSchemeTot PSchemeSys PSchemeOrd PSchemeEq PSchemeNm.
Import ListNotations.
Open Scope R_scope.

Lemma line_cover ns i : (i < 6 * list_sum ns)%nat -> exists k j, (k < length ns)%nat /\ (j < 3 * nth k ns O)%nat /\
  (i = 6 * list_sum (firstn k ns) + j \/ i = 6 * list_sum (firstn k ns) + j + 3 * nth k ns O)%nat.
Proof.
  revert i; induction ns as [|n ns IH]; intros i H; [cbn in H; lia|]. rewrite lsum_cons in H.
  destruct (Nat.lt_ge_cases i (6 * n)) as [L|L].
  - destruct (Nat.lt_ge_cases i (3 * n)) as [L'|L'].
    + exists 0%nat, i. cbn [nth firstn length]. change (list_sum []) with 0%nat. lia.
    + exists 0%nat, (i - 3 * n)%nat. cbn [nth firstn length]. change (list_sum []) with 0%nat. lia.
  - destruct (IH (i - 6 * n)%nat) as (k & j & Hk & Hj & E); [lia|]. exists (S k), j. cbn [nth firstn length]. rewrite lsum_cons.
    revert Hj E. generalize (nth k ns O), (list_sum (firstn k ns)). intros. lia.
Qed.
Lemma mate_cover sh i : (i < 6 * (list_sum (fst (fst (fst sh))) + snd (fst (fst sh))))%nat -> exists p v, mate sh p v /\ (i = p \/ i = v).
Proof.
  intros H. destruct sh as [[[ns np] nr] nb]. cbn [fst snd] in *. destruct (Nat.lt_ge_cases i (6 * list_sum ns)) as [L|L].
  - destruct (line_cover ns i L) as (k & j & Hk & Hj & E). exists (6 * list_sum (firstn k ns) + j)%nat, (6 * list_sum (firstn k ns) + j + 3 * nth k ns O)%nat.
    split; [|exact E]. left. exists k, j. cbn. repeat split; try assumption.
  - set (q := (i - 6 * list_sum ns)%nat). pose proof (Nat.div_mod q 6) as D. pose proof (Nat.mod_upper_bound q 6) as B.
    assert (Hq : (q / 6 < np)%nat) by (apply Nat.div_lt_upper_bound; lia).
    destruct (Nat.lt_ge_cases (q mod 6) 3) as [L'|L'].
    + exists (6 * (list_sum ns + q / 6) + q mod 6)%nat, (6 * (list_sum ns + q / 6) + q mod 6 + 3)%nat. split; [|left; lia].
      right. exists (q / 6)%nat, (q mod 6)%nat. cbn [fst snd]. repeat split; lia.
    + exists (6 * (list_sum ns + q / 6) + (q mod 6 - 3))%nat, (6 * (list_sum ns + q / 6) + (q mod 6 - 3) + 3)%nat. split; [|right; lia].
      right. exists (q / 6)%nat, (q mod 6 - 3)%nat. cbn [fst snd]. repeat split; lia.
Qed.
Lemma flat_dlen sh d : okD sh d -> snd (fst sh) = 0%nat -> snd sh = 0%nat -> length (flatd d) = (6 * (list_sum (fst (fst (fst sh))) + snd (fst (fst sh))))%nat.
Proof.
  intros [Rd Sd] H3 H4. subst sh. cbn [fst snd shaped] in *. destruct d as [ls ps rs bs]. cbn [d_lines d_points d_rods d_bodies] in *.
  destruct rs; [|discriminate]. destruct bs; [|discriminate]. unfold flatd. cbn [d_lines d_points d_rods d_bodies flat_map]. rewrite !app_length. cbn [length].
  assert (A : length (flat_map flat_dline ls) = (6 * list_sum (map (fun l : drv (list v3) (list v3) => length (dvel l)) ls))%nat).
  { unfold regulard in Rd. cbn in Rd. induction Rd as [|x l Hx _ IH]; [reflexivity|]. cbn [flat_map map]. rewrite lsum_cons, app_length, IH, (dline_len x Hx). lia. }
  assert (B : length (flat_map flat_dpoint ps) = (6 * length ps)%nat). { clear. induction ps as [|p ps IH]; [reflexivity|]. cbn [flat_map]. rewrite app_length, IH. cbn [flat_dpoint l3 app length]. lia. }
  rewrite A, B. lia.
Qed.
(** without rods and bodies an entry by entry property of a derivative follows from its pairs *)
Lemma by_pairs sh d : okD sh d -> snd (fst sh) = 0%nat -> snd sh = 0%nat -> (forall p v, mate sh p v -> dc d p = 0 /\ dc d v = 0) -> still d.
Proof.
  intros Hd H3 H4 H i. destruct (Nat.lt_ge_cases i (length (flatd d))) as [L|L]; [|unfold dc; now rewrite nth_overflow].
  rewrite (flat_dlen sh d Hd H3 H4) in L. destruct (mate_cover sh i L) as (p & v & M & [-> | ->]); apply (H p v M).
Qed.
Section E.
Variables (Env : Type) (sh : shp) (f : R -> mst -> mdst) (cur : Env -> R * mst).
Variable upd : Env -> R -> R -> mst -> outcome Env.
Variable cal : Env -> mdst -> outcome (Env * mdst).
Variable lim : Env -> R -> R -> R.
Variable setmask : Env -> R -> outcome Env.
Variable conv : mdst -> mdst -> bool.
Hypothesis HF : follows sh f cur upd cal.
Hypothesis Hrods : snd (fst sh) = 0%nat.
Hypothesis Hbodies : snd sh = 0%nat.
Variable x : mst.
Hypothesis HX : equilibrium sh f x.
Notation step := (step mst mdst Env system_ops upd cal lim setmask conv).
Ltac open := cbv beta iota zeta delta [nm_apply wi_apply accept update calc axpy copy_d mix_d put_r put_d finish
   set_t set_tl set_env set_rr set_rd set_nst set_err set_boost tt tl env rr rd nst err boost vget vset nth_error obind
   o_sadd o_scale o_dadd o_dsub o_ssub o_dmix o_newmark o_wilson system_ops fst snd andb].
Lemma nm_still a b g be dt : okD sh a -> okD sh b -> still a -> still b -> exists d z, mnewmark_d a b dt g be = Ok d /\ mscale_d d dt = Ok z /\ madd_s x z = Ok x.
Proof.
  intros Ha Hb Sa Sb. destruct (c_newmark _ _ _ (system_closed sh) a b dt g be Ha Hb) as (d & E1' & Od). cbn in E1'.
  assert (Sd : still d). { apply (by_pairs sh d Od Hrods Hbodies). intros p v M. destruct (newmark_dc sh a b dt g be d Ha Hb E1' p v M) as [P V]. rewrite P, V, (Sa p), (Sa v), (Sb v). split; ring. }
  destruct (move_it sh f x HX d dt Od Sd) as (z & Ez & Ea). exists d, z. repeat split; assumption.
Qed.
Lemma wi_still a b tau dt : okD sh a -> okD sh b -> still a -> still b -> exists d z, mwilson_d a b tau dt = Ok d /\ mscale_d d tau = Ok z /\ madd_s x z = Ok x.
Proof.
  intros Ha Hb Sa Sb. destruct (c_wilson _ _ _ (system_closed sh) a b tau dt Ha Hb) as (d & E1' & Od). cbn in E1'.
  assert (Sd : still d). { apply (by_pairs sh d Od Hrods Hbodies). intros p v M. destruct (wilson_dc sh a b tau dt d Ha Hb E1' p v M) as [P V]. rewrite P, V, (Sa p), (Sa v), (Sb v). split; ring. }
  destruct (move_it sh f x HX d tau Od Sd) as (z & Ez & Ea). exists d, z. repeat split; assumption.
Qed.
Notation quiet3 := (SScheme.quiet3 sh x).
Lemma nm_quiet iters c0 g be dt n t l e y a b c nn er bo : okS sh y -> okD sh a -> okD sh b -> okD sh c -> still a -> still b -> still c ->
  exists e' y' b' c', nm_loop mst mdst Env system_ops upd cal iters c0 g be dt n (Ts mst mdst Env t l e [x; y] [a; b; c] nn er bo) = Ok (Ts mst mdst Env t l e' [x; y'] [a; b'; c'] nn er bo)
   /\ okS sh y' /\ okD sh b' /\ okD sh c' /\ still b' /\ still c'.
Proof.
  revert e y b c; induction n as [|n IH]; intros e y b c Oy Oa Ob Oc Sa Sb Sc; cbn [nm_loop].
  - exists e, y, b, c. repeat (split; [first [assumption|reflexivity]|]). assumption.
  - open. destruct (nm_still a b g be dt Oa Ob Sa Sb) as (d & z & Ed & Ez & Ex). rewrite Ed. open. rewrite Ez. open. rewrite Ex. open.
    pose proof (proj1 HX) as Ox. destruct (fol_upd _ _ _ _ _ HF e t (dt + l) x Ox) as (e1 & Eu & Cu). rewrite Eu. open.
    destruct (fol_cal _ _ _ _ _ HF e1 b _ _ Cu Ob) as (e2 & Ec & Cc). rewrite Ec. open. pose proof (fol_f _ _ _ _ _ HF t x Ox) as Of. pose proof (proj2 HX t) as Sf.
    destruct (0 <? n)%nat; open.
    + destruct (mix_still sh (f t x) c (relax iters c0 (iters - S n)) Of Oc Sf Sc) as (m & Em & Om & Sm). rewrite Em. open. apply IH; assumption.
    + apply IH; assumption.
Qed.
Lemma eq_nm iters g be s dt : quiet3 s -> exists s', step (Newmark iters g be) s dt = Ok s' /\ quiet3 s'.
Proof.
  destruct s as [t l e rs ds nn er bo]. intros ((y & Hr & Oy) & (a & b & c & Hd & Oa & Ob & Oc & Sa & Sb & Sc)). cbn in Hr, Hd. subst rs ds.
  cbn [MScheme.step]. unfold step_nm. open. match goal with |- context [nm_loop _ _ _ _ _ _ _ ?c] => set (c0 := c) end.
  destruct (nm_quiet iters c0 g be dt iters (t + dt) l e y a a a nn er bo Oy Oa Oa Oa Sa Sa Sa) as (e' & y' & b' & c' & E & Oy' & Ob' & Oc' & Sb' & Sc').
  unfold system_ops in E. rewrite E. open. destruct (nm_still a b' g be dt Oa Ob' Sa Sb') as (d & z & Ed & Ez & Ex). rewrite Ed. open. rewrite Ez. open. rewrite Ex. open.
  pose proof (proj1 HX) as Ox. destruct (fol_upd _ _ _ _ _ HF e' (t + dt) (dt + l) x Ox) as (e1 & Eu & Cu). rewrite Eu. open.
  eexists. split; [reflexivity|]. split; cbn; [exists x; now split|]. exists b', b', c'. repeat (split; [first [assumption|reflexivity]|]). assumption.
Qed.
Lemma wi_quiet iters c0 tdt n t l e y a b c nn er bo : okS sh y -> okD sh a -> okD sh b -> still a -> still b ->
  exists e' y' a' b', wi_loop mst mdst Env system_ops upd cal iters c0 tdt n (Ts mst mdst Env t l e [x; y] [a; b; c] nn er bo) = Ok (Ts mst mdst Env t l e' [x; y'] [a'; b'; c] nn er bo)
   /\ okS sh y' /\ okD sh a' /\ okD sh b' /\ still a' /\ still b'.
Proof.
  revert e y a b; induction n as [|n IH]; intros e y a b Oy Oa Ob Sa Sb; cbn [wi_loop].
  - exists e, y, a, b. repeat (split; [first [assumption|reflexivity]|]). assumption.
  - open. destruct (wi_still a b tdt tdt Oa Ob Sa Sb) as (d & z & Ed & Ez & Ex). rewrite Ed. open. rewrite Ez. open. rewrite Ex. open.
    pose proof (proj1 HX) as Ox. destruct (fol_upd _ _ _ _ _ HF e t (tdt + l) x Ox) as (e1 & Eu & Cu). rewrite Eu. open.
    destruct (fol_cal _ _ _ _ _ HF e1 b _ _ Cu Ob) as (e2 & Ec & Cc). rewrite Ec. open. pose proof (fol_f _ _ _ _ _ HF t x Ox) as Of. pose proof (proj2 HX t) as Sf.
    destruct (0 <? n)%nat; open.
    + destruct (mix_still sh a (f t x) (relax iters c0 (iters - S n)) Oa Of Sa Sf) as (m & Em & Om & Sm). rewrite Em. open. apply IH; assumption.
    + apply IH; assumption.
Qed.
Lemma eq_wi iters th s dt : quiet3 s -> exists s', step (Wilson iters th) s dt = Ok s' /\ quiet3 s'.
Proof.
  destruct s as [t l e rs ds nn er bo]. intros ((y & Hr & Oy) & (a & b & c & Hd & Oa & Ob & Oc & Sa & Sb & Sc)). cbn in Hr, Hd. subst rs ds.
  cbn [MScheme.step]. unfold step_wi. open. match goal with |- context [wi_loop _ _ _ _ _ _ _ ?c] => set (c0 := c) end.
  destruct (wi_quiet iters c0 (th * dt) iters (t + th * dt) l e y a a c nn er bo Oy Oa Oa Sa Sa) as (e' & y' & a' & b' & E & Oy' & Oa' & Ob' & Sa' & Sb').
  unfold system_ops in E. rewrite E. open. destruct (wi_still a' b' dt (th * dt) Oa' Ob' Sa' Sb') as (d & z & Ed & Ez & Ex). rewrite Ed. open. rewrite Ez. open. rewrite Ex. open.
  pose proof (proj1 HX) as Ox. match goal with |- context [upd ?e ?t ?l ?x] => destruct (fol_upd _ _ _ _ _ HF e t l x Ox) as (e1 & Eu & Cu); rewrite Eu end. open.
  eexists. split; [reflexivity|]. split; cbn; [exists x; now split|]. exists b', b', c. repeat (split; [first [assumption|reflexivity]|]). assumption.
Qed.
End E.
