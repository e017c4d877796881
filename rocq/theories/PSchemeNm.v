(** Implicit Newmark and Wilson steps, coordinate by coordinate. *)
From Coq Require Import Reals List Arith Bool Lra Lia.
From Verif Require Import MErr MVec MInterp PInterp MStateOps SStateOps PStateOps MScheme SScheme PScheme PSchemeTot PSchemeSys PSchemeOrd.
Import ListNotations.
Open Scope R_scope.

(** both formulas have this form *)
Definition lin3 (c1 c2 : R) (a b : v3) := vadd (vscale c1 a) (vscale c2 b).
Definition glin (A B1 B2 C1 C2 : R) (a b : dlst) : outcome dlst :=
  let n := length (dvel a) in
  aa <- take n (dacc a) ;; ab <- take n (dacc b) ;;
  p <- zipw (ok2 (fun v x => vadd v (vscale A x))) (dvel a) (map (fun xy => lin3 B1 B2 (fst xy) (snd xy)) (combine aa ab)) ;;
  v <- zipw (ok2 (lin3 C1 C2)) aa ab ;; Ok (Dr p v).
Definition gpnt (A B1 B2 C1 C2 : R) (a b : dpst) : dpst :=
  Dr (vadd (dvel a) (vscale A (lin3 B1 B2 (dacc a) (dacc b)))) (lin3 C1 C2 (dacc a) (dacc b)).

Lemma flat3_len (l : list v3) : length (flat_map l3 l) = (3 * length l)%nat.
Proof. induction l; cbn [flat_map length]; [reflexivity|]. rewrite app_length, IHl. cbn [l3 length]. lia. Qed.
Lemma lsum_cons n l : list_sum (n :: l) = (n + list_sum l)%nat. Proof. reflexivity. Qed.
Section K.
Variables A B1 B2 C1 C2 : R.
Notation OPV := (fun u x : R => u + A * x).
Notation LIN c1 c2 := (fun u x : R => c1 * u + c2 * x).
Lemma lin_each c1 c2 u w : l3 (lin3 c1 c2 u w) = each (LIN c1 c2) (l3 u) (l3 w). Proof. reflexivity. Qed.
Lemma opv_each u w : l3 (vadd u (vscale A w)) = each OPV (l3 u) (l3 w). Proof. reflexivity. Qed.
Lemma glin_ok x y : length (dvel x) = length (dvel y) -> length (dacc x) = length (dvel x) -> length (dacc y) = length (dvel y) ->
  exists z, glin A B1 B2 C1 C2 x y = Ok z /\ length (dvel z) = length (dvel x) /\ length (dacc z) = length (dvel x) /\
   forall i, (i < 3 * length (dvel x))%nat ->
     nth i (flat_dline z) 0 = nth i (flat_dline x) 0 + A * (B1 * nth (i + 3 * length (dvel x)) (flat_dline x) 0 + B2 * nth (i + 3 * length (dvel x)) (flat_dline y) 0) /\
     nth (i + 3 * length (dvel x)) (flat_dline z) 0 = C1 * nth (i + 3 * length (dvel x)) (flat_dline x) 0 + C2 * nth (i + 3 * length (dvel x)) (flat_dline y) 0.
Proof.
  intros L1 L2 L3. unfold glin. rewrite !take_all by lia. cbn [obind].
  assert (LM : length (map (fun xy => lin3 B1 B2 (fst xy) (snd xy)) (combine (dacc x) (dacc y))) = length (dvel x)) by (rewrite map_length, combine_length; lia).
  rewrite zipw_ok2 by lia. cbn [obind]. rewrite zipw_ok2 by lia. cbn [obind]. eexists; split; [reflexivity|]. cbn [dvel dacc].
  split; [rewrite map_length, combine_length; lia|]. split; [rewrite map_length, combine_length; lia|].
  destruct (flat3_each (fun v x => vadd v (vscale A x)) OPV (dvel x) _ opv_each (eq_sym LM)) as [E1 M1].
  destruct (flat3_each (lin3 B1 B2) (LIN B1 B2) (dacc x) (dacc y) (lin_each B1 B2)) as [E2 M2]; [lia|].
  destruct (flat3_each (lin3 C1 C2) (LIN C1 C2) (dacc x) (dacc y) (lin_each C1 C2)) as [E3 M3]; [lia|].
  intros i Hi. unfold flat_dline. cbn [dvel dacc]. rewrite E1, E2, E3.
  pose proof (flat3_len (dvel x)) as F1. pose proof (flat3_len (dacc x)) as F2. pose proof (flat3_len (dvel y)) as F3. pose proof (flat3_len (dacc y)) as F4.
  assert (E2L : length (each (LIN B1 B2) (flat_map l3 (dacc x)) (flat_map l3 (dacc y))) = length (flat_map l3 (dvel x))) by (rewrite each_length; lia).
  assert (E1L : length (each OPV (flat_map l3 (dvel x)) (each (LIN B1 B2) (flat_map l3 (dacc x)) (flat_map l3 (dacc y)))) = length (flat_map l3 (dvel x))) by (rewrite each_length; [reflexivity|lia]).
  split.
  - rewrite !(app_nth1 _ _ 0 (n := i)) by lia. rewrite (app_nth2 (flat_map l3 (dvel x))), (app_nth2 (flat_map l3 (dvel y))) by lia.
    rewrite each_nth by (try lia; lra). rewrite each_nth by (try lia; lra).
    rewrite F1, F3. replace (i + 3 * length (dvel x) - 3 * length (dvel x))%nat with i by lia. replace (i + 3 * length (dvel x) - 3 * length (dvel y))%nat with i by lia. reflexivity.
  - rewrite !app_nth2 by lia. rewrite E1L. rewrite each_nth by (try lia; lra). rewrite F1, F3.
    replace (i + 3 * length (dvel x) - 3 * length (dvel x))%nat with i by lia. replace (i + 3 * length (dvel x) - 3 * length (dvel y))%nat with i by lia. reflexivity.
Qed.
Lemma dline_len (x : dlst) : length (dacc x) = length (dvel x) -> length (flat_dline x) = (6 * length (dvel x))%nat.
Proof. intro H. unfold flat_dline. rewrite app_length, !flat3_len. lia. Qed.
Definition ok_pair (fa fb fc : list R) (p v : nat) := nth p fc 0 = nth p fa 0 + A * (B1 * nth v fa 0 + B2 * nth v fb 0) /\ nth v fc 0 = C1 * nth v fa 0 + C2 * nth v fb 0.
Lemma glines a b c : map (fun l => length (dvel l)) a = map (fun l => length (dvel l)) b ->
  Forall (fun l : dlst => length (dacc l) = length (dvel l)) a -> Forall (fun l : dlst => length (dacc l) = length (dvel l)) b ->
  zipw (glin A B1 B2 C1 C2) a b = Ok c ->
  let ns := map (fun l => length (dvel l)) a in
  length (flat_map flat_dline a) = (6 * list_sum ns)%nat /\ length (flat_map flat_dline b) = (6 * list_sum ns)%nat /\ length (flat_map flat_dline c) = (6 * list_sum ns)%nat /\
  forall k i, (k < length ns)%nat -> (i < 3 * nth k ns O)%nat ->
   ok_pair (flat_map flat_dline a) (flat_map flat_dline b) (flat_map flat_dline c) (6 * list_sum (firstn k ns) + i) (6 * list_sum (firstn k ns) + i + 3 * nth k ns O).
Proof.
  revert b c; induction a as [|x a IH]; intros [|y b] c H Ha Hb E; try discriminate.
  - injection E as <-. cbn. repeat split; try lia.
  - cbn [map] in H. injection H as Hn H. inversion Ha as [|? ? Hx Ha']; subst. inversion Hb as [|? ? Hy Hb']; subst.
    destruct (glin_ok x y Hn Hx Hy) as (z & Ez & Lz & Lz' & Hz). cbn [zipw] in E. rewrite Ez in E. cbn [obind] in E.
    destruct (zipw (glin A B1 B2 C1 C2) a b) as [c'| | |] eqn:Ec; try discriminate. cbn [obind] in E. injection E as <-.
    destruct (IH b c' H Ha' Hb' Ec) as (La & Lb & Lc & HK). cbn zeta in La, Lb, Lc, HK. cbn [map flat_map].
    pose proof (dline_len x Hx) as Dx. pose proof (dline_len y Hy) as Dy. assert (Dz : length (flat_dline z) = (6 * length (dvel x))%nat) by (rewrite dline_len; lia).
    cbv zeta. rewrite !app_length, La, Lb, Lc, Dx, Dy, Dz, <- Hn. rewrite lsum_cons.
    do 3 (split; [lia|]). intros [|k] i Hk Hi.
    + cbn [firstn list_sum fold_right nth] in *. destruct (Hz i Hi) as [Z1 Z2]. unfold ok_pair. change (6 * 0 + i)%nat with i.
      rewrite !app_nth1 by lia. split; [exact Z1|exact Z2].
    + cbn [nth length] in *. cbn [firstn]. rewrite lsum_cons.
      specialize (HK k i ltac:(lia) Hi). revert HK. generalize (list_sum (firstn k (map (fun l => length (dvel l)) a))), (nth k (map (fun l => length (dvel l)) a) O). intros m q [Z1 Z2]. unfold ok_pair.
      rewrite !app_nth2 by lia. rewrite Dx, Dy, Dz, <- Hn.
      replace (6 * (length (dvel x) + m) + i - 6 * length (dvel x))%nat with (6 * m + i)%nat by lia.
      replace (6 * (length (dvel x) + m) + i + 3 * q - 6 * length (dvel x))%nat with (6 * m + i + 3 * q)%nat by lia. split; [exact Z1|exact Z2].
Qed.
Lemma gpoints a b : length a = length b ->
  let cs := map (fun p => gpnt A B1 B2 C1 C2 (fst p) (snd p)) (combine a b) in
  length (flat_map flat_dpoint a) = (6 * length a)%nat /\ length (flat_map flat_dpoint b) = (6 * length a)%nat /\ length (flat_map flat_dpoint cs) = (6 * length a)%nat /\
  forall j c, (j < length a)%nat -> (c < 3)%nat -> ok_pair (flat_map flat_dpoint a) (flat_map flat_dpoint b) (flat_map flat_dpoint cs) (6 * j + c) (6 * j + c + 3).
Proof.
  revert b; induction a as [|x a IH]; intros [|y b] H; try discriminate.
  - cbn. repeat split; try lia.
  - injection H as H. destruct (IH b H) as (La & Lb & Lc & HK). cbn zeta in La, Lb, Lc, HK. cbv zeta. cbn [combine map flat_map fst snd length].
    rewrite !app_length, La, Lb, Lc. assert (D : forall q : dpst, length (flat_dpoint q) = 6%nat) by reflexivity. rewrite !D.
    do 3 (split; [lia|]). intros [|j] c Hj Hc.
    + destruct x as [[? ? ?] [? ? ?]], y as [[? ? ?] [? ? ?]]. destruct c as [|[|[|c]]]; [| | |lia]; split; reflexivity.
    + destruct (HK j c) as [Z1 Z2]; [lia|exact Hc|]. unfold ok_pair. rewrite !app_nth2 by (rewrite D; lia). rewrite !D.
      replace (6 * S j + c - 6)%nat with (6 * j + c)%nat by lia. replace (6 * S j + c + 3 - 6)%nat with (6 * j + c + 3)%nat by lia. split; [exact Z1|exact Z2].
Qed.
Lemma ok_pair_app1 fa fb fc ga gb gc p v n : length fa = n -> length fb = n -> length fc = n -> (p < n)%nat -> (v < n)%nat ->
  ok_pair fa fb fc p v -> ok_pair (fa ++ ga) (fb ++ gb) (fc ++ gc) p v.
Proof. intros L1 L2 L3 Hp Hv [Q1 Q2]. unfold ok_pair. rewrite !app_nth1 by lia. split; assumption. Qed.
Lemma ok_pair_app2 fa fb fc ga gb gc p v n : length fa = n -> length fb = n -> length fc = n -> (n <= p)%nat -> (n <= v)%nat ->
  ok_pair ga gb gc (p - n) (v - n) -> ok_pair (fa ++ ga) (fb ++ gb) (fc ++ gc) p v.
Proof. intros L1 L2 L3 Hp Hv [Q1 Q2]. unfold ok_pair. rewrite !app_nth2 by lia. rewrite L1, L2, L3. split; assumption. Qed.
Lemma firstn_sum k ns : (k < length ns)%nat -> (list_sum (firstn k ns) + nth k ns O <= list_sum ns)%nat.
Proof.
  revert k; induction ns as [|x ns IH]; intros [|k] H; cbn [length firstn nth] in *; try lia.
  - change (list_sum (x :: ns)) with (x + list_sum ns)%nat. cbn. lia.
  - change (list_sum (x :: ns)) with (x + list_sum ns)%nat. change (list_sum (x :: firstn k ns)) with (x + list_sum (firstn k ns))%nat. specialize (IH k). lia.
Qed.
Lemma gsystem sh a b c l pt rs bs : okD sh a -> okD sh b ->
  zipw (glin A B1 B2 C1 C2) (d_lines a) (d_lines b) = Ok l -> zipw (ok2 (gpnt A B1 B2 C1 C2)) (d_points a) (d_points b) = Ok pt -> c = Md l pt rs bs ->
  forall p v, mate sh p v -> dc c p = dc a p + A * (B1 * dc a v + B2 * dc b v) /\ dc c v = C1 * dc a v + C2 * dc b v.
Proof.
  intros [Ra Sa] [Rb Sb] El Ep -> p v M. assert (HS : shaped a = shaped b) by congruence. unfold shaped in HS. injection HS as H1 H2 H3 H4.
  destruct (glines _ _ _ H1 Ra Rb El) as (La & Lb & Lc & HK). cbn zeta in La, Lb, Lc, HK.
  rewrite zipw_ok2 in Ep by exact H2. injection Ep as <-.
  destruct (gpoints _ _ H2) as (Pa & Pb & Pc & HP). cbn zeta in Pa, Pb, Pc, HP.
  change (ok_pair (flatd a) (flatd b) (flatd (Md l (map (fun p => gpnt A B1 B2 C1 C2 (fst p) (snd p)) (combine (d_points a) (d_points b))) rs bs)) p v).
  unfold flatd. cbn [d_lines d_points d_rods d_bodies]. subst sh. unfold mate in M. cbn [fst snd shaped] in M.
  set (ns := map (fun l : drv (list v3) (list v3) => length (dvel l)) (d_lines a)) in *.
  destruct M as [(k & i & Hk & Hi & Ep & Ev)|(j & cc & Hj & Hc & Ep & Ev)].
  - pose proof (firstn_sum k ns Hk) as HS. specialize (HK k i Hk Hi). revert HS Hi Ep Ev HK. generalize (list_sum (firstn k ns)), (nth k ns O). intros m q HS Hi Ep Ev HK.
    apply ok_pair_app1 with (n := (6 * list_sum ns)%nat); [assumption|assumption|assumption|lia|lia|]. rewrite Ev, Ep. exact HK.
  - apply ok_pair_app2 with (n := (6 * list_sum ns)%nat); try assumption; try lia.
    apply ok_pair_app1 with (n := (6 * length (d_points a))%nat); try assumption; try lia.
    replace (p - 6 * list_sum ns)%nat with (6 * j + cc)%nat by lia. replace (v - 6 * list_sum ns)%nat with (6 * j + cc + 3)%nat by lia. apply HP; assumption.
Qed.
End K.
Lemma newmark_dc sh a b dt g be c : okD sh a -> okD sh b -> mnewmark_d a b dt g be = Ok c -> forall p v, mate sh p v ->
  dc c p = dc a p + dt * ((0.5 - be) * dc a v + be * dc b v) /\ dc c v = (1 - g) * dc a v + g * dc b v.
Proof.
  intros Ha Hb E. unfold mnewmark_d in E. assert (HS : shaped a = shaped b) by (destruct Ha, Hb; congruence). unfold shaped in HS. injection HS as H1 H2 H3 H4.
  rewrite !czip_len in E by first [assumption | eapply map_len; eassumption].
  peel E l El. peel E pt Ept. peel E rs Ers. peel E bs Ebs. injection E as <-.
  exact (gsystem dt (0.5 - be) be (1 - g) g sh a b _ l pt rs bs Ha Hb El Ept eq_refl).
Qed.
Lemma wilson_dc sh a b tau dt c : okD sh a -> okD sh b -> mwilson_d a b tau dt = Ok c -> forall p v, mate sh p v ->
  dc c p = dc a p + 0.5 * dt * ((1 - 1 / 3 * (tau / dt)) * dc a v + 1 / 3 * (tau / dt) * dc b v) /\ dc c v = (1 - 0.5 * (tau / dt)) * dc a v + 0.5 * (tau / dt) * dc b v.
Proof.
  intros Ha Hb E. unfold mwilson_d in E. assert (HS : shaped a = shaped b) by (destruct Ha, Hb; congruence). unfold shaped in HS. injection HS as H1 H2 H3 H4.
  rewrite !czip_len in E by first [assumption | eapply map_len; eassumption].
  peel E l El. peel E pt Ept. peel E rs Ers. peel E bs Ebs. injection E as <-.
  exact (gsystem (0.5 * dt) (1 - 1 / 3 * (tau / dt)) (1 / 3 * (tau / dt)) (1 - 0.5 * (tau / dt)) (0.5 * (tau / dt)) sh a b _ l pt rs bs Ha Hb El Ept eq_refl).
Qed.
Lemma mix_dc sh a b k c : okD sh a -> okD sh b -> mmix_d a b k = Ok c -> forall i, dc c i = (1 - k) * dc a i + k * dc b i.
Proof.
  intros [Ra Sa] [Rb Sb] E i. destruct (mmix_d_ok a b k Ra Rb) as (c' & E' & F & _ & _ & L); [congruence|]. rewrite E in E'. injection E' as <-.
  unfold dc. rewrite F, each_nth; [reflexivity|exact L|unfold rmx; lra].
Qed.

Section O.
Variables (Env : Type) (sh : shp) (f : R -> mst -> mdst) (cur : Env -> R * mst).
Variable upd : Env -> R -> R -> mst -> outcome Env.
Variable cal : Env -> mdst -> outcome (Env * mdst).
Variable lim : Env -> R -> R -> R.
Variable setmask : Env -> R -> outcome Env.
Variable conv : mdst -> mdst -> bool.
Hypothesis HF : follows sh f cur upd cal.
Notation step := (step mst mdst Env system_ops upd cal lim setmask conv).
Notation tsch := (tsch mst mdst Env).
Notation TT := (tt mst mdst Env). Notation RR := (rr mst mdst Env). Notation RD := (rd mst mdst Env).
Ltac open := cbv beta iota zeta delta [nm_apply wi_apply accept update calc axpy copy_d mix_d put_r put_d finish
   set_t set_tl set_env set_rr set_rd set_nst set_err set_boost tt tl env rr rd nst err boost vget vset nth_error obind
   o_sadd o_scale o_dadd o_dsub o_ssub o_dmix o_newmark o_wilson system_ops fst snd andb].

Notation nm_moved := (SScheme.nm_moved sh).
Lemma nm_move x a b g be dt : okS sh x -> okD sh a -> okD sh b -> exists d z y,
  mnewmark_d a b dt g be = Ok d /\ mscale_d d dt = Ok z /\ madd_s x z = Ok y /\ nm_moved g be dt x a b y.
Proof.
  intros Hx Ha Hb. destruct (c_newmark _ _ _ (system_closed sh) a b dt g be Ha Hb) as (d & E1' & Od). cbn in E1'.
  destruct (c_scale _ _ _ (system_closed sh) d dt Od) as (z & E2' & Oz). cbn in E2'. destruct (c_sadd _ _ _ (system_closed sh) x z Hx Oz) as (y & E3' & Oy). cbn in E3'.
  exists d, z, y. do 3 (split; [assumption|]). split; [exact Oy|]. intros p v M. destruct (newmark_dc sh a b dt g be d Ha Hb E1' p v M) as [P V].
  rewrite !(add_sc sh x z y Hx Oz E3'), !(scale_sc d dt z (proj1 Od) E2'), P, V. unfold newmark_v, newmark_x. split; lra.
Qed.
Section Q.
Variable Q : mdst -> Prop.
Variable t : R.
Hypothesis Qf : forall y, okS sh y -> Q (f t y).
Hypothesis Qmix : forall a b k c, okD sh a -> okD sh b -> Q a -> Q b -> mmix_d a b k = Ok c -> Q c.
Lemma nm_loop_run iters c g be dt n l e x y d0 d1 d2 nn er bo : okS sh x -> okS sh y -> okD sh d0 -> okD sh d1 -> okD sh d2 -> Q d1 -> Q d2 ->
  exists e' y' d2' b, nm_loop mst mdst Env system_ops upd cal iters c g be dt (S n) (Ts mst mdst Env t l e [x; y] [d0; d1; d2] nn er bo)
    = Ok (Ts mst mdst Env t l e' [x; y'] [d0; f t y'; d2'] nn er bo) /\ okD sh d2' /\ okD sh b /\ Q b /\ nm_moved g be dt x d0 b y' /\ okD sh (f t y') /\ (n = 0%nat -> b = d1).
Proof.
  revert e y d1 d2; induction n as [|n IH]; intros e y d1 d2 Hx Hy H0 H1 H2 Q1 Q2; cbn [nm_loop]; open;
    destruct (nm_move x d0 d1 g be dt Hx H0 H1) as (d & z & y1 & Ed & Ez & Ey & My); rewrite Ed; open; rewrite Ez; open; rewrite Ey; open;
    destruct (fol_upd _ _ _ _ _ HF e t (dt + l) y1 (proj1 My)) as (e1 & Eu & Cu); rewrite Eu; open;
    destruct (fol_cal _ _ _ _ _ HF e1 d1 _ _ Cu H1) as (e2 & Ec & Cc); rewrite Ec; open; pose proof (fol_f _ _ _ _ _ HF t y1 (proj1 My)) as Of.
  - cbn [Nat.ltb Nat.leb]. open. exists e2, y1, d2, d1. repeat (split; [first [assumption|reflexivity]|]). reflexivity.
  - replace (0 <? S n)%nat with true by reflexivity. open.
    destruct (c_dmix _ _ _ (system_closed sh) (f t y1) d2 (relax iters c (iters - S (S n))) Of H2) as (m & Em & Om). cbn in Em. rewrite Em. open.
    pose proof (Qmix _ _ _ _ Of H2 (Qf _ (proj1 My)) Q2 Em) as Qm.
    destruct (IH e2 y1 m m Hx (proj1 My) H0 Om Om Qm Qm) as (e' & y' & d2' & b & E & O2 & Ob & Qb & M & Of' & _).
    exists e', y', d2', b. split; [exact E|]. do 5 (split; [assumption|]). discriminate.
Qed.
End Q.
(** one step: the rates b used for the last iterate y, those at y, and the result *)
Lemma nm_step (Q : mdst -> Prop) iters g be s x d0 dt : (1 <= iters)%nat -> ready sh (Newmark iters g be) s -> state0 s x -> deriv0 s d0 ->
  (forall y, okS sh y -> Q (f (TT s + dt) y)) -> (forall a b k c, okD sh a -> okD sh b -> Q a -> Q b -> mmix_d a b k = Ok c -> Q c) -> Q d0 ->
  exists s' b y x', step (Newmark iters g be) s dt = Ok s' /\ ready sh (Newmark iters g be) s' /\ okD sh b /\ Q b /\ (iters = 1%nat -> b = d0) /\
    nm_moved g be dt x d0 b y /\ nm_moved g be dt x d0 (f (TT s + dt) y) x' /\ state0 s' x' /\ deriv0 s' (f (TT s + dt) y).
Proof.
  intros Hi (A & B & FS & FD) H0 H1 Qf Qmix Q0. destruct s as [t l e rs ds nn er bo]. cbn in A, B, FS, FD, H0, H1, Qf |- *.
  destruct rs as [|x0 [|x1 [|? ?]]]; try discriminate. destruct ds as [|a0 [|a1 [|a2 [|? ?]]]]; try discriminate. injection H0 as ->. injection H1 as ->.
  pose proof (Forall_inv FS) as Hx. pose proof (Forall_inv (Forall_inv_tail FS)) as Hx1. pose proof (Forall_inv FD) as Hd.
  unfold step_nm. open. destruct iters as [|n]; [lia|].
  match goal with |- context [nm_loop _ _ _ _ _ _ _ ?c] => set (c0 := c) end.
  destruct (nm_loop_run Q (t + dt) Qf Qmix (S n) c0 g be dt n l e x x1 d0 d0 d0 nn er bo Hx Hx1 Hd Hd Hd Q0 Q0) as (e' & y & d2' & b & E & O2 & Ob & Qb & M & Of & N1).
  unfold system_ops in E. rewrite E. open. destruct (nm_move x d0 (f (t + dt) y) g be dt Hx Hd Of) as (d & z & y1 & Ed & Ez & Ey & My). rewrite Ed. open. rewrite Ez. open. rewrite Ey. open.
  destruct (fol_upd _ _ _ _ _ HF e' (t + dt) (dt + l) y1 (proj1 My)) as (e1 & Eu & Cu). rewrite Eu. open.
  eexists. exists b, y, y1. split; [reflexivity|]. split.
  { split; [reflexivity|]. split; [reflexivity|]. destruct My as [Oy _]. cbn. split; repeat constructor; try assumption. all: apply Of || apply Oy || apply O2. }
  do 2 (split; [assumption|]). split; [intros K; apply N1; lia|]. do 2 (split; [assumption|]). split; reflexivity.
Qed.
Definition all_Q (d : mdst) : Prop := True.
Lemma nm_method iters g be s x d0 dt : (1 <= iters)%nat -> ready sh (Newmark iters g be) s -> state0 s x -> deriv0 s d0 ->
  exists s' b y x', step (Newmark iters g be) s dt = Ok s' /\ ready sh (Newmark iters g be) s' /\ (iters = 1%nat -> b = d0) /\
    nm_moved g be dt x d0 b y /\ nm_moved g be dt x d0 (f (TT s + dt) y) x' /\ state0 s' x' /\ deriv0 s' (f (TT s + dt) y).
Proof.
  intros Hi G H0 H1. destruct (nm_step all_Q iters g be s x d0 dt Hi G H0 H1) as (s' & b & y & x' & K1 & K2 & K3 & K4 & K5 & K6 & K7 & K8 & K9); [intros; exact I|intros; exact I|exact I|].
  exists s', b, y, x'. repeat (split; [assumption|]). exact K9.
Qed.
(** constant acceleration along a coordinate: exact, and the premises hold again *)
Lemma nm_constant iters g be s x d0 dt p v a0 : (1 <= iters)%nat -> ready sh (Newmark iters g be) s -> state0 s x -> deriv0 s d0 -> mate sh p v ->
  (forall t y, okS sh y -> dc (f t y) p = sc y v /\ dc (f t y) v = a0) -> dc d0 p = sc x v -> dc d0 v = a0 ->
  exists s' x' d', step (Newmark iters g be) s dt = Ok s' /\ ready sh (Newmark iters g be) s' /\ state0 s' x' /\ deriv0 s' d' /\
    dc d' p = sc x' v /\ dc d' v = a0 /\ sc x' v = sc x v + a0 * dt /\ sc x' p = sc x p + sc x v * dt + a0 * (dt * dt) / 2.
Proof.
  intros Hi G H0 H1 M Hf Hp Hv. destruct (nm_step (fun d => dc d v = a0) iters g be s x d0 dt Hi G H0 H1) as (s' & b & y & x' & K1 & K2 & K3 & K4 & K5 & (Oy & K6) & (Ox' & K7) & K8 & K9).
  - intros y Oy. apply (Hf _ _ Oy).
  - intros a b k c Oa Ob Ea Eb Em. rewrite (mix_dc sh a b k c Oa Ob Em), Ea, Eb. ring.
  - exact Hv.
  - exists s', x', (f (TT s + dt) y). do 4 (split; [assumption|]). destruct (Hf (TT s + dt) y Oy) as [F1 F2]. destruct (K6 p v M) as [Y1 Y2]. destruct (K7 p v M) as [X1 X2].
    rewrite F1, F2, X1, X2, Y1, F2, K4, Hp, Hv. unfold newmark_v, newmark_x. repeat split; field.
Qed.
(** a converged step of the average acceleration method keeps the energy of an oscillator *)
Lemma nm_energy iters s x d0 dt p v k : (1 <= iters)%nat -> ready sh (Newmark iters (1 / 2) (1 / 4)) s -> state0 s x -> deriv0 s d0 -> mate sh p v ->
  (forall t y, okS sh y -> dc (f t y) p = sc y v /\ dc (f t y) v = - k * sc y p) -> dc d0 p = sc x v -> dc d0 v = - k * sc x p ->
  exists s' x' d', step (Newmark iters (1 / 2) (1 / 4)) s dt = Ok s' /\ state0 s' x' /\ deriv0 s' d' /\
   (dc d' v = - k * sc x' p -> osc_energy k (sc x' p) (sc x' v) = osc_energy k (sc x p) (sc x v)).
Proof.
  intros Hi G H0 H1 M Hf Hp Hv. destruct (nm_method iters (1 / 2) (1 / 4) s x d0 dt Hi G H0 H1) as (s' & b & y & x' & K1 & K2 & K5 & (Oy & K6) & (Ox' & K7) & K8 & K9).
  exists s', x', (f (TT s + dt) y). do 3 (split; [assumption|]). intros E. destruct (K7 p v M) as [X1 X2]. rewrite E in X1, X2. rewrite Hp in X2. rewrite Hv in X1, X2.
  unfold newmark_v, newmark_x in X1, X2. unfold osc_energy. set (p' := sc x' p) in *. set (v' := sc x' v) in *. set (p0 := sc x p) in *. set (v0 := sc x v) in *.
  assert (P : p' = p0 + dt / 2 * (v0 + v')) by (rewrite X2, X1; field).
  assert (V : v' = v0 - k * (dt / 2) * (p0 + p')) by (rewrite X1; field).
  assert (D1 : (p' - p0) * (p' + p0) = dt / 2 * (v0 + v') * (p' + p0)) by (rewrite P at 1; ring).
  assert (D2 : (v' - v0) * (v' + v0) = - k * (dt / 2) * (p0 + p') * (v' + v0)) by (rewrite V at 1; ring).
  assert (D3 : k * (p' * p') + v' * v' - (k * (p0 * p0) + v0 * v0) = k * ((p' - p0) * (p' + p0)) + (v' - v0) * (v' + v0)) by ring.
  rewrite D1, D2 in D3. lra.
Qed.

(** Wilson with one iteration and a constant acceleration *)
Lemma wi_move x a b tau dt : okS sh x -> okD sh a -> okD sh b -> exists d z y,
  mwilson_d a b tau dt = Ok d /\ mscale_d d tau = Ok z /\ madd_s x z = Ok y /\ okS sh y /\ forall p v, mate sh p v ->
   sc y v = sc x v + tau * ((1 - 0.5 * (tau / dt)) * dc a v + 0.5 * (tau / dt) * dc b v) /\
   sc y p = sc x p + tau * (dc a p + 0.5 * dt * ((1 - 1 / 3 * (tau / dt)) * dc a v + 1 / 3 * (tau / dt) * dc b v)).
Proof.
  intros Hx Ha Hb. destruct (c_wilson _ _ _ (system_closed sh) a b tau dt Ha Hb) as (d & E1' & Od). cbn in E1'.
  destruct (c_scale _ _ _ (system_closed sh) d tau Od) as (z & E2' & Oz). cbn in E2'. destruct (c_sadd _ _ _ (system_closed sh) x z Hx Oz) as (y & E3' & Oy). cbn in E3'.
  exists d, z, y. do 4 (split; [assumption|]). intros p v M. destruct (wilson_dc sh a b tau dt d Ha Hb E1' p v M) as [P V].
  rewrite !(add_sc sh x z y Hx Oz E3'), !(scale_sc d tau z (proj1 Od) E2'), P, V. split; reflexivity.
Qed.
Lemma wi_constant th s x d0 dt p v a0 : ready sh (Wilson 1 th) s -> state0 s x -> deriv0 s d0 -> mate sh p v ->
  (forall t y, okS sh y -> dc (f t y) p = sc y v /\ dc (f t y) v = a0) -> dc d0 p = sc x v -> dc d0 v = a0 ->
  exists s' x', step (Wilson 1 th) s dt = Ok s' /\ state0 s' x' /\
    sc x' v = sc x v + a0 * dt /\ sc x' p = sc x p + sc x v * dt + th * (a0 * (dt * dt) / 2).
Proof.
  intros (A & B & FS & FD) H0 H1 M Hf Hp Hv. destruct s as [t l e rs ds nn er bo]. cbn in A, B, FS, FD, H0, H1 |- *.
  destruct rs as [|x0 [|x1 [|? ?]]]; try discriminate. destruct ds as [|b0 [|b1 [|b2 [|? ?]]]]; try discriminate. injection H0 as ->. injection H1 as ->.
  pose proof (Forall_inv FS) as Hx. pose proof (Forall_inv FD) as Hd. unfold step_wi. open. cbn [wi_loop]. open.
  destruct (wi_move x d0 d0 (th * dt) (th * dt) Hx Hd Hd) as (d & z & y1 & Ed & Ez & Ey & Oy & My). rewrite Ed. open. rewrite Ez. open. rewrite Ey. open.
  destruct (fol_upd _ _ _ _ _ HF e (t + th * dt) (th * dt + l) y1 Oy) as (e1 & Eu & Cu). rewrite Eu. open.
  destruct (fol_cal _ _ _ _ _ HF e1 d0 _ _ Cu Hd) as (e2 & Ec & Cc). rewrite Ec. open. pose proof (fol_f _ _ _ _ _ HF (t + th * dt) y1 Oy) as Of. cbn [Nat.ltb Nat.leb]. open.
  destruct (wi_move x d0 (f (t + th * dt) y1) dt (th * dt) Hx Hd Of) as (d' & z' & y2 & Ed' & Ez' & Ey' & Oy' & My'). rewrite Ed'. open. rewrite Ez'. open. rewrite Ey'. open.
  match goal with |- context [upd ?e ?t ?l ?x] => destruct (fol_upd _ _ _ _ _ HF e t l x Oy') as (e3 & Eu3 & Cu3); rewrite Eu3 end. open.
  eexists. exists y2. split; [reflexivity|]. split; [reflexivity|]. destruct (My' p v M) as [V P]. destruct (Hf (t + th * dt) y1 Oy) as [F1 F2]. rewrite V, P, F2, Hp, Hv. split; lra.
Qed.
End O.
Section P.
Variables (Env : Type) (sh : shp) (f : R -> mst -> mdst) (cur : Env -> R * mst).
Variable upd : Env -> R -> R -> mst -> outcome Env.
Variable cal : Env -> mdst -> outcome (Env * mdst).
Variable lim : Env -> R -> R -> R.
Variable setmask : Env -> R -> outcome Env.
Variable conv : mdst -> mdst -> bool.
Hypothesis HF : follows sh f cur upd cal.
Notation step := (step mst mdst Env system_ops upd cal lim setmask conv).
Notation TT := (tt mst mdst Env).
(** one iteration: the rate of the position kept for the next step is not the velocity of the state *)
Lemma nm_lag g be s x d0 dt p v A : ready sh (Newmark 1 g be) s -> state0 s x -> deriv0 s d0 -> mate sh p v ->
  (forall t y, okS sh y -> dc (f t y) p = sc y v /\ dc (f t y) v = A t) -> dc d0 p = sc x v -> dc d0 v = A (TT s) ->
  exists s' x' d', step (Newmark 1 g be) s dt = Ok s' /\ state0 s' x' /\ deriv0 s' d' /\
    sc x' v = newmark_v g dt (sc x v) (A (TT s)) (A (TT s + dt)) /\ dc d' p = sc x' v + g * dt * (A (TT s) - A (TT s + dt)).
Proof.
  intros G H0 H1 M Hf Hp Hv. destruct (nm_method Env sh f cur upd cal lim setmask conv HF 1 g be s x d0 dt (le_n 1) G H0 H1) as (s' & b & y & x' & K1 & K2 & K5 & (Oy & K6) & (Ox' & K7) & K8 & K9).
  exists s', x', (f (TT s + dt) y). do 3 (split; [assumption|]). destruct (Hf (TT s + dt) y Oy) as [F1 F2]. destruct (K6 p v M) as [Y1 Y2]. destruct (K7 p v M) as [X1 X2].
  rewrite (K5 eq_refl) in Y1. rewrite F1, X1, F2, Y1, Hv. unfold newmark_v. split; [reflexivity|ring].
Qed.
End P.
Section St.
Variables (S D Env : Type) (o : sops S D).
Variable upd : Env -> R -> R -> S -> outcome Env.
Variable cal : Env -> D -> outcome (Env * D).
Variable lim : Env -> R -> R -> R.
Variable setmask : Env -> R -> outcome Env.
Variable conv : D -> D -> bool.
Notation BO := (boost S D Env). Notation ER := (err S D Env).
Lemma put_r_bo s i x s' : put_r S D Env s i x = Ok s' -> BO s' = BO s /\ ER s' = ER s.
Proof. unfold put_r. intro H. peel H l El. injection H as <-. now split. Qed.
Lemma put_d_bo s i x s' : put_d S D Env s i x = Ok s' -> BO s' = BO s /\ ER s' = ER s.
Proof. unfold put_d. intro H. peel H l El. injection H as <-. now split. Qed.
Lemma update_bo s a i s' : update S D Env upd s a i = Ok s' -> BO s' = BO s /\ ER s' = ER s.
Proof. unfold update. intro H. peel H l El. peel H e Ee. injection H as <-. now split. Qed.
Lemma calc_bo s i s' : calc S D Env cal s i = Ok s' -> BO s' = BO s /\ ER s' = ER s.
Proof. unfold calc. intro H. peel H l El. peel H e Ee. apply put_d_bo in H. exact H. Qed.
Lemma axpy_bo s a b c k s' : axpy S D Env o s a b c k = Ok s' -> BO s' = BO s /\ ER s' = ER s.
Proof. unfold axpy. intro H. peel H x E1'. peel H y E2'. peel H z E3'. peel H w E4'. apply put_r_bo in H. exact H. Qed.
Lemma make_stat_bo s dt s' : make_stat S D Env o s dt = Ok s' -> BO s' = BO s.
Proof. unfold make_stat. intro H. peel H x E1'. peel H y E2'. peel H z E3'. apply put_d_bo in E3'. injection H as <-. cbn. apply E3'. Qed.
Lemma finish_bo s dt s' : finish S D Env upd s dt = Ok s' -> BO s' = BO s /\ ER s' = ER s.
Proof. unfold finish. intro H. peel H x E1'. apply update_bo in E1'. injection H as <-. exact E1'. Qed.
Lemma clip_spec b : (if Rgt_dec b 50 then 50 else if Rlt_dec b 0.1 then 0.1 else b) = Rmax (1 / 10) (Rmin 50 b).
Proof.
  destruct (Rgt_dec b 50).
  - rewrite Rmin_left by lra. rewrite Rmax_right by lra. reflexivity.
  - rewrite (Rmin_right 50 b) by lra. destruct (Rlt_dec b 0.1).
    + rewrite Rmax_left by lra. lra.
    + rewrite Rmax_right by lra. reflexivity.
Qed.
Lemma stationary_factor s dt s' : step S D Env o upd cal lim setmask conv Stationary s dt = Ok s' ->
  exists k, (k = 1 <-> ER s = 0) /\ (k = 1 \/ k = 101 / 100 \/ k = 100 / 101) /\ BO s' = Rmax (1 / 10) (Rmin 50 (k * BO s)).
Proof.
  cbn [step]. unfold step_st. intro H. peel H s1 E1'. apply update_bo in E1'. peel H s2 E2'. apply calc_bo in E2'. cbv zeta in H.
  peel H s3 E3'. apply make_stat_bo in E3'. destruct E1' as [B1 R1']. destruct E2' as [B2 R2']. peel H s4 E4'.
  assert (HB : exists k, (k = 1 <-> ER s = 0) /\ (k = 1 \/ k = 101 / 100 \/ k = 100 / 101) /\ BO s4 = k * BO s).
  { rewrite R2', R1' in E4'. destruct (Req_EM_T (ER s) 0) as [Z|Z].
    - injection E4' as <-. exists 1. split; [tauto|]. split; [tauto|]. rewrite E3', B2, B1. ring.
    - destruct (Rge_dec (ER s) (ER s3)).
      + injection E4' as <-. exists (101 / 100). split; [split; [lra|tauto]|]. split; [tauto|]. cbn [boost set_boost]. rewrite E3', B2, B1. lra.
      + peel E4' x Ex. peel E4' y Ey. peel E4' z Ez. peel E4' s5 E5'. apply put_r_bo in E5'. peel E4' s6 E6'. apply update_bo in E6'. peel E4' s7 E7'. apply calc_bo in E7'. apply make_stat_bo in E4'.
        exists (100 / 101). split; [split; [lra|tauto]|]. split; [tauto|]. rewrite E4', (proj1 E7'), (proj1 E6'), (proj1 E5'). cbn [boost set_boost]. rewrite E3', B2, B1. replace 1.01 with (101 / 100) by lra. field. }
  destruct HB as (k & K1 & K2 & K3). exists k. split; [exact K1|]. split; [exact K2|]. rewrite <- K3, <- clip_spec.
  peel H x Ex. peel H s5 E5'. apply put_r_bo in E5'. peel H s6 E6'. apply axpy_bo in E6'. apply finish_bo in H. cbn in H. rewrite (proj1 H), (proj1 E6'), (proj1 E5').
  destruct (Rgt_dec (BO s4) 50); [reflexivity|]. destruct (Rlt_dec (BO s4) 0.1); reflexivity.
Qed.
End St.
