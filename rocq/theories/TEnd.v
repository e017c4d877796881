(** C100 (and the clamped ends of C63): bending moments where lines meet rods. *)
From Coq Require Import Reals List Arith ZArith Bool Lra Lia Psatz.
From Verif Require Import MErr MVec MStateOps MMat MInterp MLine MRod MBody MEnd SMat SLine SBody SEnd PMat PLine PLineB PLineE PBody PEnd PEndB PEndC.
Import ListNotations.
Open Scope R_scope.

(** The forces of a line on its own nodes have the moment of the clamps at its ends and no other: that of the bend at B less
    that of the bend at A. *)
Theorem C63_clamped_moment : forall L e k F mA mB, (0 < lN L)%nat -> long L -> lbx L = [] -> 0 < lEI L -> line_forces L e k = Some F -> bends L 0 mA -> bends L 1 mB ->
  forall o, vsum (lN L + 1) (fun i => cross (vsub (lr L i) o) (internal L e k F i)) = vsub mB mA.
Proof. exact clamped_moment. Qed.
Print Assumptions C63_clamped_moment.

(** A rod gives every line end attached to it the position and velocity of the end of the rod, clamps it, and gives it the
    direction of the rod, in the sense of the line. All other ends and all inner nodes stay as they are. *)
Theorem C100_attached : forall K d ls q ls', proper (re_A d) (re_B d) ls -> setDependentStates K d ls = Ok (q, ls') ->
  (forall i ep, In (i, ep) (re_A d) -> end_pos (ls' i) ep = re_posA d /\ end_vel (ls' i) ep = re_velA d /\ end_clamped (ls' i) ep = true /\ end_dir (ls' i) ep = vscale (travel ep 0) q) /\
  (forall i ep, In (i, ep) (re_B d) -> (end_pos (ls' i) ep, end_vel (ls' i) ep) = (if Nat.eqb (re_N d) 0 then (re_posA d, re_velA d) else (re_posB d, re_velB d)) /\ end_clamped (ls' i) ep = true /\ end_dir (ls' i) ep = vscale (travel ep 1) q) /\
  (forall i ep, an_end ep -> ~ In (i, ep) (re_A d ++ re_B d) -> end_pos (ls' i) ep = end_pos (ls i) ep /\ end_vel (ls' i) ep = end_vel (ls i) ep /\ end_clamped (ls' i) ep = end_clamped (ls i) ep /\ end_dir (ls' i) ep = end_dir (ls i) ep) /\
  (forall i j, (0 < j < lN (ls i))%nat -> lr (ls' i) j = lr (ls i) j /\ lrd (ls' i) j = lrd (ls i) j) /\ ((0 < re_N d)%nat -> q = re_q d).
Proof.
  intros K d ls q ls' HP HS. destruct (attached K d ls q ls' HP HS) as (A & B & C & D & E). split; [exact A|]. split; [|split; [exact C|split; [|exact E]]].
  - intros i ep Hi. destruct (B i ep Hi) as (B1 & B2 & B3 & B4). split; [|now split]. rewrite B1, B2. symmetry. apply surjective_pairing.
  - intros i j Hj. destruct (D i) as (_ & _ & _ & _ & DD). now apply DD.
Qed.
Print Assumptions C100_attached.
(** a rod with segments always does *)
Theorem C100_attached_total : forall K d ls, proper (re_A d) (re_B d) ls -> (0 < re_N d)%nat -> exists ls', setDependentStates K d ls = Ok (re_q d, ls').
Proof. exact long_rod. Qed.
Print Assumptions C100_attached_total.

(** A rod without length takes a direction about which the moments of its lines balance as long as they are stiffness over
    length times the sine of the angle; the direction has length one, unless the lines cancel. *)
Theorem C100_joint_direction : forall K d ls q ls', proper (re_A d) (re_B d) ls -> re_N d = 0%nat -> setDependentStates K d ls = Ok (q, ls') ->
  (forall i ep, In (i, ep) (re_A d ++ re_B d) -> lbx (ls i) = [] /\ tol < end_length (ls' i) ep) ->
  vadd (vtotal (fun x => vscale (end_stiff (ls' (fst x)) (snd x)) (cross q (in_rod_sense (ls' (fst x)) (snd x) 0))) (re_A d))
       (vtotal (fun x => vscale (end_stiff (ls' (fst x)) (snd x)) (cross q (in_rod_sense (ls' (fst x)) (snd x) 1))) (re_B d)) = vzero /\
  (dot q q = 1 \/ q = vzero /\ vadd (vtotal (fun x => vscale (end_stiff (ls' (fst x)) (snd x)) (in_rod_sense (ls' (fst x)) (snd x) 0)) (re_A d))
       (vtotal (fun x => vscale (end_stiff (ls' (fst x)) (snd x)) (in_rod_sense (ls' (fst x)) (snd x) 1)) (re_B d)) = vzero).
Proof.
  intros K d ls q ls' HP HN HS HL. split; [exact (linear_balance K d ls q ls' HP HN HS HL)|]. destruct (joint_unit K d ls q ls' HP HN HS HL) as [Z|U]; [right; exact Z|now left].
Qed.
Print Assumptions C100_joint_direction.

(** The moment with which a line acts on such a joint: the factor is 2 / cos (angle / 2). *)
Theorem C100_joint_moment : forall K d ls q ls', proper (re_A d) (re_B d) ls -> re_N d = 0%nat -> setDependentStates K d ls = Ok (q, ls') ->
  (forall i ep, In (i, ep) (re_A d ++ re_B d) -> lbx (ls i) = [] /\ tol < end_length (ls' i) ep) ->
  forall i ep re m, (re = 0%Z /\ In (i, ep) (re_A d)) \/ (re = 1%Z /\ In (i, ep) (re_B d)) -> bends (ls' i) ep m ->
  (1 < dot q (in_rod_sense (ls' i) ep re) + eps64 /\ m = vzero) \/
  on_holder ep m = vscale (end_stiff (ls' i) ep * (2 / sqrt ((1 + dot q (in_rod_sense (ls' i) ep re)) / 2))) (cross q (in_rod_sense (ls' i) ep re)).
Proof.
  intros K d ls q ls' HP HN HS HL i ep re m Hre HB. assert (Hin : In (i, ep) (re_A d ++ re_B d)) by (apply in_or_app; destruct Hre as [[_ ?]|[_ ?]]; auto).
  assert (E : rod_end_of d (i, ep) = re) by (destruct Hre as [[-> H]|[-> H]]; [now apply of_A|exact (of_B d ls HP _ H)]). pose proof (line_moment K d ls q ls' HP HN HS HL i ep m Hin HB) as H.
  destruct (end_of K d ls q ls' HP HS i ep Hin) as (He & _ & HD). destruct (bends_rod _ _ _ _ He HD) as (B & _). rewrite E in *. destruct H as [(S & Z)|(_ & M)]; [left|right; exact M]. unfold straight in S. rewrite B in S. now split.
Qed.
Print Assumptions C100_joint_moment.

(** So the moments do balance for a single line, for two lines of the same stiffness over length, and whenever all lines bend by
    the same angle. *)
Theorem C100_joint_balance_partial : forall K d ls q ls', proper (re_A d) (re_B d) ls -> re_N d = 0%nat -> setDependentStates K d ls = Ok (q, ls') ->
  (forall i ep, In (i, ep) (re_A d ++ re_B d) -> lbx (ls i) = [] /\ tol < end_length (ls' i) ep) ->
  (forall i ep m, re_A d ++ re_B d = [(i, ep)] -> 0 < lEI (ls i) -> bends (ls' i) ep m -> m = vzero) /\
  (forall i ep j ej m n, re_A d ++ re_B d = [(i, ep); (j, ej)] -> end_stiff (ls' i) ep = end_stiff (ls' j) ej -> bends (ls' i) ep m -> bends (ls' j) ej n -> vadd (on_holder ep m) (on_holder ej n) = vzero) /\
  (forall c m, (forall i ep, In (i, ep) (re_A d ++ re_B d) -> bends (ls' i) ep (m (i, ep)) /\ clear (end_length (ls' i) ep) (bend_from (ls' i) ep) (bend_to (ls' i) ep) /\ dot (bend_from (ls' i) ep) (bend_to (ls' i) ep) = c) ->
     vtotal (fun x => on_holder (snd x) (m x)) (re_A d ++ re_B d) = vzero).
Proof.
  intros K d ls q ls' HP HN HS HL. split; [exact (one_line K d ls q ls' HP HN HS HL)|]. split; [exact (two_lines K d ls q ls' HP HN HS HL)|].
  intros c m H. apply (equal_angles K d ls q ls' HP HN HS HL c m). intros i ep Hi. destruct (H i ep Hi) as (H1 & H2 & H3). split; [exact H1|]. split; [exact H2|].
  destruct (end_of K d ls q ls' HP HS i ep Hi) as (He & _ & HD). destruct (bends_rod _ _ _ _ He HD) as (B & _). congruence.
Qed.
Print Assumptions C100_joint_balance_partial.

(** ** Two lines at a joint *)
Definition stub (EI : R) (a b : v3) (cA : bool) : line :=
  Line 1 0.1 0.01 1000 1000 EI 10 1 0 1.2 0.1 [] [] [] [] [] [] false (fun _ => 0) (fun i => match i with O => a | _ => b end) (fun _ => vzero) (fun _ => 1) (fun _ => 1) cA false (V3 1 0 0) (V3 1 0 0).
Definition pair_lines (EI : R) (u : v3) : lines := fun i => if Nat.eqb i 0 then stub 1 (V3 (-4 / 5) (-3 / 5) 0) vzero false else stub EI vzero u false.
Definition joint_rod : rodend := Rodend 0 vzero vzero vzero vzero (V3 0 0 1) [(0%nat, 1%Z)] [(1%nat, 0%Z)].
Lemma pair_proper EI u : proper (re_A joint_rod) (re_B joint_rod) (pair_lines EI u).
Proof.
  split.
  - intros i ep [H|[H|[]]]; injection H as <- <-; split; try (now left); try (now right); cbn; lia.
  - constructor; [intros [H|[]]; discriminate|]. constructor; [intros []|constructor].
Qed.
Lemma norm_one u : dot u u = 1 -> norm u = 1. Proof. intro H. unfold norm. rewrite H. apply sqrt_1. Qed.
Lemma tol_lt1 : tol < / 10.
Proof. unfold tol. assert (1000 < 2 ^ 52) by (apply (Rlt_trans _ (2 ^ 10)); [lra|apply Rlt_pow; [lra|lia]]). apply (Rmult_lt_reg_r (2 ^ 52)); [lra|]. unfold Rdiv. rewrite Rmult_assoc, Rinv_l by lra. lra. Qed.
Lemma eps_lt1 : eps64 < / 10.
Proof. unfold eps64. assert (1000 < 2 ^ 52) by (apply (Rlt_trans _ (2 ^ 10)); [lra|apply Rlt_pow; [lra|lia]]). apply Rinv_lt_contravar; lra. Qed.
Lemma pair_result EI u : dot u u = 1 -> 0 < EI -> vadd (V3 (4 / 5) (3 / 5) 0) (vscale EI u) = V3 (4 / 5 + EI * vx u) 0 0 -> 0 < 4 / 5 + EI * vx u ->
  exists ls', setDependentStates (fun _ _ => 0) joint_rod (pair_lines EI u) = Ok (V3 1 0 0, ls') /\
    end_seg (ls' 0%nat) 1 = V3 (4 / 5) (3 / 5) 0 /\ end_seg (ls' 1%nat) 0 = u /\ lEI (ls' 0%nat) = 1 /\ lEI (ls' 1%nat) = EI /\
    end_clamped (ls' 0%nat) 1 = true /\ end_clamped (ls' 1%nat) 0 = true /\ end_dir (ls' 0%nat) 1 = V3 1 0 0 /\ end_dir (ls' 1%nat) 0 = V3 1 0 0.
Proof.
  intros HU HE HS HX. pose proof tol_lt1. set (w := V3 (4 / 5) (3 / 5) 0) in *. assert (HW : dot w w = 1) by (unfold w, dot; cbn; lra).
  assert (U0 : unitvector (V3 (-4 / 5) (-3 / 5) 0) vzero = (w, 1)).
  { assert (D : vsub vzero (V3 (-4 / 5) (-3 / 5) 0) = w) by (unfold w, vsub, vzero; cbn; f_equal; lra). unfold unitvector. rewrite D, (norm_one _ HW), eq0_false by lra. f_equal. unfold vscale, w. cbn. f_equal; lra. }
  assert (U1 : unitvector vzero u = (u, 1)).
  { assert (D : vsub u vzero = u) by (destruct u; unfold vsub, vzero; cbn; f_equal; lra). unfold unitvector. rewrite D, (norm_one _ HU), eq0_false by lra. f_equal. destruct u; unfold vscale; cbn; f_equal; lra. }
  assert (Q : vnormalized (vadd w (vscale EI u)) = V3 1 0 0).
  { rewrite HS. unfold vnormalized. set (s := 4 / 5 + EI * vx u) in *. assert (DD : dot (V3 s 0 0) (V3 s 0 0) = s * s) by (unfold dot; cbn; ring). destruct (Rlt_dec _ _) as [_|Hn]; [|exfalso; apply Hn; rewrite DD; nra].
    unfold norm. rewrite DD, sqrt_square by lra. unfold vscale. cbn. f_equal; [field; lra| |]; ring. }
  eexists. split.
  - unfold setDependentStates. cbn [re_N joint_rod Nat.eqb re_A re_B re_posA re_velA fst snd pass_kinematics setEndKinematics obind Z.eqb Pos.eqb ENDPOINT_A ENDPOINT_B moment_sum].
    unfold getEndSegmentMoment. cbn [andb orb negb Z.eqb Pos.eqb ENDPOINT_A ENDPOINT_B Bool.eqb]. cbn -[unitvector vnormalized Rdiv].
    change (put _ 1 vzero 1%nat) with vzero. change (put _ 1 vzero 0%nat) with (V3 (-4 / 5) (-3 / 5) 0). rewrite U0. cbn -[unitvector vnormalized Rdiv].
    change (put _ 0 vzero 0%nat) with vzero. change (put _ 0 vzero 1%nat) with u. rewrite U1. cbn -[unitvector vnormalized Rdiv]. unfold fdiv. destruct (Req_EM_T 1 0); [lra|]. cbn -[unitvector vnormalized Rdiv].
    replace (vadd (vadd vzero (vscale (1 * (1 / 1)) w)) (vscale (EI * (1 / 1)) u)) with (vadd w (vscale EI u)) by (generalize w; destruct u; intros []; unfold vadd, vscale, vzero; cbn; f_equal; field).
    rewrite Q. reflexivity.
  - unfold end_seg, seg, end_clamped, end_dir, vsub. cbn. repeat split; try reflexivity; unfold w; try (destruct u; cbn); f_equal; lra.
Qed.
Lemma end_facts (L : line) (ep : Z) w EI : an_end ep -> end_seg L ep = w -> dot w w = 1 -> lEI L = EI -> end_dir L ep = V3 1 0 0 -> end_clamped L ep = true ->
  end_length L ep = 1 /\ end_unit L ep = w /\ dot (bend_from L ep) (bend_to L ep) = vx w /\
  (vx w <= 9 / 10 -> 5 / 10 <= vx w -> clear (end_length L ep) (bend_from L ep) (bend_to L ep)).
Proof.
  intros He Hs Hw HEI Hd Hc. assert (HL : end_length L ep = 1) by (unfold end_length; rewrite Hs; now apply norm_one).
  assert (HU : end_unit L ep = w) by (unfold end_unit; rewrite HL, Hs; destruct w; unfold vscale; cbn; f_equal; field). split; [exact HL|]. split; [exact HU|].
  assert (HD : dot (bend_from L ep) (bend_to L ep) = vx w) by (unfold bend_from, bend_to; rewrite HU, Hd; destruct (is_B ep); unfold dot; cbn; ring). split; [exact HD|].
  intros Hx1 Hx2. pose proof tol_lt1. pose proof eps_lt1. unfold clear. rewrite HD, HL. split; [lra|]. split.
  - assert (/ 10 <= sqrt ((1 - vx w) / 2)) by (rewrite <- (sqrt_square (/ 10)) by lra; apply sqrt_le_1_alt; lra). lra.
  - assert (N : dot (cross (bend_from L ep) (bend_to L ep)) (cross (bend_from L ep) (bend_to L ep)) = 1 - vx w * vx w).
    { rewrite lagrange, HD. assert (dot (V3 1 0 0) (V3 1 0 0) = 1) by (unfold dot; cbn; ring). unfold bend_from, bend_to. rewrite HU, Hd. destruct (is_B ep); rewrite Hw, H1; ring. }
    unfold norm. rewrite N. apply (Rlt_le_trans _ (/ 10)); [assumption|]. rewrite <- (sqrt_square (/ 10)) by lra. apply sqrt_le_1_alt. nra.
Qed.

(** Two lines of the same stiffness at a joint: the case of the theorems above *)
Example C100_case : exists ls' m n, setDependentStates (fun _ _ => 0) joint_rod (pair_lines 1 (V3 (4 / 5) (-3 / 5) 0)) = Ok (V3 1 0 0, ls') /\
  (forall i ep, In (i, ep) (re_A joint_rod ++ re_B joint_rod) -> lbx (pair_lines 1 (V3 (4 / 5) (-3 / 5) 0) i) = [] /\ tol < end_length (ls' i) ep) /\
  bends (ls' 0%nat) 1 m /\ bends (ls' 1%nat) 0 n /\ m <> vzero /\ vadd (on_holder 1 m) (on_holder 0 n) = vzero.
Proof.
  set (u := V3 (4 / 5) (-3 / 5) 0). assert (HU : dot u u = 1) by (unfold u, dot; cbn; lra).
  destruct (pair_result 1 u HU ltac:(lra)) as (ls' & HS & S0 & S1 & E0 & E1 & C0 & C1 & D0 & D1); [unfold u, vadd, vscale; cbn; f_equal; lra|unfold u; cbn; lra|].
  assert (HW : dot (V3 (4 / 5) (3 / 5) 0) (V3 (4 / 5) (3 / 5) 0) = 1) by (unfold dot; cbn; lra).
  destruct (end_facts _ 1 _ _ (or_intror eq_refl) S0 HW E0 D0 C0) as (L0 & U0 & B0 & K0). destruct (end_facts _ 0 _ _ (or_introl eq_refl) S1 HU E1 D1 C1) as (L1 & U1 & B1 & K1).
  specialize (K0 ltac:(cbn; lra) ltac:(cbn; lra)). specialize (K1 ltac:(unfold u; cbn; lra) ltac:(unfold u; cbn; lra)).
  assert (HL : forall i ep, In (i, ep) (re_A joint_rod ++ re_B joint_rod) -> lbx (pair_lines 1 u i) = [] /\ tol < end_length (ls' i) ep).
  { pose proof tol_lt1. intros i ep [HH|[HH|[]]]; injection HH as <- <-; (split; [reflexivity|]); [rewrite L0|rewrite L1]; lra. }
  exists ls', (bending_moment 1 1 (bend_from (ls' 0%nat) 1) (bend_to (ls' 0%nat) 1)), (bending_moment 1 1 (bend_from (ls' 1%nat) 0) (bend_to (ls' 1%nat) 0)).
  split; [exact HS|]. split; [exact HL|].
  assert (M : bends (ls' 0%nat) 1 (bending_moment 1 1 (bend_from (ls' 0%nat) 1) (bend_to (ls' 0%nat) 1))) by (right; right; rewrite L0 in *; rewrite E0; now split).
  assert (N : bends (ls' 1%nat) 0 (bending_moment 1 1 (bend_from (ls' 1%nat) 0) (bend_to (ls' 1%nat) 0))) by (right; right; rewrite L1 in *; rewrite E1; now split).
  split; [exact M|]. split; [exact N|]. split.
  - intro Z. destruct (C100_joint_moment _ _ _ _ _ (pair_proper 1 u) eq_refl HS HL 0%nat 1%Z 0%Z _ (or_introl (conj eq_refl (or_introl eq_refl))) M) as [(X & _)|X].
    + pose proof eps_lt1. unfold in_rod_sense, travel in X. rewrite U0 in X. unfold dot, vscale in X. cbn in X. lra.
    + rewrite Z in X. apply (f_equal vz) in X. unfold end_stiff in X. rewrite E0, L0 in X. unfold in_rod_sense, travel in X. rewrite U0 in X. cbn -[sqrt Rdiv] in X. unfold dot, vscale in X. cbn -[sqrt Rdiv] in X.
      match type of X with context [sqrt ?a] => assert (P : 0 < sqrt a) by (apply sqrt_lt_R0; lra); set (s := sqrt a) in * end. assert (0 < / s) by now apply Rinv_0_lt_compat. unfold Rdiv in X. nra.
  - destruct (C100_joint_balance_partial _ _ _ _ _ (pair_proper 1 u) eq_refl HS HL) as (_ & T & _). apply (T 0%nat 1%Z 1%nat 0%Z); try assumption; [reflexivity|]. unfold end_stiff. now rewrite E0, E1, L0, L1.
Qed.

(** The moments which the code applies to the lines do not balance at a joint of lines of unlike stiffness. *)
Theorem C100_joint_balance_refuted : ~ (forall K d ls q ls' m, proper (re_A d) (re_B d) ls -> re_N d = 0%nat -> setDependentStates K d ls = Ok (q, ls') ->
  (forall i ep, In (i, ep) (re_A d ++ re_B d) -> lbx (ls i) = [] /\ 0 < lEI (ls i) /\ tol < end_length (ls' i) ep /\ bends (ls' i) ep (m (i, ep))) ->
  vtotal (fun x => on_holder (snd x) (m x)) (re_A d ++ re_B d) = vzero).
Proof.
  intro H. set (u := V3 (3 / 5) (-4 / 5) 0). assert (HU : dot u u = 1) by (unfold u, dot; cbn; lra).
  destruct (pair_result (3 / 4) u HU ltac:(lra)) as (ls' & HS & S0 & S1 & E0 & E1 & C0 & C1 & D0 & D1); [unfold u, vadd, vscale; cbn; f_equal; lra|unfold u; cbn; lra|].
  assert (HW : dot (V3 (4 / 5) (3 / 5) 0) (V3 (4 / 5) (3 / 5) 0) = 1) by (unfold dot; cbn; lra).
  destruct (end_facts _ 1 _ _ (or_intror eq_refl) S0 HW E0 D0 C0) as (L0 & U0 & B0 & K0). destruct (end_facts _ 0 _ _ (or_introl eq_refl) S1 HU E1 D1 C1) as (L1 & U1 & B1 & K1).
  specialize (K0 ltac:(cbn; lra) ltac:(cbn; lra)). specialize (K1 ltac:(unfold u; cbn; lra) ltac:(unfold u; cbn; lra)).
  assert (HL : forall i ep, In (i, ep) (re_A joint_rod ++ re_B joint_rod) -> lbx (pair_lines (3 / 4) u i) = [] /\ tol < end_length (ls' i) ep).
  { pose proof tol_lt1. intros i ep [HH|[HH|[]]]; injection HH as <- <-; (split; [reflexivity|]); [rewrite L0|rewrite L1]; lra. }
  set (m := fun x : nat * Z => bending_moment (lEI (ls' (fst x))) (end_length (ls' (fst x)) (snd x)) (bend_from (ls' (fst x)) (snd x)) (bend_to (ls' (fst x)) (snd x))).
  assert (M : bends (ls' 0%nat) 1 (m (0%nat, 1%Z))) by (right; right; now split). assert (N : bends (ls' 1%nat) 0 (m (1%nat, 0%Z))) by (right; right; now split).
  assert (Z := H _ _ _ _ _ m (pair_proper (3 / 4) u) eq_refl HS). cbn [re_A re_B joint_rod app vtotal fold_right snd] in Z.
  assert (Z' := Z ltac:(intros i ep Hi; destruct (HL i ep Hi) as (X & Y); destruct Hi as [Hi|[Hi|[]]]; injection Hi as <- <-; (split; [reflexivity|split; [cbn; lra|split; assumption]]))). clear Z H. rename Z' into Z.
  destruct (C100_joint_moment _ _ _ _ _ (pair_proper (3 / 4) u) eq_refl HS HL 0%nat 1%Z 0%Z _ (or_introl (conj eq_refl (or_introl eq_refl))) M) as [(X & _)|X];
    [pose proof eps_lt1; unfold in_rod_sense, travel in X; rewrite U0 in X; unfold dot, vscale in X; cbn in X; lra|].
  destruct (C100_joint_moment _ _ _ _ _ (pair_proper (3 / 4) u) eq_refl HS HL 1%nat 0%Z 1%Z _ (or_intror (conj eq_refl (or_introl eq_refl))) N) as [(Y & _)|Y];
    [pose proof eps_lt1; unfold in_rod_sense, travel in Y; rewrite U1 in Y; unfold dot, vscale, u in Y; cbn in Y; lra|].
  rewrite X, Y in Z. apply (f_equal vz) in Z. unfold end_stiff, in_rod_sense, travel in Z. rewrite E0, L0, U0, E1, L1, U1 in Z. unfold u, dot, vscale, vadd, cross in Z. cbn -[sqrt Rdiv] in Z.
  match type of Z with context [sqrt ?a] => match type of Z with context [sqrt ?b] => lazymatch a with b => fail | _ => set (A := sqrt a) in Z; set (B := sqrt b) in Z; assert (PA : 0 < A) by (apply sqrt_lt_R0; lra); assert (PB : 0 < B) by (apply sqrt_lt_R0; lra);
     assert (QA : A * A = a) by (apply sqrt_sqrt; lra); assert (QB : B * B = b) by (apply sqrt_sqrt; lra) end end end.
  assert (W : / A = / B) by (unfold Rdiv in Z; lra). apply (f_equal Rinv) in W. rewrite !Rinv_inv in W. rewrite W in QA. lra.
Qed.
Print Assumptions C100_joint_balance_refuted.

(** What a line hands over to the rods at its ends does not answer the moment of its forces on its own nodes: the bending moment
    at a clamped end is applied to the line and to nothing else. *)
Theorem C100_handed_moment_refuted : ~ (forall L e k F sA sB, (0 < lN L)%nat -> long L -> lbx L = [] -> 0 < lEI L -> line_forces L e k = Some F ->
  getEndStuff (line_kept L e k F) 0 = Ok sA -> getEndStuff (line_kept L e k F) 1 = Ok sB ->
  forall o, vadd (vsum (lN L + 1) (fun i => cross (vsub (lr L i) o) (internal L e k F i))) (vadd (esM sA) (esM sB)) = vzero).
Proof.
  intro H. set (u := V3 (4 / 5) (3 / 5) 0). assert (HU : dot u u = 1) by (unfold u, dot; cbn; lra). set (L := stub 1 vzero u true). set (e := Envc 1025 9.8 0 0 0 0 0). set (k := Wkin (fun _ => 0) (fun _ => vzero) (fun _ => vzero) (fun _ => 0) (fun _ _ => 100)).
  assert (SG : end_seg L 0 = u) by (unfold end_seg, seg, u, vsub; cbn; f_equal; lra).
  assert (LG : long L). { intros i Hi. cbn in Hi. assert (i = 0%nat) by lia. subst i. change (tol < norm (end_seg L 0)). rewrite SG, (norm_one _ HU). pose proof tol_lt1. lra. }
  destruct (linear_total L e k eq_refl eq_refl eq_refl) as (F & HF).
  destruct (end_facts L 0 u 1 (or_introl eq_refl) SG HU eq_refl eq_refl eq_refl) as (L0 & U0 & B0 & K0). specialize (K0 ltac:(cbn; lra) ltac:(cbn; lra)).
  assert (M : bends L 0 (bending_moment 1 (end_length L 0) (bend_from L 0) (bend_to L 0))) by (right; right; now split).
  assert (N : bends L 1 vzero) by (left; now split).
  assert (Z := H L e k F _ _ ltac:(cbn; lia) LG eq_refl ltac:(cbn; lra) HF eq_refl eq_refl vzero). rewrite (clamped_moment L e k F _ _ ltac:(cbn; lia) LG eq_refl ltac:(cbn; lra) HF M N) in Z.
  cbn [esM line_kept loMomA loMomB] in Z. destruct K0 as (_ & KA & KB). pose proof tol_lt1. assert (0 < tol) by (unfold tol; apply Rdiv_lt_0_compat; [lra|apply pow_lt; lra]).
  apply (f_equal vz) in Z. unfold bending_moment in Z. set (c := 1 * (4 / end_length L 0 * sqrt ((1 - dot (bend_from L 0) (bend_to L 0)) / 2)) / norm (cross (bend_from L 0) (bend_to L 0))) in Z.
  assert (0 < c) by (unfold c; apply Rdiv_lt_0_compat; lra). unfold bend_from, bend_to in Z. rewrite U0 in Z. unfold u, endMoment, vadd, vsub, vscale, cross, vzero in Z. cbn -[c] in Z. lra.
Qed.
Print Assumptions C100_handed_moment_refuted.

(** A joint of lines with a curve of bending moments gets no direction: stiffness is moment over curvature, and the curvature is
    zero before the first step. *)
Theorem C100_curve_joint_refuted : ~ (forall d ls, proper (re_A d) (re_B d) ls -> re_N d = 0%nat -> (forall i ep, In (i, ep) (re_A d ++ re_B d) -> tol < end_length (ls i) ep /\ end_pos (ls i) ep = re_posA d) -> exists r, setDependentStates (fun _ _ => 0) d ls = Ok r).
Proof.
  intro H. set (L := Line 1 0.1 0.01 1000 1000 0 10 1 0 1.2 0.1 [] [] [0; 1] [0; 10] [] [] false (fun _ => 0) (fun i => match i with O => vzero | _ => V3 1 0 0 end) (fun _ => vzero) (fun _ => 1) (fun _ => 1) false false (V3 1 0 0) (V3 1 0 0)).
  set (d := Rodend 0 vzero vzero vzero vzero (V3 0 0 1) [(0%nat, 0%Z)] []).
  assert (HP : proper (re_A d) (re_B d) (fun _ => L)). { split; [intros i ep [E|[]]; injection E as <- <-; split; [now left|cbn; lia]|constructor; [intros []|constructor]]. }
  destruct (H d (fun _ => L) HP eq_refl) as (r & E).
  - intros i ep [X|[]]; injection X as <- <-. split; [|reflexivity]. pose proof tol_lt1. assert (S : end_seg L 0 = V3 1 0 0) by (unfold end_seg, seg, vsub; cbn; f_equal; lra). unfold end_length. rewrite S, norm_one; [lra|unfold dot; cbn; ring].
  - exact (curve_joint (fun _ _ => 0) d (fun _ => L) 0%nat 0%Z HP eq_refl (or_introl eq_refl) ltac:(discriminate) eq_refl r E).
Qed.
Print Assumptions C100_curve_joint_refuted.
