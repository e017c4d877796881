(** Lines in other coordinates. *)
From Coq Require Import Reals List Arith ZArith Bool Lra Lia Psatz.
From Verif Require Import MErr MVec MStateOps MMat MInterp MLine MRod MBody SMat SLine SFrame PMat PLine.
Import ListNotations.
Open Scope R_scope.

Ltac v3eq := unfold vadd, vsub, vscale, vzero; cbn; f_equal; ring.
Section G.
Variable g : plane.
Hypothesis HG : isometry g.
Lemma cs1 : g_c g * g_c g + g_s g * g_s g = 1. Proof. exact (proj1 HG). Qed.
Lemma dd1 : g_d g * g_d g = 1. Proof. destruct (proj2 HG) as [->| ->]; ring. Qed.
Lemma turn_add a b : turn g (vadd a b) = vadd (turn g a) (turn g b). Proof. unfold turn, vadd; cbn; f_equal; ring. Qed.
Lemma turn_sub a b : turn g (vsub a b) = vsub (turn g a) (turn g b). Proof. unfold turn, vsub; cbn; f_equal; ring. Qed.
Lemma turn_scale k a : turn g (vscale k a) = vscale k (turn g a). Proof. unfold turn, vscale; cbn; f_equal; ring. Qed.
Lemma turn_zero : turn g vzero = vzero. Proof. unfold turn, vzero; cbn; f_equal; ring. Qed.
Lemma turn_up h : turn g (V3 0 0 h) = V3 0 0 h. Proof. unfold turn; cbn; f_equal; ring. Qed.
Lemma turn_z a : vz (turn g a) = vz a. Proof. reflexivity. Qed.
Lemma place_z a : vz (place g a) = vz a. Proof. unfold place, vadd. cbn. ring. Qed.
Lemma turn_dot a b : dot (turn g a) (turn g b) = dot a b.
Proof.
  pose proof cs1 as C. pose proof dd1 as D. unfold dot, turn; cbn.
  replace ((g_c g * vx a - g_d g * g_s g * vy a) * (g_c g * vx b - g_d g * g_s g * vy b) + (g_s g * vx a + g_d g * g_c g * vy a) * (g_s g * vx b + g_d g * g_c g * vy b))
    with ((g_c g * g_c g + g_s g * g_s g) * (vx a * vx b + (g_d g * g_d g) * (vy a * vy b))) by ring. rewrite C, D. ring.
Qed.
Lemma turn_norm a : norm (turn g a) = norm a. Proof. unfold norm. now rewrite turn_dot. Qed.
Lemma turn_cross a b : cross (turn g a) (turn g b) = spin g (cross a b).
Proof.
  pose proof cs1 as C. pose proof dd1 as D. unfold spin, cross, turn, vscale; cbn. f_equal.
  - replace (g_d g * (g_c g * (vy a * vz b - vz a * vy b) - g_d g * g_s g * (vz a * vx b - vx a * vz b))) with (g_d g * g_c g * (vy a * vz b - vz a * vy b) - (g_d g * g_d g) * g_s g * (vz a * vx b - vx a * vz b)) by ring. rewrite D. ring.
  - replace (g_d g * (g_s g * (vy a * vz b - vz a * vy b) + g_d g * g_c g * (vz a * vx b - vx a * vz b))) with (g_d g * g_s g * (vy a * vz b - vz a * vy b) + (g_d g * g_d g) * g_c g * (vz a * vx b - vx a * vz b)) by ring. rewrite D. ring.
  - replace ((g_c g * vx a - g_d g * g_s g * vy a) * (g_s g * vx b + g_d g * g_c g * vy b) - (g_s g * vx a + g_d g * g_c g * vy a) * (g_c g * vx b - g_d g * g_s g * vy b))
      with ((g_c g * g_c g + g_s g * g_s g) * (g_d g * (vx a * vy b - vy a * vx b))) by ring. rewrite C. ring.
Qed.
Lemma scale_scale k l a : vscale k (vscale l a) = vscale (k * l) a. Proof. unfold vscale; cbn; f_equal; ring. Qed.
Lemma scale_one a : vscale 1 a = a. Proof. destruct a; unfold vscale; cbn; f_equal; ring. Qed.
Lemma cross_scale_r k a b : cross a (vscale k b) = vscale k (cross a b). Proof. unfold cross, vscale; cbn; f_equal; ring. Qed.
Lemma cross_scale_l k a b : cross (vscale k a) b = vscale k (cross a b). Proof. unfold cross, vscale; cbn; f_equal; ring. Qed.
Lemma turn_spin a b : cross (turn g a) (spin g b) = turn g (cross a b).
Proof. unfold spin at 1. rewrite cross_scale_r, turn_cross. unfold spin. now rewrite scale_scale, dd1, scale_one. Qed.
Lemma spin_turn a b : cross (spin g a) (turn g b) = turn g (cross a b).
Proof. unfold spin at 1. rewrite cross_scale_l, turn_cross. unfold spin. now rewrite scale_scale, dd1, scale_one. Qed.
Lemma spin_spin a b : cross (spin g a) (spin g b) = spin g (cross a b).
Proof. unfold spin at 1 2. rewrite cross_scale_r, cross_scale_l, turn_cross, scale_scale, dd1, scale_one. reflexivity. Qed.
Lemma spin_dot a b : dot (spin g a) (spin g b) = dot a b.
Proof. assert (E : dot (spin g a) (spin g b) = (g_d g * g_d g) * dot (turn g a) (turn g b)) by (unfold spin, dot, vscale; cbn; ring). rewrite E, dd1, turn_dot. ring. Qed.
Lemma spin_norm a : norm (spin g a) = norm a. Proof. unfold norm. now rewrite spin_dot. Qed.
Lemma spin_zero : spin g vzero = vzero. Proof. unfold spin. rewrite turn_zero. unfold vscale, vzero; cbn; f_equal; ring. Qed.
Lemma spin_add a b : spin g (vadd a b) = vadd (spin g a) (spin g b). Proof. unfold spin. rewrite turn_add. unfold vscale, vadd; cbn; f_equal; ring. Qed.
Lemma spin_sub a b : spin g (vsub a b) = vsub (spin g a) (spin g b). Proof. unfold spin. rewrite turn_sub. unfold vscale, vsub; cbn; f_equal; ring. Qed.
Lemma spin_scale k a : spin g (vscale k a) = vscale k (spin g a). Proof. unfold spin. rewrite turn_scale, !scale_scale. f_equal. ring. Qed.
Lemma place_sub p q : vsub (place g p) (place g q) = turn g (vsub p q). Proof. unfold place, turn, vadd, vsub; cbn; f_equal; ring. Qed.
Lemma place_add p v : vadd (place g p) (turn g v) = place g (vadd p v). Proof. unfold place, turn, vadd; cbn; f_equal; ring. Qed.

Lemma unit_moved p q : unitvector (place g p) (place g q) = (turn g (fst (unitvector p q)), snd (unitvector p q)).
Proof. unfold unitvector. rewrite place_sub, turn_norm. cbn [fst snd]. destruct (equalRealNos _ _); [reflexivity|]. now rewrite turn_scale. Qed.
Lemma curv_moved l a b : getCurvature l (turn g a) (turn g b) = getCurvature l a b. Proof. unfold getCurvature. now rewrite turn_dot. Qed.
Lemma vnorm_moved a : MLine.vnormalized (turn g a) = turn g (MLine.vnormalized a).
Proof. unfold MLine.vnormalized. rewrite turn_dot, turn_norm. destruct (Rlt_dec _ _); [now rewrite turn_scale|reflexivity]. Qed.
Lemma scalev_moved a l : scalevector (turn g a) l = turn g (scalevector a l).
Proof. unfold scalevector. rewrite turn_dot. destruct (equalRealNos _ _); [reflexivity|]. now rewrite turn_scale. Qed.
Lemma lower_moved p h : V3 (vx (place g p)) (vy (place g p)) (vz p - h) = place g (V3 (vx p) (vy p) (vz p - h)).
Proof. unfold place, turn, vadd; cbn; f_equal; ring. Qed.
Lemma up_axis a : cross (turn g a) (cross (V3 0 0 1) (turn g a)) = turn g (cross a (cross (V3 0 0 1) a)).
Proof. rewrite <- (turn_up 1) at 1. now rewrite turn_cross, turn_spin. Qed.
Lemma sub_moved d a b h : calcSubSeg d (place g a) (place g b) h = calcSubSeg d a b h.
Proof.
  unfold calcSubSeg. rewrite !place_z. cbv zeta.
  assert (E : forall p q, vz (scalevector (MLine.vnormalized (cross (vsub (place g p) (place g q)) (cross (V3 0 0 1) (vsub (place g p) (place g q))))) (d / 2)) = vz (scalevector (MLine.vnormalized (cross (vsub p q) (cross (V3 0 0 1) (vsub p q)))) (d / 2))).
  { intros p q. now rewrite place_sub, up_axis, vnorm_moved, scalev_moved, turn_z. }
  destruct (Rle_dec _ _); [destruct (Rlt_dec (vz b - h) 0); [reflexivity|]; destruct (Req_EM_T _ _); [reflexivity|]; destruct (Rlt_dec (vz a - h) 0)|destruct (Rlt_dec 0 _); [reflexivity|]; destruct (Req_EM_T _ _); [reflexivity|]];
    cbv iota; rewrite ?place_z, !lower_moved, E; cbn [vz]; rewrite ?place_z; reflexivity.
Qed.

Variable L : line.
Notation L' := (moved_line g L).
Lemma lqs_moved i : lqs L' i = turn g (lqs L i). Proof. unfold lqs. cbn [lr moved_line]. now rewrite unit_moved. Qed.
Lemma llstr_moved i : llstr L' i = llstr L i. Proof. unfold llstr. cbn [lr moved_line]. now rewrite unit_moved. Qed.
Lemma lldstr_moved i : lldstr L' i = lldstr L i. Proof. unfold lldstr. rewrite lqs_moved. cbn [lrd moved_line]. now rewrite <- turn_sub, turn_dot. Qed.
Lemma lq_moved i : lq L' i = turn g (lq L i).
Proof. unfold lq. change (lisEI L') with (lisEI L). cbn [lr moved_line lN lcantA lcantB lqA lqB]. destruct (Nat.eqb i 0); [destruct (orb _ _); [now rewrite unit_moved|reflexivity]|]. destruct (Nat.eqb i _); [destruct (orb _ _); [now rewrite unit_moved|reflexivity]|]. now rewrite unit_moved. Qed.
Lemma lKurv_moved i : lKurv L' i = lKurv L i.
Proof. unfold lKurv. rewrite !llstr_moved, !lqs_moved, !lq_moved, !curv_moved. reflexivity. Qed.
Lemma lpvec_moved i : lpvec L' i = spin g (lpvec L i).
Proof.
  unfold lpvec. rewrite lKurv_moved. destruct (equalRealNos (lKurv L i) 0); [now rewrite spin_zero|]. cbv zeta. cbn [lN moved_line]. rewrite !lqs_moved, !lq_moved, !turn_cross.
  set (p := if Nat.eqb i 0 then _ else if Nat.eqb i (lN L) then _ else _). set (p0 := if Nat.eqb i 0 then _ else if Nat.eqb i (lN L) then _ else _). assert (E : p = spin g p0) by (unfold p, p0; destruct (Nat.eqb i 0); [reflexivity|destruct (Nat.eqb i (lN L)); reflexivity]).
  rewrite E, spin_norm. destruct (equalRealNos _ _); [reflexivity|]. now rewrite spin_scale.
Qed.
Lemma lT_moved i : lT L' i = option_map (turn g) (lT L i).
Proof. unfold lT. rewrite llstr_moved, lqs_moved. change (getNonlinearE L') with (getNonlinearE L). cbn [lsx ll lE larea moved_line]. destruct (if negb _ then _ else _); [|reflexivity]. cbn [obnd option_map]. destruct (Rlt_dec _ _); [now rewrite turn_scale|now rewrite turn_zero]. Qed.
Lemma lTd_moved i : lTd L' i = option_map (turn g) (lTd L i).
Proof. unfold lTd. rewrite lldstr_moved, lqs_moved. change (getNonlinearC L') with (getNonlinearC L). cbn [ldx ll lc larea moved_line]. destruct (if negb _ then _ else _); [|reflexivity]. cbn [obnd option_map]. now rewrite turn_scale. Qed.
Lemma fz_moved f f' i : f' i = option_map (turn g) (f i) -> force_or_zero f' i = turn g (force_or_zero f i).
Proof. intro H. unfold force_or_zero. rewrite H. destruct (f i); cbn; [reflexivity|now rewrite turn_zero]. Qed.
Lemma all_moved f f' n : (forall i, f' i = option_map (turn g) (f i)) -> all_some f' n = all_some f n.
Proof. intro H. induction n as [|n IH]; [reflexivity|]. cbn [all_some]. rewrite IH, H. now destruct (f n). Qed.
Definition turned (f f' : nat -> v3) : Prop := forall i, f' i = turn g (f i).
Lemma bump_moved f f' i v v' : turned f f' -> v' = turn g v -> turned (bump f i v) (bump f' i v').
Proof. intros H -> j. unfold bump. rewrite H. destruct (Nat.eqb j i); [now rewrite turn_add|reflexivity]. Qed.
Definition oturned (o o' : option (nat -> v3)) : Prop := match o, o' with Some f, Some f' => turned f f' | None, None => True | _, _ => False end.
Lemma couple_moved k i j : vscale k (cross (lqs L' i) (lpvec L' j)) = turn g (vscale k (cross (lqs L i) (lpvec L j))).
Proof. now rewrite lqs_moved, lpvec_moved, turn_spin, turn_scale. Qed.
Lemma bend1_moved i Bs Bs' : turned Bs Bs' -> oturned (bend1 L i Bs) (bend1 L' i Bs').
Proof.
  intro H. unfold bend1. rewrite lKurv_moved, !llstr_moved. cbv zeta. change (lEIat L') with (lEIat L). cbn [lN lcantA lcantB moved_line].
  destruct (equalRealNos _ _); [exact H|]. destruct (Nat.eqb i 0).
  - destruct (lcantA L); [|exact H]. destruct (lEIat L _); cbn [obnd]; [|exact I]. rewrite !couple_moved. repeat apply bump_moved; try assumption; rewrite ?turn_scale; reflexivity.
  - destruct (Nat.eqb i (lN L)); [destruct (lcantB L); [|exact H]|]; (destruct (lEIat L _); cbn [obnd]; [|exact I]); rewrite !couple_moved; repeat apply bump_moved; try assumption; rewrite ?turn_sub, ?turn_scale; reflexivity.
Qed.
Lemma bend_moved n : oturned (bend L n) (bend L' n).
Proof. induction n as [|n IH]; cbn [bend]; [intro i; now rewrite turn_zero|]. destruct (bend L n), (bend L' n); cbn [obnd]; try contradiction; [now apply bend1_moved|exact I]. Qed.
Lemma lBs_moved : oturned (lBs L) (lBs L').
Proof. unfold lBs. change (lisEI L') with (lisEI L). cbn [lN moved_line]. destruct (lisEI L); [apply bend_moved|intro i; now rewrite turn_zero]. Qed.

Variable e : envc.
Variables k k' : wkin.
Hypothesis HK : moved_water g k k'.
Lemma kz i : wzeta k' i = wzeta k i. Proof. apply HK. Qed.
Lemma ku i : wU k' i = turn g (wU k i). Proof. apply HK. Qed.
Lemma kud i : wUd k' i = turn g (wUd k i). Proof. apply HK. Qed.
Lemma kp i : wpdyn k' i = wpdyn k i. Proof. apply HK. Qed.
Lemma lF_moved i : lF L' k' i = lF L k i. Proof. unfold lF. rewrite !kz. cbn [lr ldia moved_line]. apply sub_moved. Qed.
Lemma at_moved f f' i : (forall j, f' j = f j) -> at_node L' f' i = at_node L f i.
Proof. intro H. unfold at_node. cbn [lN moved_line]. now rewrite !H. Qed.
Lemma lPb_moved i : lPb L' e k' i = turn g (lPb L e k i).
Proof.
  unfold lPb. rewrite lKurv_moved, lq_moved, lpvec_moved, kz, kp, turn_spin, (at_moved (ll L) (ll L')) by reflexivity. cbn [lisPb lr lpin larea moved_line]. rewrite place_z. destruct (negb _); [now rewrite turn_zero|]. destruct (equalRealNos _ _); [now rewrite turn_zero|]. cbv zeta. now rewrite turn_scale.
Qed.
Lemma lW_moved i : lW L' e k' i = turn g (lW L e k i).
Proof. unfold lW. rewrite turn_up. rewrite (at_moved (fun j => ll L j * (lrho L - lF L k j * rho_w e))); [reflexivity|]. intro j. now rewrite lF_moved. Qed.
Lemma along_moved q v : along (turn g q) (turn g v) = turn g (along q v). Proof. unfold along. now rewrite turn_dot, turn_scale. Qed.
Lemma across_moved q v : across (turn g q) (turn g v) = turn g (across q v). Proof. unfold across. now rewrite along_moved, turn_sub. Qed.
Lemma lDp_moved i : lDp L' e k' i = turn g (lDp L e k i).
Proof. unfold lDp. rewrite ku, lq_moved. cbn [lrd moved_line]. rewrite <- turn_sub, across_moved. cbv zeta. rewrite turn_norm, turn_scale, (at_moved (fun j => lF L k j * ll L j)); [reflexivity|]. intro j. now rewrite lF_moved. Qed.
Lemma lDq_moved i : lDq L' e k' i = turn g (lDq L e k i).
Proof. unfold lDq. rewrite ku, lq_moved. cbn [lrd moved_line]. rewrite <- turn_sub, along_moved. cbv zeta. rewrite turn_norm, turn_scale, (at_moved (fun j => lF L k j * ll L j)); [reflexivity|]. intro j. now rewrite lF_moved. Qed.
Lemma lAp_moved i : lAp L' e k' i = turn g (lAp L e k i).
Proof. unfold lAp. rewrite kud, lq_moved, across_moved, turn_scale, (at_moved (fun j => lF L k j * lV L j)); [reflexivity|]. intro j. now rewrite lF_moved. Qed.
Lemma lAq_moved i : lAq L' e k' i = turn g (lAq L e k i).
Proof. unfold lAq. rewrite kud, lq_moved, along_moved, turn_scale, (at_moved (fun j => lF L k j * lV L j)); [reflexivity|]. intro j. now rewrite lF_moved. Qed.
Lemma bottom_moved A w p v : bottom e A w (place g p) (turn g v) = turn g (bottom e A w p v).
Proof.
  unfold bottom. rewrite place_z, turn_z. destruct (Rlt_dec (vz p) w); [|now rewrite turn_zero]. cbv zeta.
  assert (E : vx (turn g v) * vx (turn g v) + vy (turn g v) * vy (turn g v) = vx v * vx v + vy v * vy v).
  { pose proof (turn_dot v v) as E. unfold dot in E. rewrite turn_z in E. lra. }
  rewrite E. set (u := sqrt _). destruct (Req_EM_T u 0); [now rewrite turn_up|]. set (F := if Rlt_dec _ _ then _ else _). unfold turn; cbn. f_equal; field; assumption.
Qed.
Lemma lB_moved i : lB L' e k' i = turn g (lB L e k i).
Proof. unfold lB. rewrite (at_moved (ll L) (ll L')) by reflexivity. cbn [lr lrd ldia moved_line]. rewrite (proj2 HK). apply bottom_moved. Qed.
Lemma lFnet_moved T T' Td Td' Bs Bs' i : turned T T' -> turned Td Td' -> turned Bs Bs' -> lFnet L' e k' T' Td' Bs' i = turn g (lFnet L e k T Td Bs i).
Proof.
  intros HT HTd HB. unfold lFnet. rewrite lW_moved, lDp_moved, lDq_moved, lAp_moved, lAq_moved, lB_moved, lPb_moved, HB, !HT, !HTd. cbn [lN moved_line].
  destruct (Nat.eqb i 0); [|destruct (Nat.eqb i (lN L))]; now rewrite ?turn_add, ?turn_sub, ?turn_scale, ?turn_add, ?turn_sub, ?turn_scale.
Qed.
Lemma line_moved : oturned (line_forces L e k) (line_forces L' e k').
Proof.
  unfold line_forces. rewrite (all_moved (lT L) (lT L')), (all_moved (lTd L) (lTd L')) by (intro; apply lT_moved || apply lTd_moved). cbn [lN moved_line]. destruct (andb _ _); [|exact I].
  pose proof lBs_moved as B. destruct (lBs L), (lBs L'); cbn [obnd oturned] in *; try contradiction; [|exact I].
  intro i. apply lFnet_moved; [| |exact B]; intro j; apply fz_moved; [apply lT_moved|apply lTd_moved].
Qed.
(** masses *)
Lemma mm_add a a' b b' : moved_matrix g a a' -> moved_matrix g b b' -> moved_matrix g (madd a b) (madd a' b').
Proof. intros A B v. assert (E : forall m n u, mmulv (madd m n) u = vadd (mmulv m u) (mmulv n u)) by (intros; unfold mmulv, madd, dot, vadd; cbn; f_equal; ring). rewrite !E, A, B. now rewrite turn_add. Qed.
Lemma mm_scale r a a' : moved_matrix g a a' -> moved_matrix g (mscale r a) (mscale r a').
Proof. intros A v. assert (E : forall m u, mmulv (mscale r m) u = vscale r (mmulv m u)) by (intros; unfold mmulv, mscale, dot, vscale; cbn; f_equal; ring). rewrite !E, A. now rewrite turn_scale. Qed.
Lemma mm_id : moved_matrix g mid mid.
Proof. intro v. assert (E : forall u, mmulv mid u = u) by (intros []; unfold mmulv, mid, dot; cbn; f_equal; ring). now rewrite !E. Qed.
Lemma mm_zero : moved_matrix g mzero mzero.
Proof. intro v. assert (E : forall u, mmulv mzero u = vzero) by (intros []; unfold mmulv, mzero, vzero, dot; cbn; f_equal; ring). now rewrite !E, turn_zero. Qed.
Lemma mm_outer q : moved_matrix g (outer q) (outer (turn g q)).
Proof. intro v. assert (E : forall q u, mmulv (outer q) u = vscale (dot q u) q) by (intros; unfold mmulv, outer, dot, vscale; cbn; f_equal; ring). now rewrite !E, turn_dot, turn_scale. Qed.
Lemma lM_moved i : moved_matrix g (lM L e k i) (lM L' e k' i).
Proof.
  unfold lM. rewrite lq_moved. replace (lmi L' i) with (lmi L i) by reflexivity. replace (lvi L' k' i) with (lvi L k i).
  2:{ unfold lvi. f_equal. symmetry. apply at_moved. intro j. now rewrite lF_moved. }
  cbn [lCan lCat moved_line]. repeat first [apply mm_add | apply mm_scale | apply mm_id | apply mm_outer].
Qed.
End G.
