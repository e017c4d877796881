(** Proofs about the catenary routine: the returned line. *)
From Coq Require Import Reals ZArith List Arith Bool Lra Lia.
From Verif Require Import MErr MVec MStateOps MCat SCat PCat PCatB PCatC PCatD.
Import ListNotations.
Open Scope R_scope.

Lemma lies_spec W CB V H : match lies W CB V H with
  | Hanging => CB < 0 \/ W < 0 \/ 0 < V
  | Grounded => 0 <= CB /\ 0 <= W /\ V <= 0 /\ - CB * V < H
  | Loose => 0 <= CB /\ 0 <= W /\ V <= 0 /\ H <= - CB * V end.
Proof.
  unfold lies. destruct (Rlt_dec CB 0) as [A|A]; [left; exact A|]. destruct (Rlt_dec W 0) as [B|B]; [right; left; exact B|]. destruct (Rlt_dec 0 V) as [C|C]; [right; right; exact C|].
  destruct (Rlt_dec (- CB * V) H); repeat split; lra.
Qed.
Section Profile.
Variables (L EA W CB HF VF : R).
Hypotheses (HEA : 0 < EA) (HW : W <> 0) (HH : 0 < HF) (HL : 0 <= L).
Let k := lies W CB (VF - W * L) HF.
Lemma profile_static : exists kinks, (length kinks <= 2)%nat /\
  static_line L EA W CB (PX L EA W CB HF VF k) (PZ L EA W CB HF VF k) (Ph L W CB HF VF k) (Pv L W VF k) 0 kinks.
Proof.
  unfold k. pose proof (lies_spec W CB (VF - W * L) HF) as S. destruct (lies W CB (VF - W * L) HF).
  - exists []. split; [cbn; lia|]. apply hanging_static; [assumption..|]. intros. destruct S as [S|[S|S]]; lra.
  - exists [st L W VF]. split; [cbn; lia|]. destruct S as (A & B & C & D). apply grounded_static; try assumption. lra.
  - exists [sl L W CB HF VF; st L W VF]. split; [cbn; lia|]. destruct S as (A & B & C & D). apply loose_static; try assumption. lra.
Qed.
Lemma profile_zero : PX L EA W CB HF VF k 0 = 0 /\ PZ L EA W CB HF VF k 0 = 0.
Proof.
  unfold k. pose proof (lies_spec W CB (VF - W * L) HF) as S. destruct (lies W CB (VF - W * L) HF).
  - apply hanging_zero; assumption.
  - destruct S as (A & B & C & D). apply grounded_zero; try assumption. lra.
  - destruct S as (A & B & C & D). apply loose_zero; try assumption. lra.
Qed.
Lemma profile_node s : 0 <= s -> node L EA W CB k HF VF s = (PX L EA W CB HF VF k s, PZ L EA W CB HF VF k s, tension (Ph L W CB HF VF k) (Pv L W VF k) s).
Proof.
  intros Hs. unfold k. pose proof (lies_spec W CB (VF - W * L) HF) as S. destruct (lies W CB (VF - W * L) HF).
  - apply hanging_node.
  - destruct S as (A & B & C & D). apply grounded_node; try assumption. lra.
  - destruct S as (A & B & C & D). apply loose_node; try assumption. lra.
Qed.
Lemma profile_anchor : anchor L W CB k HF VF = (Ph L W CB HF VF k 0, Pv L W VF k 0).
Proof.
  unfold k. pose proof (lies_spec W CB (VF - W * L) HF) as S. destruct (lies W CB (VF - W * L) HF); unfold anchor, Ph, Pv.
  - f_equal. ring.
  - destruct S as (A & B & C & D). assert (P : 0 < W) by lra. pose proof (st_pos L W VF HW P C) as Q. destruct (Rle_dec 0 (st L W VF)); [|lra]. f_equal. ring.
  - destruct S as (A & B & C & D). assert (P : 0 < W) by lra. pose proof (st_pos L W VF HW P C) as Q. pose proof (sl_pos L W CB HF VF HW HH P A D) as Q'.
    destruct (Rle_dec 0 (sl L W CB HF VF)); [|lra]. destruct (Rle_dec 0 (st L W VF)); [|lra]. reflexivity.
Qed.
Lemma st_lt : 0 < W -> 0 < VF -> st L W VF < L.
Proof. intros P Q. unfold st. assert (0 < VF / W) by (apply Rdiv_lt_0_compat; lra). lra. Qed.
Lemma profile_fairlead : (k <> Hanging -> 0 < VF) -> Ph L W CB HF VF k L = HF /\ Pv L W VF k L = VF.
Proof.
  unfold k. intros HV. pose proof (lies_spec W CB (VF - W * L) HF) as S. destruct (lies W CB (VF - W * L) HF); unfold Ph, Pv.
  - split; [reflexivity|ring].
  - destruct S as (A & B & C & D). assert (P : 0 < W) by lra. pose proof (st_lt P (HV ltac:(discriminate))). destruct (Rle_dec L (st L W VF)); [lra|]. split; [reflexivity|ring].
  - destruct S as (A & B & C & D). assert (P : 0 < W) by lra. pose proof (st_lt P (HV ltac:(discriminate))). pose proof (sl_st L W CB HF VF HW HH P A D).
    destruct (Rle_dec L (sl L W CB HF VF)); [lra|]. destruct (Rle_dec L (st L W VF)); [lra|]. split; [reflexivity|ring].
Qed.
End Profile.

(* ------------------------------ turning a line round ------------------------------ *)
Lemma dl_flip f L s d : derivable_pt_lim f (L - s) d -> derivable_pt_lim (fun s => f (L - s)) s (- d).
Proof.
  intros H. eapply dl_eq; [apply (dl_comp f (fun s => L - s) s (-1) d); [|exact H]|ring].
  eapply dl_eq; [apply dl_minus; [apply dl_const|apply dl_id]|ring].
Qed.
Lemma cont_flip f L s : continuity_pt f (L - s) -> continuity_pt (fun s => f (L - s)) s.
Proof.
  intros H. apply (continuity_pt_comp (fun s => L - s) f); [|exact H]. apply (cont_of _ _ (-1)). eapply dl_eq; [apply dl_minus; [apply dl_const|apply dl_id]|ring].
Qed.
Lemma cont_cminus c f s : continuity_pt f s -> continuity_pt (fun s => c - f s) s.
Proof. intros H. apply (continuity_pt_minus (fun _ => c) f); [|exact H]. apply (cont_of _ _ 0). apply dl_const. Qed.
Lemma cont_minusc c f s : continuity_pt f s -> continuity_pt (fun s => f s - c) s.
Proof. intros H. apply (continuity_pt_minus f (fun _ => c)); [exact H|]. apply (cont_of _ _ 0). apply dl_const. Qed.
Lemma flip_static L EA W CB X Z h v zb kinks XF ZF : static_line L EA W CB X Z h v zb kinks ->
  static_line L EA W CB (fun s => XF - X (L - s)) (fun s => Z (L - s) - ZF) (fun s => h (L - s)) (fun s => - v (L - s)) (zb - ZF) (map (fun a => L - a) kinks).
Proof.
  intros (C & B & S). split; [|split].
  - intros s Hs. destruct (C (L - s) ltac:(lra)) as (C1 & C2 & C3 & C4). split; [|split; [|split]].
    + apply (cont_cminus XF (fun s => X (L - s))). apply cont_flip. exact C1.
    + apply (cont_minusc ZF (fun s => Z (L - s))). apply cont_flip. exact C2.
    + apply cont_flip. exact C3.
    + apply (continuity_pt_opp (fun s => v (L - s))). apply cont_flip. exact C4.
  - intros s Hs P Q. specialize (B (L - s) ltac:(lra) P Q). lra.
  - intros s Hs Hk. destruct (S (L - s) ltac:(lra)) as (El & Ba).
    { intros Hi. apply Hk. apply in_map_iff. exists (L - s). split; [ring|exact Hi]. }
    assert (T : tension (fun s => h (L - s)) (fun s => - v (L - s)) s = tension h v (L - s)) by (unfold tension; f_equal; ring).
    split.
    + destruct El as (dx & dz & D1 & D2 & E1 & E2 & E3). exists dx, (- dz). rewrite T. split; [|split; [|split; [|split]]].
      * eapply dl_eq; [apply dl_minus; [apply dl_const|apply (dl_flip X L s dx D1)]|ring].
      * eapply dl_eq; [apply dl_minus; [apply (dl_flip Z L s dz D2)|apply dl_const]|ring].
      * rewrite <- E1. ring.
      * exact E2.
      * transitivity (- (tension h v (L - s) * dz)); [ring|]. rewrite E3. ring.
    + destruct Ba as [(D1 & D2)|(Pc & Ez & Ev & f & D1 & Hf)]; [left|right].
      * split; [eapply dl_eq; [apply (dl_flip h L s 0 D1)|ring]|]. 
        eapply dl_eq; [apply (derivable_pt_lim_opp (fun s => v (L - s)) s (- W)); apply (dl_flip v L s W D2)|ring].
      * split; [exact Pc|]. split; [lra|]. split; [lra|]. exists (- f). split; [apply (dl_flip h L s f D1)|]. rewrite Rabs_Ropp. exact Hf.
Qed.

(* ------------------------------ the nodes ------------------------------ *)
Lemma nodes_spec f L s : forall ps, nodes f L s = Some ps -> ps = map f s /\ (forall a, In a s -> 0 <= a <= L).
Proof.
  induction s as [|a r IH]; intros ps H; cbn [nodes] in H.
  - assert (ps = []) as -> by congruence. split; [reflexivity|intros a []].
  - destruct (Rlt_dec a 0); [discriminate|]. destruct (Rlt_dec L a); [discriminate|]. destruct (nodes f L r) as [q|]; [|discriminate].
    assert (ps = f a :: q) as -> by congruence. destruct (IH q eq_refl) as [-> K]. split; [reflexivity|]. intros b [<-|Hb]; [lra|apply K; exact Hb].
Qed.
Lemma nodes_some f L s : (forall a, In a s -> 0 <= a <= L) -> nodes f L s = Some (map f s).
Proof.
  induction s as [|a r IH]; intros H; cbn [nodes]; [reflexivity|]. pose proof (H a ltac:(left; reflexivity)). destruct (Rlt_dec a 0); [lra|]. destruct (Rlt_dec L a); [lra|].
  rewrite IH; [reflexivity|]. intros b Hb. apply H. right. exact Hb.
Qed.

(* ------------------------------ what the routine returns ------------------------------ *)
Definition lowz (ZF : R) := if Rlt_dec ZF 0 then - ZF else ZF.
Lemma catenary_inv XF ZF L EA W CB Tol s c : 0 < Tol -> catenary XF ZF L EA W CB Tol s = Ok (Some c) ->
  let x := Rmax XF Tol in let z := Rmax (lowz ZF) Tol in let k := lies W CB (cVF c - W * L) (cHF c) in
  0 < cHF c /\ (exists I d, (1 <= I)%nat /\ Tol * INR I <= 1 /\ increments x z L EA W CB Tol I (cHF c) (cVF c) = Some d /\ converged Tol (cHF c) (cVF c) (fst d) (snd d) = true) /\
  (cHA c, cVA c) = anchor L W CB k (cHF c) (cVF c) /\ (forall a, In a s -> 0 <= a <= L) /\
  cnodes c = (if Rlt_dec ZF 0 then map (fun p => let '(x', z', te) := p in (x - x', z' - z, te)) (rev (map (node L EA W CB k (cHF c) (cVF c)) s)) else map (node L EA W CB k (cHF c) (cVF c)) s).
Proof.
  intros HT H. unfold catenary in H. cbv zeta. fold (lowz ZF).
  assert (E1 : (if (if Rlt_dec ZF 0 then true else false) then - ZF else ZF) = lowz ZF) by (unfold lowz; destruct (Rlt_dec ZF 0); reflexivity).
  rewrite E1 in H. destruct (too_long XF (lowz ZF) L EA W CB); [discriminate|].
  destruct (Z.leb (Int_part (1 / Tol)) 0) eqn:Q1; [discriminate|]. destruct (Z.leb (2 ^ 32) (Int_part (1 / Tol))) eqn:Q2; [discriminate|]. cbn [orb] in H.
  apply Z.leb_gt in Q1. set (x := Rmax XF Tol) in *. set (z := Rmax (lowz ZF) Tol) in *. set (M := Z.to_nat (Int_part (1 / Tol))) in *.
  assert (HM : INR M <= 1 / Tol).
  { unfold M. rewrite INR_IZR_INZ, Z2Nat.id by lia. apply base_Int_part. }
  assert (IT : forall h0 v0 h v I, 0 < h0 -> iterate x z L EA W CB Tol M 1 h0 v0 = Some (h, v, I) ->
    0 < h /\ exists d, (1 <= I)%nat /\ Tol * INR I <= 1 /\ increments x z L EA W CB Tol I h v = Some d /\ converged Tol h v (fst d) (snd d) = true).
  { intros h0 v0 h v I Hh0 Hi. apply iterate_spec in Hi; [|exact HT|exact Hh0]. destruct Hi as (A & B & d & C & D). split; [exact A|]. exists d. split; [lia|]. split; [|split; assumption].
    assert (INR I <= INR M) by (apply le_INR; lia). assert (Tol * INR I <= Tol * (1 / Tol)) by (apply Rmult_le_compat_l; lra). replace (Tol * (1 / Tol)) with 1 in H1 by (field; lra). exact H1. }
  remember (match iterate x z L EA W CB Tol M 1 (fst (guess L W Tol XF (lowz ZF))) (snd (guess L W Tol XF (lowz ZF))) with
    | Some r => Some r | None => iterate x z L EA W CB Tol M 1 (fst (guess L W Tol x z)) (snd (guess L W Tol x z)) end) as res eqn:Er.
  destruct res as [[[h v] I]|]; [|discriminate].
  assert (K : 0 < h /\ exists d, (1 <= I)%nat /\ Tol * INR I <= 1 /\ increments x z L EA W CB Tol I h v = Some d /\ converged Tol h v (fst d) (snd d) = true).
  { destruct (iterate x z L EA W CB Tol M 1 (fst (guess L W Tol XF (lowz ZF))) (snd (guess L W Tol XF (lowz ZF)))) as [r|] eqn:Ei.
    - symmetry in Er. assert (r = (h, v, I)) as -> by congruence. apply (IT _ _ _ _ _ (guess_pos L W Tol HT XF (lowz ZF)) Ei).
    - symmetry in Er. apply (IT _ _ _ _ _ (guess_pos L W Tol HT x z) Er). }
  clear Er IT. destruct (nodes (node L EA W CB (lies W CB (v - W * L) h) h v) L s) as [ps|] eqn:En; [|discriminate]. apply nodes_spec in En. destruct En as [-> Hs].
  destruct (anchor L W CB (lies W CB (v - W * L) h) h v) as [ha va] eqn:Ea.
  assert (c = Cat h v ha va (if (if Rlt_dec ZF 0 then true else false) then map (fun p => let '(x', z', te) := p in (x - x', z' - z, te)) (rev (map (node L EA W CB (lies W CB (v - W * L) h) h v) s)) else map (node L EA W CB (lies W CB (v - W * L) h) h v) s)) as -> by congruence.
  cbn [cHF cVF cHA cVA cnodes]. destruct K as (K1 & d & K2). split; [exact K1|]. split; [exists I, d; exact K2|]. split; [symmetry; exact Ea|]. split; [exact Hs|]. destruct (Rlt_dec ZF 0); reflexivity.
Qed.
Lemma catenary_static XF ZF L EA W CB Tol s c : catenary XF ZF L EA W CB Tol s = Ok (Some c) -> 0 < EA -> 0 < Tol -> 0 <= L ->
  exists X Z h v kinks, let low := if Rlt_dec ZF 0 then L else 0 in let high := L - low in let sg := if Rlt_dec ZF 0 then -1 else 1 in
    (length kinks <= 2)%nat /\ static_line L EA W CB X Z h v (Z low) kinks /\
    cnodes c = map (fun a => (X a, Z a, tension h v a)) (if Rlt_dec ZF 0 then map (fun a => L - a) (rev s) else s) /\
    (if Rlt_dec ZF 0 then X L = Rmax XF Tol /\ Z L = - Rmax (- ZF) Tol else X 0 = 0 /\ Z 0 = 0) /\
    h low = cHA c /\ sg * v low = cVA c /\ 0 < cHF c /\ (CB < 0 \/ 0 < cVF c -> h high = cHF c /\ sg * v high = cVF c) /\ (forall a, In a s -> 0 <= a <= L).
Proof.
  intros H HEA HT HL. apply catenary_inv in H; [|exact HT]. cbv zeta in H. destruct H as (HH & (I & d & _ & _ & Hi & _) & Ha & Hs & Hc).
  apply increments_spec in Hi. destruct Hi as (HW & _). set (HF := cHF c) in *. set (VF := cVF c) in *. set (k := lies W CB (VF - W * L) HF) in *.
  destruct (profile_static L EA W CB HF VF HEA HW HH) as (kinks & Lk & S). fold k in S.
  destruct (profile_zero L EA W CB HF VF HEA HW HH) as (X0 & Z0). fold k in X0, Z0.
  pose proof (profile_anchor L W CB HF VF HW HH) as An. fold k in An. rewrite An in Ha.
  assert (Nd : map (node L EA W CB k HF VF) s = map (fun a => (PX L EA W CB HF VF k a, PZ L EA W CB HF VF k a, tension (Ph L W CB HF VF k) (Pv L W VF k) a)) s).
  { apply map_ext_in. intros a Hin. apply profile_node; try assumption. apply Hs in Hin. lra. }
  assert (Fl : CB < 0 \/ 0 < VF -> Ph L W CB HF VF k L = HF /\ Pv L W VF k L = VF).
  { intros HV. apply (profile_fairlead L W CB HF VF HW HH). intros Hk. fold k in Hk. destruct HV as [HC|HV]; [|exact HV]. exfalso. apply Hk. unfold k, lies. destruct (Rlt_dec CB 0); [reflexivity|contradiction]. }
  assert (Ha1 : cHA c = Ph L W CB HF VF k 0) by congruence. assert (Ha2 : cVA c = Pv L W VF k 0) by congruence. rewrite Nd in Hc. unfold lowz in Hc.
  destruct (Rlt_dec ZF 0) as [Neg|Pos].
  - exists (fun s => Rmax XF Tol - PX L EA W CB HF VF k (L - s)), (fun s => PZ L EA W CB HF VF k (L - s) - Rmax (- ZF) Tol), (fun s => Ph L W CB HF VF k (L - s)), (fun s => - Pv L W VF k (L - s)), (map (fun a => L - a) kinks).
    cbv zeta. replace (L - L) with 0 by ring. rewrite X0, Z0. replace (L - 0) with L by ring. split; [rewrite map_length; exact Lk|]. split; [apply flip_static; exact S|].
    split. { rewrite Hc, <- map_rev, !map_map. apply map_ext. intros a. replace (L - (L - a)) with a by ring. f_equal. unfold tension. f_equal. replace (L - (L - a)) with a by ring. ring. }
    split; [split; ring|]. split; [congruence|]. split; [rewrite Ha2; ring|]. split; [exact HH|]. split; [|exact Hs]. intros HV. destruct (Fl HV) as [F1 F2]. split; [exact F1|]. rewrite F2. ring.
  - exists (PX L EA W CB HF VF k), (PZ L EA W CB HF VF k), (Ph L W CB HF VF k), (Pv L W VF k), kinks. cbv zeta. rewrite Z0. replace (L - 0) with L by ring.
    split; [exact Lk|]. split; [exact S|]. split; [exact Hc|]. split; [split; [exact X0|reflexivity]|]. split; [congruence|]. split; [rewrite Ha2; ring|]. split; [exact HH|]. split; [|exact Hs]. intros HV. destruct (Fl HV) as [F1 F2]. split; [exact F1|]. rewrite F2. ring.
Qed.
