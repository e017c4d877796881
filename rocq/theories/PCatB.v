(** Proofs about the catenary routine: the three configurations are static lines. *)
From Coq Require Import Reals ZArith List Arith Lra Lia.
From Verif Require Import MErr MVec MStateOps MCat SCat PCat.
Import ListNotations.
Open Scope R_scope.

Section Profile.
Variables (L EA W CB HF VF : R).
Hypotheses (HEA : 0 < EA) (HW : W <> 0) (HH : 0 < HF).
Let V0 := VF - W * L.
(** position, and the tensions *)
Definition PX (k : lie) (s : R) : R := fst (fst (node L EA W CB k HF VF s)).
Definition PZ (k : lie) (s : R) : R := snd (fst (node L EA W CB k HF VF s)).
Definition st : R := L - VF / W.
Definition sl : R := L - VF / W - HF / W / CB.
Definition Ph (k : lie) (s : R) : R :=
  match k with
  | Hanging => HF
  | Grounded => if Rle_dec s st then HF + CB * (V0 + W * s) else HF
  | Loose => if Rle_dec s sl then 0 else if Rle_dec s st then HF + CB * (V0 + W * s) else HF
  end.
Definition Pv (k : lie) (s : R) : R :=
  match k with Hanging => V0 + W * s | _ => if Rle_dec s st then 0 else V0 + W * s end.

Lemma slope_elastic X Z h v s : h s = HF -> derivable_pt_lim X s (1 / sq1 (v s / HF) + HF / EA) ->
  derivable_pt_lim Z s (v s / HF / sq1 (v s / HF) + v s / EA) -> elastic EA X Z h v s.
Proof.
  intros Eh DX DZ. exists (1 / sq1 (v s / HF) + HF / EA), (v s / HF / sq1 (v s / HF) + v s / EA). split; [exact DX|]. split; [exact DZ|].
  unfold tension. rewrite Eh, hyp by exact HH. pose proof (sq1_pos (v s / HF)) as P. pose proof (sq1_sqr (v s / HF)) as Q. set (q := sq1 (v s / HF)) in *. 
  set (y := v s / HF) in *. assert (Ev : v s = y * HF) by (unfold y; field; lra). rewrite Ev. split; [|split; field; lra].
  transitivity ((1 / q + HF / EA) * (1 / q + HF / EA) * (1 + y * y)); [field; lra|]. rewrite <- Q. field. lra.
Qed.
Lemma arg_lin s : derivable_pt_lim (fun s => (V0 + W * s) / HF) s (W / HF).
Proof. apply dl_divc. eapply dl_eq; [apply dl_plus; [apply dl_const|]; apply dl_mult; [apply dl_const|apply dl_id]|cbn; ring]. Qed.
(** the curves through the water, up to constants *)
Lemma free_x c s : derivable_pt_lim (fun s => lg ((V0 + W * s) / HF) * (HF / W) + s / EA * HF + c) s (1 / sq1 ((V0 + W * s) / HF) + HF / EA).
Proof.
  eapply dl_eq.
  - apply dl_plus; [apply dl_plus|apply dl_const].
    + apply dl_mult; [apply dl_lg; apply arg_lin|apply dl_const].
    + apply dl_mult; [apply dl_divc; apply dl_id|apply dl_const].
  - cbn. field. pose proof (sq1_pos ((V0 + W * s) / HF)). repeat split; lra.
Qed.
Lemma free_z c s : derivable_pt_lim (fun s => sq1 ((V0 + W * s) / HF) * (HF / W) + s / EA * (V0 + 1 / 2 * (W * s)) + c) s ((V0 + W * s) / HF / sq1 ((V0 + W * s) / HF) + (V0 + W * s) / EA).
Proof.
  eapply dl_eq.
  - apply dl_plus; [apply dl_plus|apply dl_const].
    + apply dl_mult; [apply dl_sq1; apply arg_lin|apply dl_const].
    + apply dl_mult; [apply dl_divc; apply dl_id|]. apply dl_plus; [apply dl_const|]. apply dl_mult; [apply dl_const|]. apply dl_mult; [apply dl_const|apply dl_id].
  - cbn. field. pose proof (sq1_pos ((V0 + W * s) / HF)). repeat split; lra.
Qed.
Lemma vert_lin s : derivable_pt_lim (fun s => V0 + W * s) s W.
Proof. eapply dl_eq; [apply dl_plus; [apply dl_const|]; apply dl_mult; [apply dl_const|apply dl_id]|cbn; ring]. Qed.

(* ------------------------------ nothing on the bed ------------------------------ *)
Lemma hang_x s : PX Hanging s = lg ((V0 + W * s) / HF) * (HF / W) + s / EA * HF + - (lg (V0 / HF) * (HF / W)).
Proof. unfold PX, node. cbn [fst snd]. fold V0. change (ln (?a / HF + sqrt (1 + ?a / HF * (?a / HF)))) with (lg (a / HF)). fold (sq1 ((V0 + W * s) / HF)) (sq1 (V0 / HF)). fold (lg ((V0 + W * s) / HF)) (lg (V0 / HF)). ring. Qed.
Lemma hang_z s : PZ Hanging s = sq1 ((V0 + W * s) / HF) * (HF / W) + s / EA * (V0 + 1 / 2 * (W * s)) + - (sq1 (V0 / HF) * (HF / W)).
Proof. unfold PZ, node. cbn [fst snd]. fold V0. fold (sq1 ((V0 + W * s) / HF)) (sq1 (V0 / HF)). ring. Qed.
Lemma hanging_static : (0 < W -> 0 <= CB -> 0 < V0) -> static_line L EA W CB (PX Hanging) (PZ Hanging) (Ph Hanging) (Pv Hanging) 0 [].
Proof.
  intros Hc.
  assert (DX : forall s, derivable_pt_lim (PX Hanging) s (1 / sq1 (Pv Hanging s / HF) + HF / EA)).
  { intros s. eapply dl_ext; [intros u; symmetry; apply hang_x|]. apply free_x. }
  assert (DZ : forall s, derivable_pt_lim (PZ Hanging) s (Pv Hanging s / HF / sq1 (Pv Hanging s / HF) + Pv Hanging s / EA)).
  { intros s. eapply dl_ext; [intros u; symmetry; apply hang_z|]. apply free_z. }
  split; [|split].
  - intros s _. split; [apply (cont_of _ _ _ (DX s))|]. split; [apply (cont_of _ _ _ (DZ s))|]. split; [apply (cont_of _ _ _ (dl_const HF s))|apply (cont_of _ _ _ (vert_lin s))].
  - intros s Hs P C. specialize (Hc P C). rewrite hang_z.
    assert (Q : sq1 (V0 / HF) <= sq1 ((V0 + W * s) / HF)).
    { unfold sq1. apply sqrt_le_1_alt. apply Rplus_le_compat_l. assert (A : 0 <= V0 / HF) by (apply div_nn; lra).
      assert (B : V0 / HF <= (V0 + W * s) / HF) by (apply Rmult_le_compat_r; [left; apply Rinv_0_lt_compat; lra|nra]). nra. }
    assert (A : 0 < HF / W) by (apply Rdiv_lt_0_compat; lra). assert (B : 0 <= s / EA * (V0 + 1 / 2 * (W * s))) by (apply Rmult_le_pos; [apply div_nn; lra|nra]). nra.
  - intros s _ _. split; [apply slope_elastic; [reflexivity|apply DX|apply DZ]|]. left. split; [exact (dl_const HF s)|exact (vert_lin s)].
Qed.
Lemma hanging_zero : PX Hanging 0 = 0 /\ PZ Hanging 0 = 0.
Proof. rewrite hang_x, hang_z, Rmult_0_r, Rplus_0_r. split; field; lra. Qed.
Lemma hanging_node s : node L EA W CB Hanging HF VF s = (PX Hanging s, PZ Hanging s, tension (Ph Hanging) (Pv Hanging) s).
Proof. reflexivity. Qed.

(* ------------------------------ partly on the bed ------------------------------ *)
Section Bed.
Hypotheses (PW : 0 < W) (PC : 0 <= CB) (HV : V0 <= 0).
Lemma st_eq : V0 + W * st = 0.
Proof. unfold V0, st. field. lra. Qed.
Lemma vert_sign s : (s <= st -> V0 + W * s <= 0) /\ (st < s -> 0 < V0 + W * s).
Proof. pose proof st_eq. split; intros; nra. Qed.
Lemma st_pos : 0 <= st.
Proof. pose proof st_eq. destruct (Rle_lt_dec 0 st); [assumption|]. nra. Qed.
(** the common part in the water *)
Definition airx c s := lg ((V0 + W * s) / HF) * (HF / W) + s / EA * HF + c.
Definition airz s := sq1 ((V0 + W * s) / HF) * (HF / W) + s / EA * (V0 + 1 / 2 * (W * s)) + (- (HF / W) + 1 / 2 * V0 * V0 / (W * EA)).
Lemma airz_st : airz st = 0.
Proof.
  unfold airz. rewrite st_eq. replace (0 / HF) with 0 by (field; lra). rewrite sq1_0. assert (E : V0 = - (W * st)) by (pose proof st_eq; lra). rewrite E. field. lra.
Qed.
Lemma airz_pos s : 0 <= airz s.
Proof.
  unfold airz. assert (E : s / EA * (V0 + 1 / 2 * (W * s)) + 1 / 2 * V0 * V0 / (W * EA) = (V0 + W * s) * (V0 + W * s) / (2 * W * EA)) by (field; lra).
  assert (A : 0 <= (V0 + W * s) * (V0 + W * s) / (2 * W * EA)) by (apply div_nn; [apply Rle_0_sqr|nra]).
  pose proof (sq1_ge1 ((V0 + W * s) / HF)). assert (B : 0 < HF / W) by (apply Rdiv_lt_0_compat; lra). nra.
Qed.
Lemma airx_st c : airx c st = st / EA * HF + c.
Proof. unfold airx. rewrite st_eq. replace (0 / HF) with 0 by (field; lra). rewrite lg_0. ring. Qed.
Lemma cont_all f d : (forall s, derivable_pt_lim f s (d s)) -> continuity f.
Proof. intros H s. apply (cont_of _ _ _ (H s)). Qed.
Lemma airx_cont c : continuity (airx c).
Proof. apply (cont_all _ _ (free_x c)). Qed.
Lemma airz_cont : continuity airz.
Proof. apply (cont_all _ _ (free_z _)). Qed.
Lemma const_cont c : continuity (fun _ => c).
Proof. apply (cont_all _ _ (dl_const c)). Qed.
Lemma vert_cont : continuity (fun s => V0 + W * s).
Proof. apply (cont_all _ _ vert_lin). Qed.
Definition drag s := HF + CB * (V0 + W * s).
Lemma drag_lin s : derivable_pt_lim drag s (CB * W).
Proof. unfold drag. eapply dl_eq; [apply dl_plus; [apply dl_const|]; apply dl_mult; [apply dl_const|apply vert_lin]|cbn; ring]. Qed.
Lemma drag_cont : continuity drag.
Proof. apply (cont_all _ _ drag_lin). Qed.
Lemma drag_st : drag st = HF.
Proof. unfold drag. rewrite st_eq. ring. Qed.
(** the part on the bed under tension *)
Definition bedx c s := s + s / EA * (HF + CB * V0 + 1 / 2 * (W * s) * CB) + c.
Lemma bedx_lin c s : derivable_pt_lim (bedx c) s (1 + drag s / EA).
Proof.
  unfold bedx, drag. eapply dl_eq.
  - apply dl_plus; [apply dl_plus; [apply dl_id|]|apply dl_const]. apply dl_mult; [apply dl_divc; apply dl_id|].
    apply dl_plus; [apply dl_const|]. apply dl_mult; [|apply dl_const]. apply dl_mult; [apply dl_const|]. apply dl_mult; [apply dl_const|apply dl_id].
  - cbn. field. lra.
Qed.
Lemma bedx_cont c : continuity (bedx c).
Proof. apply (cont_all _ _ (bedx_lin c)). Qed.
Lemma bed_elastic X Z h v s d : 0 <= d -> h s = d -> v s = 0 -> derivable_pt_lim X s (1 + d / EA) -> derivable_pt_lim Z s 0 -> elastic EA X Z h v s.
Proof.
  intros Hd Eh Ev DX DZ. exists (1 + d / EA), 0. unfold tension. rewrite Eh, Ev. replace (d * d + 0 * 0) with (Rsqr d) by (unfold Rsqr; ring). rewrite sqrt_Rsqr by exact Hd.
  repeat split; try assumption; ring.
Qed.
Lemma pv_st k s : k <> Hanging -> Pv k s = if Rle_dec s st then 0 else V0 + W * s.
Proof. destruct k; [congruence|reflexivity|reflexivity]. Qed.
Lemma pv_cont k : k <> Hanging -> continuity (Pv k).
Proof. intros Hk. apply (glue_cont (Pv k) (fun _ => 0) (fun s => V0 + W * s) st); [intros; apply pv_st; exact Hk|apply const_cont|apply vert_cont|symmetry; apply st_eq]. Qed.

(* ------------------------------ with tension at the anchor ------------------------------ *)
Section Grounded.
Hypothesis (HT : - CB * V0 < HF).
Definition cg := st - 1 / 2 * CB * V0 * V0 / (W * EA).
Lemma ground_x s : PX Grounded s = if Rle_dec s st then bedx 0 s else airx cg s.
Proof.
  unfold PX, node. cbn [fst snd]. fold V0 st. destruct (Rle_dec s st); cbn [fst snd]; [unfold bedx; ring|].
  fold (sq1 ((V0 + W * s) / HF)). fold (lg ((V0 + W * s) / HF)). unfold airx, cg. ring.
Qed.
Lemma ground_z s : PZ Grounded s = if Rle_dec s st then 0 else airz s.
Proof.
  unfold PZ, node. cbn [fst snd]. fold V0 st. destruct (Rle_dec s st); cbn [fst snd]; [reflexivity|].
  fold (sq1 ((V0 + W * s) / HF)). unfold airz. ring.
Qed.
Lemma ground_h s : Ph Grounded s = if Rle_dec s st then drag s else HF.
Proof. reflexivity. Qed.
Lemma ground_join : bedx 0 st = airx cg st.
Proof. rewrite airx_st. unfold bedx, cg. assert (E : V0 = - (W * st)) by (pose proof st_eq; lra). rewrite E. field. lra. Qed.
Lemma drag_pos s : 0 <= s -> 0 <= drag s.
Proof. intros Hs. unfold drag. assert (0 <= CB * (W * s)) by (apply Rmult_le_pos; [exact PC|nra]). nra. Qed.
Lemma grounded_static : static_line L EA W CB (PX Grounded) (PZ Grounded) (Ph Grounded) (Pv Grounded) 0 [st].
Proof.
  split; [|split].
  - intros s _. split; [apply (glue_cont _ _ _ st ground_x (bedx_cont 0) (airx_cont cg) ground_join)|].
    split; [apply (glue_cont _ _ _ st ground_z (const_cont 0) airz_cont); symmetry; apply airz_st|].
    split; [apply (glue_cont _ _ _ st ground_h drag_cont (const_cont HF)); apply drag_st|apply pv_cont; discriminate].
  - intros s _ _ _. rewrite ground_z. destruct (Rle_dec s st); [lra|apply airz_pos].
  - intros s Hs Hk. assert (N : s <> st) by (intros ->; apply Hk; left; reflexivity). destruct (Rlt_le_dec s st) as [Ls|Ls].
    + split.
      * apply (bed_elastic _ _ _ _ s (drag s)); [apply drag_pos; lra|rewrite ground_h; destruct (Rle_dec s st); [reflexivity|lra]|rewrite pv_st by discriminate; destruct (Rle_dec s st); [reflexivity|lra]| |].
        -- apply (glue_left _ _ _ st s _ ground_x Ls). apply bedx_lin.
        -- apply (glue_left _ _ _ st s _ ground_z Ls). apply dl_const.
      * right. split; [exact PC|]. split; [rewrite ground_z; destruct (Rle_dec s st); [reflexivity|lra]|]. split; [rewrite pv_st by discriminate; destruct (Rle_dec s st); [reflexivity|lra]|].
        exists (CB * W). split; [apply (glue_left _ _ _ st s _ ground_h Ls); apply drag_lin|]. rewrite Rabs_pos_eq; [lra|nra].
    + assert (Gs : st < s) by lra. assert (Ev : Pv Grounded s = V0 + W * s) by (rewrite pv_st by discriminate; destruct (Rle_dec s st); [lra|reflexivity]). split.
      * apply slope_elastic; [rewrite ground_h; destruct (Rle_dec s st); [lra|reflexivity]| |]; rewrite Ev.
        -- apply (glue_right _ _ _ st s _ ground_x Gs). apply free_x.
        -- apply (glue_right _ _ _ st s _ ground_z Gs). apply free_z.
      * left. split; [apply (glue_right _ _ _ st s _ ground_h Gs); apply dl_const|].
        apply (glue_right (Pv Grounded) (fun _ => 0) (fun s => V0 + W * s) st s); [intros; apply pv_st; discriminate|exact Gs|apply vert_lin].
Qed.
Lemma grounded_zero : PX Grounded 0 = 0 /\ PZ Grounded 0 = 0.
Proof. rewrite ground_x, ground_z. pose proof st_pos. destruct (Rle_dec 0 st); [|lra]. split; [unfold bedx; field; lra|reflexivity]. Qed.
Lemma grounded_node s : 0 <= s -> node L EA W CB Grounded HF VF s = (PX Grounded s, PZ Grounded s, tension (Ph Grounded) (Pv Grounded) s).
Proof.
  intros Hs. assert (E : snd (node L EA W CB Grounded HF VF s) = tension (Ph Grounded) (Pv Grounded) s).
  { unfold tension. rewrite ground_h, pv_st by discriminate. unfold node. fold V0 st. pose proof (drag_pos s Hs) as D. destruct (Rle_dec s st); cbn [snd]; [|reflexivity].
    replace (drag s * drag s + 0 * 0) with (Rsqr (drag s)) by (unfold Rsqr; ring). rewrite sqrt_Rsqr by exact D. reflexivity. }
  rewrite <- E. unfold PX, PZ. destruct (node L EA W CB Grounded HF VF s) as [[? ?] ?]. reflexivity.
Qed.
End Grounded.

(* ------------------------------ without tension at the anchor ------------------------------ *)
Section Loose.
Hypothesis (HT : HF <= - CB * V0).
Lemma cb_pos : 0 < CB.
Proof. destruct (Req_EM_T CB 0) as [E|E]; [rewrite E in HT; lra|lra]. Qed.
Lemma sl_eq : drag sl = 0.
Proof. pose proof cb_pos. unfold drag, sl, V0. field. lra. Qed.
Lemma sl_st : sl < st.
Proof. pose proof cb_pos. unfold sl, st. assert (0 < HF / W / CB) by (apply Rdiv_lt_0_compat; [apply Rdiv_lt_0_compat; lra|lra]). lra. Qed.
Lemma sl_pos : 0 <= sl.
Proof. pose proof sl_eq as E. unfold drag in E. pose proof cb_pos. destruct (Rle_lt_dec 0 sl); [assumption|]. assert (0 < CB * W) by (apply Rmult_lt_0_compat; lra). assert (A : (CB * W) * sl = - HF - CB * V0) by lra. assert ((CB * W) * sl < 0) by nra. lra. Qed.
Definition cb := - (st - 1 / 2 * (HF / W) / CB) * HF / EA + 1 / 2 * CB * V0 * V0 / (W * EA).
Definition ca := st - (st - 1 / 2 * (HF / W) / CB) * HF / EA.
Definition tailx s := if Rle_dec s st then bedx cb s else airx ca s.
Lemma loose_x s : PX Loose s = if Rle_dec s sl then s else tailx s.
Proof.
  unfold PX, node, tailx. cbn [fst snd]. fold V0 st. change (st - HF / W / CB) with sl. destruct (Rle_dec s sl); cbn [fst snd]; [reflexivity|].
  destruct (Rle_dec s st); cbn [fst snd]; [unfold bedx, cb; field; pose proof cb_pos; lra|].
  fold (sq1 ((V0 + W * s) / HF)). fold (lg ((V0 + W * s) / HF)). unfold airx, ca. field. pose proof cb_pos. lra.
Qed.
Lemma loose_z s : PZ Loose s = if Rle_dec s st then 0 else airz s.
Proof.
  unfold PZ, node. cbn [fst snd]. fold V0 st. change (st - HF / W / CB) with sl. pose proof sl_st. destruct (Rle_dec s sl); cbn [fst snd].
  - destruct (Rle_dec s st); [reflexivity|lra].
  - destruct (Rle_dec s st); cbn [fst snd]; [reflexivity|]. fold (sq1 ((V0 + W * s) / HF)). unfold airz. ring.
Qed.
Definition tailh s := if Rle_dec s st then drag s else HF.
Lemma loose_h s : Ph Loose s = if Rle_dec s sl then 0 else tailh s.
Proof. reflexivity. Qed.
Lemma loose_join : bedx cb st = airx ca st.
Proof. rewrite airx_st. unfold bedx, cb, ca. assert (E : V0 = - (W * st)) by (pose proof st_eq; lra). rewrite E. field. pose proof cb_pos. lra. Qed.
Lemma loose_join2 : (fun s : R => s) sl = tailx sl.
Proof.
  unfold tailx. pose proof sl_st. destruct (Rle_dec sl st); [|lra]. unfold bedx, cb. assert (E : V0 = - (W * st)) by (pose proof st_eq; lra). rewrite E.
  assert (E2 : sl = st - HF / W / CB) by reflexivity. rewrite E2. pose proof cb_pos. field. lra.
Qed.
Lemma tailx_cont : continuity tailx.
Proof. apply (glue_cont tailx (bedx cb) (airx ca) st (fun _ => eq_refl) (bedx_cont cb) (airx_cont ca) loose_join). Qed.
Lemma tailh_cont : continuity tailh.
Proof. apply (glue_cont tailh drag (fun _ => HF) st (fun _ => eq_refl) drag_cont (const_cont HF) drag_st). Qed.
Lemma id_cont : continuity (fun s => s).
Proof. apply (cont_all _ _ dl_id). Qed.
Lemma loose_static : static_line L EA W CB (PX Loose) (PZ Loose) (Ph Loose) (Pv Loose) 0 [sl; st].
Proof.
  pose proof sl_st as Hss. split; [|split].
  - intros s _. split; [apply (glue_cont _ _ _ sl loose_x id_cont tailx_cont loose_join2)|].
    split; [apply (glue_cont _ _ _ st loose_z (const_cont 0) airz_cont); symmetry; apply airz_st|].
    split; [|apply pv_cont; discriminate]. apply (glue_cont _ _ _ sl loose_h (const_cont 0) tailh_cont). unfold tailh. destruct (Rle_dec sl st); [symmetry; apply sl_eq|lra].
  - intros s _ _ _. rewrite loose_z. destruct (Rle_dec s st); [lra|apply airz_pos].
  - intros s Hs Hk. assert (N : s <> st) by (intros ->; apply Hk; right; left; reflexivity). assert (N' : s <> sl) by (intros ->; apply Hk; left; reflexivity).
    destruct (Rlt_le_dec s sl) as [La|La]; [|destruct (Rlt_le_dec s st) as [Ls|Ls]].
    + assert (Ev : Pv Loose s = 0) by (rewrite pv_st by discriminate; destruct (Rle_dec s st); [reflexivity|lra]). assert (Ls : s < st) by lra. split.
      * apply (bed_elastic _ _ _ _ s 0); [lra|rewrite loose_h; destruct (Rle_dec s sl); [reflexivity|lra]|exact Ev| |].
        -- apply (glue_left _ _ _ sl s _ loose_x La). eapply dl_eq; [apply dl_id|field; lra].
        -- apply (glue_left _ _ _ st s _ loose_z Ls). apply dl_const.
      * right. split; [exact PC|]. split; [rewrite loose_z; destruct (Rle_dec s st); [reflexivity|lra]|]. split; [exact Ev|].
        exists 0. split; [apply (glue_left _ _ _ sl s _ loose_h La); apply dl_const|]. rewrite Rabs_R0. nra.
    + assert (Ga : sl < s) by lra. assert (Ev : Pv Loose s = 0) by (rewrite pv_st by discriminate; destruct (Rle_dec s st); [reflexivity|lra]). split.
      * apply (bed_elastic _ _ _ _ s (drag s)).
        -- pose proof sl_eq as E. unfold drag in *. pose proof cb_pos. assert (0 <= CB * (W * (s - sl))) by (apply Rmult_le_pos; [lra|nra]). nra.
        -- rewrite loose_h. destruct (Rle_dec s sl); [lra|]. unfold tailh. destruct (Rle_dec s st); [reflexivity|lra].
        -- exact Ev.
        -- apply (glue_right _ _ _ sl s _ loose_x Ga). apply (glue_left tailx (bedx cb) (airx ca) st s _ (fun _ => eq_refl) Ls). apply bedx_lin.
        -- apply (glue_left _ _ _ st s _ loose_z Ls). apply dl_const.
      * right. split; [exact PC|]. split; [rewrite loose_z; destruct (Rle_dec s st); [reflexivity|lra]|]. split; [exact Ev|].
        exists (CB * W). split; [|rewrite Rabs_pos_eq; [lra|nra]]. apply (glue_right _ _ _ sl s _ loose_h Ga). apply (glue_left tailh drag (fun _ => HF) st s _ (fun _ => eq_refl) Ls). apply drag_lin.
    + assert (Gs : st < s) by lra. assert (Ga : sl < s) by lra. assert (Ev : Pv Loose s = V0 + W * s) by (rewrite pv_st by discriminate; destruct (Rle_dec s st); [lra|reflexivity]). split.
      * apply slope_elastic; [rewrite loose_h; destruct (Rle_dec s sl); [lra|]; unfold tailh; destruct (Rle_dec s st); [lra|reflexivity]| |]; rewrite Ev.
        -- apply (glue_right _ _ _ sl s _ loose_x Ga). apply (glue_right tailx (bedx cb) (airx ca) st s _ (fun _ => eq_refl) Gs). apply free_x.
        -- apply (glue_right _ _ _ st s _ loose_z Gs). apply free_z.
      * left. split.
        -- apply (glue_right _ _ _ sl s _ loose_h Ga). apply (glue_right tailh drag (fun _ => HF) st s _ (fun _ => eq_refl) Gs). apply dl_const.
        -- apply (glue_right (Pv Loose) (fun _ => 0) (fun s => V0 + W * s) st s); [intros; apply pv_st; discriminate|exact Gs|apply vert_lin].
Qed.
Lemma loose_zero : PX Loose 0 = 0 /\ PZ Loose 0 = 0.
Proof. rewrite loose_x, loose_z. pose proof sl_pos. pose proof sl_st. destruct (Rle_dec 0 sl); [|lra]. destruct (Rle_dec 0 st); [|lra]. split; reflexivity. Qed.
Lemma loose_node s : node L EA W CB Loose HF VF s = (PX Loose s, PZ Loose s, tension (Ph Loose) (Pv Loose) s).
Proof.
  assert (E : snd (node L EA W CB Loose HF VF s) = tension (Ph Loose) (Pv Loose) s).
  { unfold tension. rewrite loose_h, pv_st by discriminate. unfold node, tailh. fold V0 st. change (st - HF / W / CB) with sl. pose proof sl_st as Hss.
    destruct (Rle_dec s sl) as [A|A]; cbn [snd]; [destruct (Rle_dec s st); [|lra]; replace (0 * 0 + 0 * 0) with 0 by ring; symmetry; apply sqrt_0|].
    destruct (Rle_dec s st) as [B|B]; cbn [snd]; [|reflexivity].
    replace (drag s * drag s + 0 * 0) with (Rsqr (drag s)) by (unfold Rsqr; ring). rewrite sqrt_Rsqr; [reflexivity|].
    pose proof sl_eq as E. unfold drag in *. pose proof cb_pos. assert (0 <= CB * (W * (s - sl))) by (apply Rmult_le_pos; [lra|nra]). nra. }
  rewrite <- E. unfold PX, PZ. destruct (node L EA W CB Loose HF VF s) as [[? ?] ?]. reflexivity.
Qed.
End Loose.
End Bed.
End Profile.
