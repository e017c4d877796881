(** Proofs about the catenary routine: the end, and the initial shape of lines. *)
From Coq Require Import Reals ZArith List Arith Bool Lra Lia.
From Verif Require Import MErr MVec MStateOps MCat SCat PCat PCatB PCatC PCatD PCatE.
Import ListNotations.
Open Scope R_scope.

Lemma dl_addc f x d c : derivable_pt_lim f x d -> derivable_pt_lim (fun s => f s + c) x d.
Proof. intros H. eapply dl_eq; [apply dl_plus; [exact H|apply dl_const]|ring]. Qed.
Lemma hang_map x z L EA W : 0 < EA -> W <> 0 -> end_map L EA W false (fun h v => (fst (errors x z L EA W (-1) Hanging h v) + x, snd (errors x z L EA W (-1) Hanging h v) + z)).
Proof.
  intros HEA HW h v Hh _. exists (PX L EA W (-1) h v Hanging), (PZ L EA W (-1) h v Hanging), (Ph L W (-1) h v Hanging), (Pv L W v Hanging), [].
  split; [cbn; lia|]. split; [apply hanging_static; [assumption..|intros; lra]|]. destruct (hanging_zero L EA W (-1) h v HEA HW) as [A B]. split; [exact A|]. split; [exact B|].
  split; [reflexivity|]. split; [cbn; ring|]. split; [discriminate|]. destruct (end_hang x z L EA W (-1) HEA HW h v Hh) as [C D]. rewrite C, D. reflexivity.
Qed.
Lemma bed_map x z L EA W : 0 < EA -> 0 < W -> 0 <= L -> end_map L EA W true (fun h v => (fst (errors x z L EA W 0 Grounded h v) + x, snd (errors x z L EA W 0 Grounded h v) + z)).
Proof.
  intros HEA HW HL h v Hh Hv. specialize (Hv eq_refl). assert (HW' : W <> 0) by lra.
  exists (PX L EA W 0 h v Grounded), (PZ L EA W 0 h v Grounded), (Ph L W 0 h v Grounded), (Pv L W v Grounded), [st L W v].
  split; [cbn; lia|]. split; [apply grounded_static; lra|].
  assert (Q1 : PX L EA W 0 h v Grounded 0 = 0 /\ PZ L EA W 0 h v Grounded 0 = 0) by (apply grounded_zero; lra). destruct Q1 as [A B]. split; [exact A|]. split; [exact B|].
  pose proof (st_lt L W v HW' HW ltac:(lra)) as S. pose proof (st_pos L W v HW' HW ltac:(lra)) as S'.
  split; [unfold Ph; destruct (Rle_dec L (st L W v)); [lra|reflexivity]|]. split; [unfold Pv; destruct (Rle_dec L (st L W v)); [lra|ring]|].
  split; [intros _; unfold Pv; destruct (Rle_dec 0 (st L W v)); [reflexivity|lra]|].
  destruct (end_bed x z L EA W 0 HEA HW' Grounded h v Hh HW ltac:(lra) ltac:(lra) ltac:(discriminate) ltac:(discriminate)) as [C D]. rewrite C, D. reflexivity.
Qed.
Lemma partials_newton XF ZF L EA W CB k HF VF a b : 0 < EA -> W <> 0 -> 0 < HF -> (k = Loose -> CB <> 0) -> solves XF ZF L EA W CB k HF VF a b ->
  newton (fun h v => (fst (errors XF ZF L EA W CB k h v) + XF, snd (errors XF ZF L EA W CB k h v) + ZF)) HF VF XF ZF a b.
Proof.
  intros HEA HW HH HC S. pose proof (partials_all XF ZF L EA W CB HEA HW HF VF HH k HC) as P. unfold solves in S. cbv zeta in S. unfold partials in P.
  destruct (jacobian L EA W CB k HF VF) as [[[p q] r] t]. destruct P as (P1 & P2 & P3 & P4). destruct S as [S1 S2].
  exists p, q, r, t. cbn [fst snd]. split; [apply (dl_addc (fun h => fst (errors XF ZF L EA W CB k h VF))); exact P1|].
  split; [apply (dl_addc (fun v => fst (errors XF ZF L EA W CB k HF v))); exact P2|]. split; [apply (dl_addc (fun h => snd (errors XF ZF L EA W CB k h VF))); exact P3|].
  split; [apply (dl_addc (fun v => snd (errors XF ZF L EA W CB k HF v))); exact P4|]. split; lra.
Qed.
Lemma partials_reaches XF ZF L EA W CB k HF VF a b eh ev : 0 < EA -> W <> 0 -> 0 < HF -> (k = Loose -> CB <> 0) -> solves XF ZF L EA W CB k HF VF a b -> Rabs a <= eh -> Rabs b <= ev ->
  reaches (fun h v => (fst (errors XF ZF L EA W CB k h v) + XF, snd (errors XF ZF L EA W CB k h v) + ZF)) HF VF XF ZF eh ev.
Proof. intros HEA HW HH HC S Ba Bb. exists a, b. split; [now apply partials_newton|]. now split. Qed.
(** an increment is Newton's step for the end of the line, reduced *)
Lemma increments_newton XF ZF L EA W CB Tol I HF VF d : 0 < EA -> 0 <= L -> 0 < HF -> (CB < 0 /\ W <> 0 \/ CB = 0 /\ 0 < W /\ 0 < VF) -> increments XF ZF L EA W CB Tol I HF VF = Some d ->
  exists bed E a b, end_map L EA W bed E /\ (bed = true <-> CB = 0 /\ VF <= W * L) /\ newton E HF VF XF ZF a b /\
    fst d = Rmax (a * (1 - Tol * INR I)) ((Tol - 1) * HF) /\ snd d = b * (1 - Tol * INR I).
Proof.
  intros HEA HL HH HC Hi. apply increments_spec in Hi. destruct Hi as (HW & _ & _ & HLo & a & b & Hs & Ea & Eb).
  pose proof (lies_spec W CB (VF - W * L) HF) as S. unfold kind in *. destruct (lies W CB (VF - W * L) HF) eqn:Ek.
  - eexists false, _, a, b. split; [apply (hang_map XF ZF L EA W HEA HW)|]. split; [|split; [|split; assumption]].
    + split; [discriminate|]. intros [C0 C1]. exfalso. unfold lies in Ek. destruct (Rlt_dec CB 0); [lra|]. destruct (Rlt_dec W 0); [destruct HC as [HC|HC]; lra|]. destruct (Rlt_dec 0 (VF - W * L)); [lra|]. destruct (Rlt_dec (- CB * (VF - W * L)) HF); discriminate.
    + apply (partials_newton XF ZF L EA W (-1) Hanging HF VF a b); try assumption; discriminate.
  - destruct S as (S1 & S2 & S3 & S4). destruct HC as [[HC _]|(C0 & PW & PV)]; [lra|]. subst CB.
    eexists true, _, a, b. split; [apply (bed_map XF ZF L EA W HEA PW HL)|]. split; [split; [intros _; lra|reflexivity]|]. split; [|split; assumption].
    apply (partials_newton XF ZF L EA W 0 Grounded HF VF a b); try assumption; discriminate.
  - exfalso. destruct S as (S1 & S2 & S3 & S4). destruct HC as [[HC _]|(C0 & PW & PV)]; [lra|]. rewrite C0 in S4. lra.
Qed.
Lemma catenary_closes XF ZF L EA W CB Tol s c : catenary XF ZF L EA W CB Tol s = Ok (Some c) -> 0 < EA -> 0 < Tol < 1 / 2 -> 0 <= L -> CB <= 0 ->
  exists I, (1 <= I)%nat /\ Tol * INR I <= 1 /\
  (Tol * INR I < 1 -> CB < 0 \/ 0 < cVF c -> exists bed E, end_map L EA W bed E /\ (bed = true -> CB = 0 /\ 0 < cVF c <= W * L) /\
     reaches E (cHF c) (cVF c) (Rmax XF Tol) (Rmax (Rabs ZF) Tol) (Tol * cHF c / (1 - Tol * INR I)) (Tol * Rabs (cVF c) / (1 - Tol * INR I))).
Proof.
  intros H HEA HT HL HC. apply catenary_inv in H; [|lra]. cbv zeta in H. destruct H as (HH & (I & d & H1 & H2 & Hi & Hc) & _). exists I. split; [exact H1|]. split; [exact H2|].
  intros HI HV. replace (Rabs ZF) with (lowz ZF) by (unfold lowz, Rabs; destruct (Rlt_dec ZF 0); destruct (Rcase_abs ZF); lra).
  apply increments_spec in Hi. destruct Hi as (HW & _ & _ & HLo & a & b & Hs & Ea & Eb).
  destruct (converged_spec Tol ltac:(lra) I (cHF c) (cVF c) d a b ltac:(lra) HH HI Hc Ea Eb) as [Ba Bb].
  pose proof (lies_spec W CB (cVF c - W * L) (cHF c)) as S. unfold kind in *. destruct (lies W CB (cVF c - W * L) (cHF c)) eqn:Ek.
  - eexists false, _. split; [apply (hang_map (Rmax XF Tol) (Rmax (lowz ZF) Tol) L EA W HEA HW)|]. split; [discriminate|].
    apply (partials_reaches (Rmax XF Tol) (Rmax (lowz ZF) Tol) L EA W (-1) Hanging (cHF c) (cVF c) a b); try assumption; discriminate.
  - destruct S as (S1 & S2 & S3 & S4). assert (C0 : CB = 0) by lra. subst CB. assert (PW : 0 < W) by lra.
    eexists true, _. split; [apply (bed_map (Rmax XF Tol) (Rmax (lowz ZF) Tol) L EA W HEA PW HL)|]. split; [intros _; split; [reflexivity|destruct HV; lra]|].
    apply (partials_reaches (Rmax XF Tol) (Rmax (lowz ZF) Tol) L EA W 0 Grounded (cHF c) (cVF c) a b); try assumption; discriminate.
  - exfalso. destruct S as (S1 & S2 & S3 & S4). assert (C0 : CB = 0) by lra. rewrite C0 in S4. lra.
Qed.

(* ------------------------------ without a sea bed the routine always returns a line ------------------------------ *)
Lemma lies_none W CB V H : CB < 0 -> lies W CB V H = Hanging.
Proof. intros HC. unfold lies. destruct (Rlt_dec CB 0); [reflexivity|contradiction]. Qed.
Lemma step_defined XF ZF L EA W CB Tol I HF VF : CB < 0 -> 0 < EA -> W <> 0 -> 0 < L -> 0 < HF -> increments XF ZF L EA W CB Tol I HF VF <> None.
Proof.
  intros HC HEA HW HL HH. unfold increments. destruct (Req_EM_T W 0); [contradiction|]. destruct (Req_EM_T EA 0); [lra|]. destruct (Req_EM_T HF 0); [lra|]. cbv zeta. rewrite lies_none by exact HC. cbn [andb].
  pose proof (det_hang L EA W CB HF VF HEA HW HH HL) as D. destruct (errors XF ZF L EA W CB Hanging HF VF) as [e1 e2]. destruct (jacobian L EA W CB Hanging HF VF) as [[[p q] r] t]. destruct (Req_EM_T (det (p, q, r, t)) 0); [lra|discriminate].
Qed.
Lemma bed_step_defined XF ZF L EA W Tol I HF VF : 0 < EA -> 0 < W -> 0 < L -> 0 < HF -> 0 < VF -> increments XF ZF L EA W 0 Tol I HF VF <> None.
Proof.
  intros HEA HW HL HH HV. unfold increments. destruct (Req_EM_T W 0); [lra|]. destruct (Req_EM_T EA 0); [lra|]. destruct (Req_EM_T HF 0); [lra|]. cbv zeta.
  pose proof (lies_spec W 0 (VF - W * L) HF) as S. assert (HW' : W <> 0) by lra.
  pose proof (det_hang L EA W 0 HF VF HEA HW' HH HL) as D1. pose proof (det_ground L EA W HF VF HEA HW HH HL HV) as D2.
  destruct (lies W 0 (VF - W * L) HF); cbn [andb].
  - destruct (errors XF ZF L EA W 0 Hanging HF VF) as [e1 e2]. destruct (jacobian L EA W 0 Hanging HF VF) as [[[p q] r] t]. destruct (Req_EM_T (det (p, q, r, t)) 0); [lra|discriminate].
  - destruct (errors XF ZF L EA W 0 Grounded HF VF) as [e1 e2]. destruct (jacobian L EA W 0 Grounded HF VF) as [[[p q] r] t]. destruct (Req_EM_T (det (p, q, r, t)) 0); [lra|discriminate].
  - destruct S as (_ & _ & _ & S4). lra.
Qed.
Lemma max_iter : Int_part (1 / (1 / 100000)) = 100000%Z.
Proof.
  symmetry. unfold Int_part. assert (E : (100001)%Z = up (1 / (1 / 100000))); [|rewrite <- E; reflexivity]. apply tech_up; lra.
Qed.
Lemma catenary_hangs XF ZF L EA W CB s : CB < 0 -> 0 < EA -> W <> 0 -> 0 < L -> (forall a, In a s -> 0 <= a <= L) ->
  exists c, catenary XF ZF L EA W CB (1 / 100000) s = Ok (Some c).
Proof.
  intros HC HEA HW HL Hs. unfold catenary. rewrite max_iter. set (Tol := 1 / 100000). assert (HT : 0 < Tol) by (unfold Tol; lra).
  set (zz := if (if Rlt_dec ZF 0 then true else false) then - ZF else ZF).
  assert (T : too_long XF zz L EA W CB = false) by (unfold too_long; destruct (Rlt_dec 0 W); [|reflexivity]; destruct (Rle_dec _ L); [|reflexivity]; destruct (Rle_dec 0 CB); [lra|reflexivity]).
  rewrite T. change (orb (100000 <=? 0)%Z (2 ^ 32 <=? 100000)%Z) with false. cbv beta iota zeta. clear T.
  destruct (match iterate (Rmax XF Tol) (Rmax zz Tol) L EA W CB Tol (Z.to_nat 100000) 1 (fst (guess L W Tol XF zz)) (snd (guess L W Tol XF zz)) with
    | Some r => Some r | None => iterate (Rmax XF Tol) (Rmax zz Tol) L EA W CB Tol (Z.to_nat 100000) 1 (fst (guess L W Tol (Rmax XF Tol) (Rmax zz Tol))) (snd (guess L W Tol (Rmax XF Tol) (Rmax zz Tol))) end) as [[[h v] I]|] eqn:E.
  - rewrite nodes_some by exact Hs. destruct (anchor L W CB (lies W CB (v - W * L) h) h v) as [ha va]. eexists. reflexivity.
  - exfalso. destruct (iterate (Rmax XF Tol) (Rmax zz Tol) L EA W CB Tol (Z.to_nat 100000) 1 (fst (guess L W Tol XF zz)) (snd (guess L W Tol XF zz))) eqn:E2; [discriminate|].
    apply never_gives_up in E2; [|exact HT|unfold Tol; lra|change 1%nat with (Z.to_nat 1); apply Z2Nat.inj_le; lia| |apply (guess_pos L W Tol HT)].
    + destruct E2 as (J & h & v & Hh & N). exact (step_defined _ _ L EA W CB Tol J h v HC HEA HW HL Hh N).
    + replace (1 + Z.to_nat 100000 - 1)%nat with (Z.to_nat 100000) by lia. rewrite INR_IZR_INZ, Z2Nat.id by lia. unfold Tol. lra.
Qed.
