(** Examples for the choice of coordinates, and a line that depends on the end it is described from. *)
From Coq Require Import Reals List Arith ZArith Bool Lra Lia.
From Verif Require Import MErr MVec MStateOps MMat MInterp MLine MRod MBody MScheme MSys SMat SLine SFrame PMat PLine PLineB PFrame PFrameB PFrameE PFrameF PFrameG PFrameH PSymm PDemo.
From Verif Require MStep MNodes.
Import ListNotations.
Open Scope R_scope.

(* ----- the same instance in other coordinates ----- *)
Definition no_frames (m : MStep.md mst mdst net) : Prop :=
  let s := MStep.m_ts _ _ _ m in MStep.e_bod _ (env _ _ _ s) = [] /\ MStep.e_rod _ (env _ _ _ s) = [] /\
  (forall x, In x (rr _ _ _ s) -> s_rods x = [] /\ s_bodies x = []) /\ (forall d, In d (rd _ _ _ s) -> d_rods d = [] /\ d_bodies d = []).
Definition mv_state g (x : mst) : mst := Ms (map (fun s => St (map (place g) (pos s)) (map (turn g) (vel s))) (s_lines x)) (map (fun s => St (place g (pos s)) (turn g (vel s))) (s_points x)) [] [].
Definition mv_deriv g (d : mdst) : mdst := Md (map (fun s => Dr (map (turn g) (dvel s)) (map (turn g) (dacc s))) (d_lines d)) (map (fun s => Dr (turn g (dvel s)) (turn g (dacc s))) (d_points d)) [] [].
Definition mv_inst g (m : MStep.md mst mdst net) : MStep.md mst mdst net :=
  let s := MStep.m_ts _ _ _ m in let e := env _ _ _ s in
  MStep.Md _ _ _ (Ts _ _ _ (tt _ _ _ s) (tl _ _ _ s) (MStep.Sys net [] [] (map (moved_cpt g) (MStep.e_pts _ e)) (MStep.e_lin _ e) (moved_net g (MStep.e_rest _ e)))
      (map (mv_state g) (rr _ _ _ s)) (map (mv_deriv g) (rd _ _ _ s)) (nst _ _ _ s) (err _ _ _ s) (boost _ _ _ s))
    (MStep.m_scheme _ _ _ m) (MStep.m_dtM _ _ _ m) (MStep.m_dtOut _ _ _ m) (MStep.m_fail _ _ _ m) (MStep.m_rows _ _ _ m).
Lemma moved_exists g m : no_frames m -> moved_instance g m (mv_inst g m).
Proof.
  intros (B & C & D & E). destruct m as [s c dM dO f r]. destruct s as [t l e rs ds n er bo]. cbn in *. unfold moved_instance. cbn.
  do 11 (split; [reflexivity || (split; [exact B|split; [exact C|reflexivity]])|]). split; [|split; [now rewrite map_length|]].
  - induction ds as [|d ds IH]; cbn; constructor.
    + destruct (E d (or_introl eq_refl)) as (E1 & E2). split; [exact E1|]. split; [exact E2|reflexivity].
    + apply IH. intros x Hx. apply E. now right.
  - intros i x x' _ H1 H2. rewrite nth_error_map, H1 in H2. injection H2 as <-. destruct (D x (nth_error_In _ _ H1)) as (D1 & D2). split; [exact D1|]. split; [exact D2|reflexivity].
Qed.

Lemma inst1_plain : no_frames inst1.
Proof. cbn. split; [reflexivity|]. split; [reflexivity|]. split; intros x [<-|[]]; cbn; auto. Qed.
Lemma runs1 conv : exists m f, net_run sea1 (fun _ _ => -20) demo_env conv 2 inst1 (map (fun c => coupling (fst (fst c)) (snd (fst c)) (snd c)) calls1) = Ok (m, [f]) /\ length f = 3%nat.
Proof.
  cbv -[line_calc point_calc MStep.row_due Rplus Rminus Rmult Rdiv Ropp Rinv IZR Rle_dec Rlt_dec Req_EM_T sea1 demo_env].
  destruct (Rle_dec 1 0) as [H|_]; [lra|]. destruct (Rlt_dec 0 1) as [_|H]; [|lra]. destruct (Rlt_dec 1 1) as [H|_]; [lra|].
  match goal with |- context [line_calc sea1 _ demo_env ?t ?L] => let F := fresh in let M := fresh in destruct (calc1 t L demo_env eq_refl eq_refl eq_refl eq_refl) as (F & M & E); rewrite E end.
  clear E. cbv beta iota.
  match goal with |- context [point_calc sea1 demo_env ?t ?o (SPoint PFixed ?a ?b ?c ?d ?e ?f ?g ?h ?i) ?D] => change (point_calc sea1 demo_env t o (SPoint PFixed a b c d e f g h i) D) with (Ok (SPoint PFixed a b c d e f g h i, D)) end.
  cbv beta iota.
  match goal with |- context [point_calc sea1 demo_env ?t ?o (SPoint PCoupled ?a ?b ?c ?d ?e ?f ?g ?h ?i) ?D] => assert (E : exists F, point_calc sea1 demo_env t o (SPoint PCoupled a b c d e f g h i) D = Ok (sp_force (SPoint PCoupled a b c d e f g h i) F, D)) by (unfold point_calc; cbn; eauto); destruct E as (F & E); rewrite E; clear E end.
  cbv beta iota delta [fst snd sp_force]. cbv beta iota delta [sp_type sp_r sp_rd sp_M sp_V sp_F sp_CdA sp_Ca sp_att sp_Fnet].
  destruct (Rlt_dec 0 (1 - 1)) as [K|_]; [lra|]. cbv beta iota.
  do 2 eexists. split; [reflexivity|]. reflexivity.
Qed.

(* ----- a line that stands on the surface, described from the foot and from the top ----- *)
Definition post : line :=
  Line 1 0.1 1 3000 1000 0 0 1 0 1.2 0.1 [] [] [] [] [] [] false (fun _ => 0)
    (fun i => match i with O => V3 0 0 0 | _ => V3 0 0 1 end) (fun _ => vzero) (fun _ => 1) (fun _ => 1) false false (V3 0 0 1) (V3 0 0 1).
Lemma post_ext L k i : (k = still \/ k = reversed_water 1 still) -> lrd L i = vzero -> lisPb L = false -> 0 <= vz (lr L i) -> external L demo_env k i = lW L demo_env k i.
Proof.
  intros HK HV HP HZ. assert (U : wU k i = vzero /\ wUd k i = vzero /\ wdepth k = (fun _ _ => -20)) by (destruct HK as [->| ->]; repeat split; reflexivity). destruct U as (U1 & U2 & U3).
  assert (ZZ : vsub vzero vzero = vzero) by (unfold vsub, vzero; cbn; f_equal; ring). assert (A0 : forall q, along q vzero = vzero) by (intro q; unfold along, dot, vscale, vzero; cbn; f_equal; ring).
  assert (S0 : forall c, vscale c vzero = vzero) by (intro c; unfold vscale, vzero; cbn; f_equal; ring). assert (C0 : forall q, across q vzero = vzero) by (intro q; unfold across; now rewrite A0).
  unfold external, lDp, lDq, lAp, lAq, lPb, lB, bottom. rewrite HV, HP, U1, U2, U3, ZZ. cbv zeta. rewrite !A0, !C0, !S0. cbn [negb]. destruct (Rlt_dec (vz (lr L i)) (-20)); [lra|].
  generalize (lW L demo_env k i). intro w. destruct w. unfold vadd, vzero. cbn. f_equal; ring.
Qed.
Lemma post_refutes : exists F F', line_forces post demo_env still = Some F /\ line_forces (reversed post) demo_env (reversed_water 1 still) = Some F' /\
  ~ (forall i, (i <= 1)%nat -> F' i = F (1 - i)%nat).
Proof.
  destruct (linear_total post demo_env still eq_refl eq_refl eq_refl) as (F & E). destruct (linear_total (reversed post) demo_env (reversed_water 1 still) eq_refl eq_refl eq_refl) as (F' & E'). exists F, F'. split; [exact E|]. split; [exact E'|]. intro H.
  pose proof (total_force post _ _ _ (Nat.lt_0_succ 0) E) as T. pose proof (total_force (reversed post) _ _ _ (Nat.lt_0_succ 0) E') as T'. cbn [lN post reversed Nat.add vsum] in T, T'.
  pose proof (H 0%nat ltac:(lia)) as H0. pose proof (H 1%nat ltac:(lia)) as H1. cbn [Nat.sub] in H0, H1. rewrite H0, H1 in T'.
  rewrite !post_ext in T by (auto; cbn; lra). rewrite !post_ext in T' by (auto; cbn; lra). apply (f_equal vz) in T. apply (f_equal vz) in T'. cbn [vadd vz] in T, T'.
  assert (S1 : lF post still 0 = 1). { unfold lF. cbn [lr post ldia still wzeta]. replace (0.5 * (0 + 0)) with 0 by lra. destruct (surface_standing 0.1 1 0) as (A & _); [lra|]. now rewrite Rplus_0_l in A. }
  assert (S2 : lF (reversed post) (reversed_water 1 still) 0 = 0). { unfold lF. cbn. replace (0.5 * (0 + 0)) with 0 by lra. destruct (surface_standing 0.1 1 0) as (_ & B); [lra|]. rewrite Rplus_0_l in B. exact B. }
  unfold lW, at_node in T, T'. cbn [Nat.eqb Nat.sub lN reversed post] in T, T'. change (reversed post) with (reversed post) in T'. rewrite S1 in T. cbn [vz larea ll lrho post demo_env rho_w gr] in T.
  match type of T' with context [lF ?a ?b 0] => change (lF a b 0) with (lF (reversed post) (reversed_water 1 still) 0) in T' end. rewrite S2 in T'. cbn [vz larea ll lrho reversed post demo_env rho_w gr] in T'. lra.
Qed.
