(** Proofs about the functions of the bindings that disagree with their C functions, about sections of arrays with
    gaps, and about Rust. *)
From Coq Require Import String Ascii ZArith List Arith Bool Lia.
From Verif Require Import MBind SBind PBind.
Import ListNotations.
Open Scope string_scope.
Open Scope Z_scope.

Definition clash (d : fpass) (t : cty) : bool :=
  match d, t with ByRef _, CInt | ByRef _, CUInt | ByRef _, CDbl => true | _, _ => false end.
Fixpoint clashes (ds : list fpass) (ts : list cty) : bool :=
  match ds, ts with
  | [], [] => false
  | d :: ds, t :: ts => clash d t || clashes ds ts
  | _, _ => true
  end.

Section P.
Context {F S : Type}.
Variable lib : string -> list (aval F) -> S -> mem F -> aval F * S * mem F.

Lemma clash_one : forall (m : mem F) d t a v, clash d t = true -> pass F m d a = Some v -> takes F m t v = false.
Proof.
  intros m d t a v Hc Hp. destruct d as [d|d]; [destruct t; discriminate Hc|]. destruct a as [a|w]; unfold pass in Hp.
  - assert (E : v = APtr F a) by (destruct d; destruct (load F m _ a); [injection Hp as <-; reflexivity|discriminate Hp|..]; try (injection Hp as <-; reflexivity); discriminate Hp).
    subst v. destruct t; try discriminate Hc; reflexivity.
  - destruct d; try discriminate Hp. destruct w; try discriminate Hp. injection Hp as <-. destruct t; try discriminate Hc; reflexivity.
Qed.
Lemma clash_all : forall (m : mem F) ds ts l vs, clashes ds ts = true -> pass_all F m ds l = Some vs -> takes_all F m ts vs = false.
Proof.
  intros m ds. induction ds as [|d ds IH]; intros ts l vs Hc Hp.
  - destruct l; [|discriminate Hp]. injection Hp as <-. destruct ts; [discriminate Hc|reflexivity].
  - destruct l as [|a l]; [discriminate Hp|]. cbn in Hp. destruct (pass F m d a) as [v|] eqn:E1; [|discriminate Hp].
    destruct (pass_all F m ds l) as [ws|] eqn:E2; [|discriminate Hp]. injection Hp as <-. destruct ts as [|t ts]; [reflexivity|].
    cbn in Hc. apply orb_prop in Hc. cbn. destruct Hc as [Hc|Hc].
    + rewrite (clash_one m d t a v Hc E1). reflexivity.
    + rewrite (IH ts l ws Hc E2). apply andb_false_r.
Qed.
Lemma icall_clash : forall i l s m,
  match find_proto cprotos (i_symbol i) with None => true | Some p => clashes (i_dummies i) (p_params p) end = true ->
  ~ returns (icall F S lib i l s m).
Proof.
  intros i l s m H (v & s' & m' & E). unfold icall, ccall in E. destruct (pass_all F m (i_dummies i) l) as [vs|] eqn:Ep; [|discriminate E].
  destruct (find_proto cprotos (i_symbol i)) as [p|]; [|discriminate E].
  rewrite (clash_all m _ _ l vs H Ep) in E. discriminate E.
Qed.
Definition bad_iface (i : fiface) : bool :=
  match find_proto cprotos (i_symbol i) with None => true | Some p => clashes (i_dummies i) (p_params p) end.
Definition bad (n : string) : bool :=
  match find_proc n with
  | Some q => match find_iface (f_iface q) with Some i => bad_iface i | None => true end
  | None => match find_iface n with Some i => bad_iface i | None => true end
  end.
Lemma bad_call : forall n us s m, bad n = true -> ~ returns (fcall F S lib n us s m).
Proof.
  intros n us s m H. unfold fcall, bad in *. destruct (find_proc n) as [q|].
  - unfold pcall. destruct (associate_all F m (f_dummies q) us) as [l|]; [|intros (? & ? & ? & E); discriminate E].
    destruct (eval_all F l (f_args q)) as [acts|]; [|intros (? & ? & ? & E); discriminate E].
    destruct (find_iface (f_iface q)) as [i|]; [|intros (? & ? & ? & E); discriminate E].
    apply icall_clash. exact H.
  - destruct (find_iface n) as [i|]; [|intros (? & ? & ? & E); discriminate E].
    destruct (variables F us) as [l|]; [|intros (? & ? & ? & E); discriminate E]. apply icall_clash. exact H.
Qed.
Lemma takes_all_nth : forall (m : mem F) ts vs k t, takes_all F m ts vs = true -> nth_error ts k = Some t ->
  exists v, nth_error vs k = Some v /\ takes F m t v = true.
Proof.
  intros m ts. induction ts as [|t0 ts IH]; intros vs k t H E; [destruct k; discriminate E|]. destruct vs as [|v vs]; [discriminate H|].
  cbn in H. apply andb_prop in H. destruct H as [H1 H2]. destruct k as [|k]; [injection E as ->; exists v; split; [reflexivity|exact H1]|].
  exact (IH vs k t H2 E).
Qed.
Lemma pass_all_nth : forall (m : mem F) ds acts vs k v, pass_all F m ds acts = Some vs -> nth_error vs k = Some v ->
  exists d a, nth_error ds k = Some d /\ nth_error acts k = Some a /\ pass F m d a = Some v.
Proof.
  intros m ds. induction ds as [|d ds IH]; intros acts vs k v H E; destruct acts as [|a acts]; try discriminate H.
  - injection H as <-. destruct k; discriminate E.
  - cbn in H. destruct (pass F m d a) as [w|] eqn:E1; [|discriminate H]. destruct (pass_all F m ds acts) as [ws|] eqn:E2; [|discriminate H].
    injection H as <-. destruct k as [|k]; [injection E as ->; exists d, a; repeat split; exact E1|]. exact (IH acts ws k v E2 E).
Qed.
Lemma eval_all_nth : forall (l : list (uarg * option (aval F))) es acts k a, eval_all F l es = Some acts -> nth_error acts k = Some a ->
  exists e, nth_error es k = Some e /\ eval F l e = Some a.
Proof.
  intros l es. induction es as [|e es IH]; intros acts k a H E.
  - injection H as <-. destruct k; discriminate E.
  - cbn [eval_all] in H. destruct (eval F l e) as [b|] eqn:E1; [|discriminate H]. destruct (eval_all F l es) as [q|] eqn:E2; [|discriminate H].
    injection H as <-. destruct k as [|k]; [injection E as ->; exists e; split; [reflexivity|exact E1]|]. exact (IH q k a eq_refl E).
Qed.
Lemma associate_all_nth : forall (m : mem F) ds us l k q, associate_all F m ds us = Some l -> nth_error l k = Some q ->
  exists d u, nth_error ds k = Some d /\ associate F m d u = Some q.
Proof.
  intros m ds. induction ds as [|d ds IH]; intros us l k q H E; destruct us as [|u us]; try discriminate H.
  - injection H as <-. destruct k; discriminate E.
  - cbn [associate_all] in H. destruct (associate F m d u) as [w|] eqn:E1; [|discriminate H]. destruct (associate_all F m ds us) as [ws|] eqn:E2; [|discriminate H].
    injection H as <-. destruct k as [|k]; [injection E as ->; exists d, u; split; [reflexivity|exact E1]|]. exact (IH us ws k q E2 E).
Qed.
(** an array of doubles handed over where the C function has floats *)
Lemma float_call : forall p i c us s m k, find_iface (f_iface p) = Some i -> find_proto cprotos (i_symbol i) = Some c ->
  nth_error (p_params c) k = Some (CPtr CFlt) -> nth_error (f_dummies p) k = Some DArray -> nth_error (f_args p) k = Some (ELoc k) ->
  ~ returns (pcall F S lib p us s m).
Proof.
  intros p i c us s m k Ei Ec Ek Ed Ea (v & s' & m' & E). unfold pcall in E.
  destruct (associate_all F m (f_dummies p) us) as [l|] eqn:El; [|discriminate E].
  destruct (eval_all F l (f_args p)) as [acts|] eqn:Ev; [|discriminate E]. rewrite Ei in E. unfold icall in E.
  destruct (pass_all F m (i_dummies i) acts) as [vs|] eqn:Ep; [|discriminate E]. unfold ccall in E. rewrite Ec in E.
  destruct (takes_all F m (p_params c) vs) eqn:Et; [|discriminate E].
  destruct (takes_all_nth m _ vs k _ Et Ek) as (w & Ew & Tw).
  destruct (pass_all_nth m _ acts vs k w Ep Ew) as (d & a & _ & Eac & Pa).
  destruct (eval_all_nth l _ acts k a Ev Eac) as (e & Ee & Ev'). rewrite Ea in Ee. injection Ee as <-. cbn in Ev'.
  destruct (nth_error l k) as [[u o]|] eqn:Eu; [|discriminate Ev']. destruct u as [|b st n|]; try discriminate Ev'.
  destruct o; [discriminate Ev'|]. injection Ev' as <-.
  destruct (associate_all_nth m _ us l k _ El Eu) as (d' & u' & Ed' & As). rewrite Ed in Ed'. injection Ed' as <-.
  assert (W : w = APtr F b).
  { destruct d as [t|t]; destruct t; cbn in Pa; try discriminate Pa; injection Pa as <-; reflexivity. }
  subst w. cbn in As. destruct u' as [|b' st' n'|]; try discriminate As. destruct (m b') as [cl|] eqn:Eb; [|discriminate As].
  destruct cl; try discriminate As. injection As as -> -> ->. cbn in Tw. unfold points in Tw. rewrite Eb in Tw. discriminate Tw.
Qed.
Lemma fast_call : forall us s m, ~ returns (fcall F S lib "MD_GetFASTtens" us s m).
Proof.
  intros us s m. unfold fcall. destruct (find_proc "MD_GetFASTtens") as [p|] eqn:E; [|vm_compute in E; discriminate E].
  vm_compute in E. injection E as <-. eapply (float_call _ _ _ us s m 2); reflexivity.
Qed.
Lemma exception_call : forall n us s m, In n exceptions -> ~ returns (fcall F S lib n us s m).
Proof.
  intros n us s m H. destruct (String.eqb_spec n "MD_GetFASTtens") as [->|N]; [apply fast_call|].
  apply bad_call. repeat (destruct H as [<-|H]; [try reflexivity; congruence|]). destruct H.
Qed.

(** a section of an array with gaps *)
Lemma gap_handed : forall (m : mem F) b stride n v, stride <> 1 -> (2 <= n)%nat -> ~ handed m Reals (UArr b stride n) v.
Proof.
  intros m b stride n v Hs Hn H. inversion H as [| | | | | |b' st' n' p Hp|]; subst.
  pose proof (Hp 0%nat ltac:(lia)) as P0. pose proof (Hp 1%nat ltac:(lia)) as P1. unfold element in *.
  change (Z.of_nat 0) with 0 in P0. change (Z.of_nat 1) with 1 in P1. rewrite Z.mul_1_l in P1. apply Hs. lia.
Qed.
Lemma gap_init : forall (m : mem F) a h b1 s1 n1 b2 s2 n2 f1 f2 s, m a = Some (VPtr F h) -> m b1 = Some (VDbl F f1) -> m b2 = Some (VDbl F f2) ->
  fcall F S lib "MD_Init" [UVar a; UArr b1 s1 n1; UArr b2 s2 n2] s m = answers lib "MoorDyn_Init" [APtr F h; APtr F b1; APtr F b2] s m.
Proof.
  intros m a h b1 s1 n1 b2 s2 n2 f1 f2 s Ha H1 H2. unfold fcall.
  destruct (find_proc "MD_Init") as [p|] eqn:E; [|vm_compute in E; discriminate E]. vm_compute in E. injection E as <-.
  unfold pcall. cbn [f_dummies f_args f_iface associate_all associate load]. rewrite Ha, H1, H2.
  cbn [eval_all eval nth_error]. destruct (find_iface "MoorDyn_Init") as [i|] eqn:Ei; [|vm_compute in Ei; discriminate Ei].
  vm_compute in Ei. injection Ei as <-. unfold icall. cbn [i_dummies i_symbol i_ret pass_all pass load of_type]. rewrite Ha.
  unfold ccall. destruct (find_proto cprotos "MoorDyn_Init") as [c|] eqn:Ec; [|vm_compute in Ec; discriminate Ec].
  vm_compute in Ec. injection Ec as <-. cbn [p_params p_ret takes_all takes points]. rewrite H1, H2. reflexivity.
Qed.

(** Rust *)
Fixpoint cty_eqb (a b : cty) : bool :=
  match a, b with
  | CInt, CInt | CUInt, CUInt | CDbl, CDbl | CFlt, CFlt | CChar, CChar | CSize, CSize | CU64, CU64 => true
  | CObj k, CObj l => String.eqb k l
  | CPtr a, CPtr b => cty_eqb a b
  | _, _ => false
  end.
Lemma cty_eqb_eq : forall a b, cty_eqb a b = true -> a = b.
Proof.
  induction a; intros [] H; try discriminate H; try reflexivity.
  - cbn in H. apply String.eqb_eq in H. rewrite H. reflexivity.
  - cbn in H. rewrite (IHa _ H). reflexivity.
Qed.
Lemma all2_eq : forall l r, all2 cty_eqb l r = true -> l = r.
Proof.
  induction l as [|a l IH]; intros [|b r] H; try discriminate H; [reflexivity|]. cbn in H. apply andb_prop in H. destruct H as [H1 H2].
  rewrite (cty_eqb_eq a b H1), (IH r H2). reflexivity.
Qed.
Definition rust_agrees (n : string) : bool :=
  match find_proto rprotos n, find_proto cprotos n with
  | Some r, Some c => all2 cty_eqb (p_params r) (p_params c) && cty_eqb (p_ret r) (p_ret c)
  | _, _ => false
  end.
Lemma rust_table : forallb (fun r => rust_agrees (p_name r) || String.eqb (p_name r) "MoorDyn_GetWavesKin") rprotos = true.
Proof. vm_compute. reflexivity. Qed.
Lemma rust_call : forall r, In r rprotos -> p_name r <> "MoorDyn_GetWavesKin" ->
  exists c, find_proto cprotos (p_name r) = Some c /\ forall vs s m, takes_all F m (p_params c) vs = true ->
    rcall F S lib (p_name r) vs s m = answers lib (p_name r) vs s m.
Proof.
  intros r Hin Hn. pose proof (proj1 (forallb_forall _ _) rust_table r Hin) as H. cbn beta in H. apply orb_prop in H.
  destruct H as [H|H]; [|apply String.eqb_eq in H; contradiction].
  unfold rust_agrees in H. unfold rcall. destruct (find_proto rprotos (p_name r)) as [q|]; [|discriminate H].
  destruct (find_proto cprotos (p_name r)) as [c|] eqn:Ec; [|discriminate H]. apply andb_prop in H. destruct H as [H1 H2].
  apply all2_eq in H1. apply cty_eqb_eq in H2. exists c. split; [reflexivity|]. intros vs s m Ht.
  rewrite H1, Ht, H2. unfold ccall. rewrite Ec, Ht, Bool.eqb_reflx. reflexivity.
Qed.
Lemma takes_length : forall (m : mem F) ts vs, takes_all F m ts vs = true -> length vs = length ts.
Proof.
  intros m ts. induction ts as [|t ts IH]; intros [|v vs] H; try discriminate H; [reflexivity|]. cbn in H. apply andb_prop in H.
  cbn. rewrite (IH vs (proj2 H)). reflexivity.
Qed.
Lemma rust_waves_kin : forall vs s m, ~ returns (rcall F S lib "MoorDyn_GetWavesKin" vs s m).
Proof.
  intros vs s m (v & s' & m' & E). unfold rcall in E.
  destruct (find_proto rprotos "MoorDyn_GetWavesKin") as [q|] eqn:Eq; [|discriminate E]. vm_compute in Eq. injection Eq as <-.
  match type of E with context [takes_all F m ?ts vs] => destruct (takes_all F m ts vs) eqn:Et; [|discriminate E] end.
  apply takes_length in Et. unfold ccall in E. destruct (find_proto cprotos "MoorDyn_GetWavesKin") as [c|] eqn:Ec; [|discriminate E].
  vm_compute in Ec. injection Ec as <-.
  match type of E with context [takes_all F m ?ts vs] => destruct (takes_all F m ts vs) eqn:Eu; [|discriminate E] end.
  apply takes_length in Eu. rewrite Et in Eu. discriminate Eu.
Qed.
End P.
