(** Proofs about the bindings for Fortran and Rust. *)
From Coq Require Import String Ascii ZArith List Arith Bool Lia.
From Verif Require Import MBind SBind.
Import ListNotations.
Open Scope string_scope.
Open Scope Z_scope.

(** whether a C parameter of the type is what the form describes *)
Definition cform (f : form) (t : cty) : bool :=
  match f, t with
  | Handle, CPtr (CObj _) | IntVal, CInt | IntVal, CUInt | RealVal, CDbl | IntVar, CPtr CInt | IntVar, CPtr CUInt
  | RealVar, CPtr CDbl | HandleVar, CPtr (CPtr _) | Reals, CPtr CDbl | Text, CPtr CChar => true
  | _, _ => false
  end.
(** whether a dummy argument of the interface block hands a variable over as the form asks *)
Definition iform (f : form) (d : fpass) : bool :=
  match f, d with
  | Handle, ByVal FPtr | IntVal, ByVal FInt | RealVal, ByVal FDbl | IntVar, ByRef FInt | RealVar, ByRef FDbl
  | HandleVar, ByRef FPtr => true
  | _, _ => false
  end.
(** whether the k-th argument of a function behind contains is handed over as the form asks *)
Definition pform (k : nat) (f : form) (d : fdummy) (e : fexpr) (i : fpass) : bool :=
  match d, e with
  | DScalar (ByRef t), EDummy j => Nat.eqb j k && iform f i && iform f (match f with Handle | IntVal | RealVal => ByVal t | _ => ByRef t end)
  | DScalar (ByVal t), EDummy j =>
      Nat.eqb j k && match f with Handle | IntVal | RealVal => iform f i && iform f (ByVal t) | _ => false end
  | DArray, ELoc j => Nat.eqb j k && match f, i with Reals, ByVal FPtr => true | _, _ => false end
  | DString, ETrimNul j => Nat.eqb j k && match f, i with Text, ByRef FChar => true | _, _ => false end
  | _, _ => false
  end.
Fixpoint all2 {A B} (p : A -> B -> bool) (l : list A) (r : list B) : bool :=
  match l, r with [], [] => true | a :: l, b :: r => p a b && all2 p l r | _, _ => false end.
Fixpoint pforms (k : nat) (fs : list form) (ds : list fdummy) (es : list fexpr) (is : list fpass) : bool :=
  match fs, ds, es, is with
  | [], [], [], [] => true
  | f :: fs, d :: ds, e :: es, i :: is => pform k f d e i && pforms (Datatypes.S k) fs ds es is
  | _, _, _, _ => false
  end.
Definition rets (r : fty) (c : cty) : bool := Bool.eqb match r with FPtr => true | _ => false end match c with CPtr _ => true | _ => false end.
(** whether a function of the module agrees with its C function *)
Definition agrees (d : string * string * list form) : bool :=
  let '(n, c, fs) := d in
  match find_proto cprotos c with
  | None => false
  | Some p =>
      all2 cform fs (p_params p) &&
      match find_proc n with
      | Some q =>
          match find_iface (f_iface q) with
          | Some i => pforms 0 fs (f_dummies q) (f_args q) (i_dummies i) && String.eqb (i_symbol i) c && rets (i_ret i) (p_ret p)
          | None => false
          end
      | None =>
          match find_iface n with
          | Some i => all2 iform fs (i_dummies i) && String.eqb (i_symbol i) c && rets (i_ret i) (p_ret p)
          | None => false
          end
      end
  end.
Lemma agree_table : forallb (fun d => agrees d || existsb (String.eqb (fst (fst d))) exceptions) documented = true.
Proof. vm_compute. reflexivity. Qed.

Lemma trim_spec : forall l, exists q, l = (trim l ++ repeat " "%char q)%list /\ (forall k, trim l <> (k ++ [" "%char])%list).
Proof.
  induction l as [|c l (q & E & H)].
  - exists 0%nat. split; [reflexivity|]. intros k C. destruct k; discriminate C.
  - cbn [trim]. destruct (trim l) as [|d r] eqn:T.
    + destruct (Ascii.eqb_spec c " ") as [->|N].
      * exists (Datatypes.S q). cbn. rewrite E at 1. split; [reflexivity|]. intros k C. destruct k; discriminate C.
      * exists q. cbn. rewrite E at 1. split; [reflexivity|]. intros [|a k] C; [injection C as ->; congruence|].
        injection C as _ C. destruct k; discriminate C.
    + exists q. cbn. rewrite E at 1. split; [reflexivity|]. intros [|a k] C; [discriminate C|].
      injection C as _ C. exact (H k C).
Qed.
Lemma cstr_plain : forall l r, ~ In zero l -> cstr (l ++ zero :: r)%list = Some l.
Proof.
  induction l as [|c l IH]; intros r H; [reflexivity|]. cbn [cstr List.app]. destruct (Ascii.eqb_spec c zero) as [->|N].
  - destruct H. left. reflexivity.
  - rewrite IH; [reflexivity|]. intros C. apply H. right. exact C.
Qed.
Lemma trim_in : forall l c, In c (trim l) -> In c l.
Proof.
  intros l c H. destruct (trim_spec l) as (q & E & _). rewrite E. apply in_or_app. left. exact H.
Qed.

Section P.
Context {F S : Type}.
Variable lib : string -> list (aval F) -> S -> mem F -> aval F * S * mem F.

Lemma handed_takes : forall (m : mem F) f t u v, cform f t = true -> given m f u -> handed m f u v -> takes F m t v = true.
Proof.
  intros m f t u v Hc Hg Hh. destruct Hg; inversion Hh; subst; destruct t as [| | | | | | |k|t]; try discriminate Hc; try reflexivity;
    try (destruct t; try discriminate Hc; cbn; try reflexivity; unfold points; rewrite ?H; reflexivity).
  - destruct t; try discriminate Hc. cbn. unfold points.
    destruct (H0 0%nat H) as (f & E). pose proof (H5 0%nat H) as Q. unfold element in *. cbn in Q, E.
    replace p with (b + 0) by lia. rewrite E. reflexivity.
  - destruct t; try discriminate Hc. cbn. match goal with E : cstr _ = Some _ |- _ => rewrite E end. reflexivity.
Qed.
Lemma handed_takes_all : forall (m : mem F) fs ts us vs, all2 cform fs ts = true -> Forall2 (given m) fs us -> handed_all m fs us vs ->
  takes_all F m ts vs = true.
Proof.
  intros m fs ts us vs Hc Hg Hh. revert ts Hc Hg. induction Hh; intros [|t ts] Hc Hg; try discriminate Hc; [reflexivity|].
  cbn in Hc. apply andb_prop in Hc. destruct Hc as [H1 H2]. inversion Hg; subst. cbn.
  rewrite (handed_takes m f t u v H1 H5 H), (IHHh ts H2 H7). reflexivity.
Qed.

Lemma pass_var : forall (m : mem F) f d a, iform f d = true -> given m f (UVar a) ->
  exists v, pass F m d (AcVar F a) = Some v /\ handed m f (UVar a) v.
Proof.
  intros m f d a Hi Hg. inversion Hg; subst; destruct d as [t|t]; destruct t; try discriminate Hi; cbn; match goal with E : m a = Some _ |- _ => rewrite E end;
    eexists; (split; [reflexivity|]); econstructor; eassumption.
Qed.
Lemma pass_vars : forall (m : mem F) fs ds us, all2 iform fs ds = true -> Forall2 (given m) fs us ->
  exists l vs, variables F us = Some l /\ pass_all F m ds l = Some vs /\ handed_all m fs us vs.
Proof.
  intros m fs ds us Hi Hg. revert ds Hi. induction Hg as [|f u fs us Hu Hg IH]; intros [|d ds] Hi; try discriminate Hi.
  - exists [], []. repeat split. constructor.
  - cbn in Hi. apply andb_prop in Hi. destruct Hi as [H1 H2]. destruct (IH ds H2) as (l & vs & E1 & E2 & E3).
    assert (A : exists a, u = UVar a) by (inversion Hu; subst; try (eexists; reflexivity); destruct d as [t|t]; destruct t; discriminate H1).
    destruct A as [a ->]. destruct (pass_var m f d a H1 Hu) as (v & Ev & Hv).
    exists (AcVar F a :: l), (v :: vs). cbn. rewrite E1, Ev, E2. repeat split. constructor; assumption.
Qed.

Lemma pform_step : forall (m : mem F) k f d e i u, pform k f d e i = true -> given m f u ->
  exists q, associate F m d u = Some q /\
    forall l, nth_error l k = Some q -> exists a v, eval F l e = Some a /\ pass F m i a = Some v /\ handed m f u v.
Proof.
  intros m k f d e i u Hp Hg. destruct d as [[t|t]| |]; destruct e as [j|j|j]; try discriminate Hp; cbn in Hp;
    repeat (apply andb_prop in Hp; destruct Hp as [Hp ?Hq]); repeat match goal with H : (_ && _)%bool = true |- _ => apply andb_prop in H; destruct H end;
    apply Nat.eqb_eq in Hp; subst j.
  - (* by value *)
    destruct Hg; cbn in Hq; try discriminate Hq; apply andb_prop in Hq; destruct Hq as [H1 H2]; destruct t;
      try discriminate H2; cbn; rewrite H; eexists; (split; [reflexivity|]); intros l El; rewrite El;
      do 2 eexists; (split; [reflexivity|]);
      destruct i as [t|t]; destruct t; try discriminate H1; cbn; (split; [reflexivity|]); constructor; assumption.
  - (* by reference *)
    assert (A : exists a, u = UVar a) by (inversion Hg; subst; try (eexists; reflexivity); destruct i as [t'|t']; destruct t'; discriminate).
    destruct A as [a ->]. destruct (pass_var m f i a ltac:(assumption) Hg) as (v & Ev & Hv).
    assert (L : exists w, load F m t a = Some w).
    { inversion Hg; subst; destruct t; try discriminate; cbn; match goal with E : m a = Some _ |- _ => rewrite E end; eexists; reflexivity. }
    destruct L as [w L]. cbn. rewrite L. eexists. split; [reflexivity|]. intros l El. rewrite El.
    exists (AcVar F a), v. repeat split; assumption.
  - (* array *)
    destruct f; try discriminate. destruct i as [t|t]; try discriminate; destruct t; try discriminate. inversion Hg as [| | | | | |b n Hn Hf|]; subst.
    destruct (Hf 0%nat Hn) as (x & E). unfold element in E. cbn in E. replace (b + 0) with b in E by lia.
    cbn. rewrite E. eexists. split; [reflexivity|]. intros l El. rewrite El. do 2 eexists. split; [reflexivity|]. split; [reflexivity|].
    constructor. intros k' _. unfold element. lia.
  - (* characters *)
    destruct f; try discriminate. destruct i as [t|t]; try discriminate; destruct t; try discriminate. inversion Hg as [| | | | | | |c Hc]; subst.
    cbn. eexists. split; [reflexivity|]. intros l El. rewrite El. do 2 eexists. split; [reflexivity|]. split; [reflexivity|].
    destruct (trim_spec c) as (q & E & N). apply (Ha_text m c (trim c) q _ E N). apply cstr_plain.
    intros C. exact (Hc (trim_in c zero C)).
Qed.
Lemma pforms_step : forall (m : mem F) fs us, Forall2 (given m) fs us -> forall k ds es is, pforms k fs ds es is = true ->
  exists qs, associate_all F m ds us = Some qs /\ length qs = length fs /\
    forall p, length p = k -> exists acts vs, eval_all F (p ++ qs) es = Some acts /\ pass_all F m is acts = Some vs /\ handed_all m fs us vs.
Proof.
  intros m fs us Hg. induction Hg as [|f u fs us Hu Hg IH]; intros k ds es is Hp.
  - destruct ds, es, is; try discriminate Hp. exists []. repeat split. intros p _. exists [], []. repeat split. constructor.
  - destruct ds as [|d ds], es as [|e es], is as [|i is]; try discriminate Hp. cbn in Hp. apply andb_prop in Hp. destruct Hp as [H1 H2].
    destruct (pform_step m k f d e i u H1 Hu) as (q & Eq & Hq). destruct (IH _ _ _ _ H2) as (qs & Eqs & Lq & Hqs).
    exists (q :: qs). cbn. rewrite Eq, Eqs. split; [reflexivity|]. split; [rewrite Lq; reflexivity|]. intros p Lp.
    destruct (Hq (p ++ q :: qs)%list) as (a & v & Ea & Ev & Hv).
    { rewrite nth_error_app2 by lia. replace (k - length p)%nat with 0%nat by lia. reflexivity. }
    destruct (Hqs (p ++ [q])%list) as (acts & vs & E1 & E2 & E3). { rewrite app_length. cbn. lia. }
    rewrite <- app_assoc in E1. cbn in E1. exists (a :: acts), (v :: vs). rewrite Ea, E1, Ev, E2. repeat split. constructor; assumption.
Qed.

Lemma agree_call : forall n c fs, agrees (n, c, fs) = true -> forall us s m, Forall2 (given m) fs us ->
  exists vs, handed_all m fs us vs /\ fcall F S lib n us s m = answers lib c vs s m.
Proof.
  intros n c fs Ha us s m Hg. unfold agrees in Ha. destruct (find_proto cprotos c) as [p|] eqn:Ep; [|discriminate Ha].
  apply andb_prop in Ha. destruct Ha as [Hc Ha].
  assert (K : forall i acts vs, rets (i_ret i) (p_ret p) = true -> String.eqb (i_symbol i) c = true -> pass_all F m (i_dummies i) acts = Some vs ->
    handed_all m fs us vs -> icall F S lib i acts s m = answers lib c vs s m).
  { intros i acts vs Hr Hs Hp Hh. apply String.eqb_eq in Hs. unfold icall, ccall, answers. rewrite Hp, Hs, Ep.
    rewrite (handed_takes_all m fs (p_params p) us vs Hc Hg Hh). unfold rets in Hr. cbn [andb]. rewrite Hr. reflexivity. }
  unfold fcall. destruct (find_proc n) as [q|].
  - destruct (find_iface (f_iface q)) as [i|] eqn:Ei; [|discriminate Ha].
    apply andb_prop in Ha. destruct Ha as [Ha Hr]. apply andb_prop in Ha. destruct Ha as [Hp Hs].
    destruct (pforms_step m fs us Hg _ _ _ _ Hp) as (qs & Eq & _ & Hq). destruct (Hq [] eq_refl) as (acts & vs & E1 & E2 & E3).
    exists vs. split; [exact E3|]. unfold pcall. rewrite Eq. cbn in E1. rewrite E1, Ei. exact (K i acts vs Hr Hs E2 E3).
  - destruct (find_iface n) as [i|]; [|discriminate Ha].
    apply andb_prop in Ha. destruct Ha as [Ha Hr]. apply andb_prop in Ha. destruct Ha as [Hp Hs].
    destruct (pass_vars m fs _ us Hp Hg) as (l & vs & E1 & E2 & E3). exists vs. split; [exact E3|]. rewrite E1.
    exact (K i l vs Hr Hs E2 E3).
Qed.
Lemma documented_call : forall n c fs, In (n, c, fs) documented -> ~ In n exceptions ->
  forall us s m, Forall2 (given m) fs us -> exists vs, handed_all m fs us vs /\ fcall F S lib n us s m = answers lib c vs s m.
Proof.
  intros n c fs Hin Hex. pose proof (proj1 (forallb_forall _ _) agree_table _ Hin) as H. cbn [fst] in H.
  apply orb_prop in H. destruct H as [H|H].
  - exact (agree_call n c fs H).
  - exfalso. apply Hex. apply existsb_exists in H. destruct H as (x & Hx & E). apply String.eqb_eq in E. subst. exact Hx.
Qed.
End P.
