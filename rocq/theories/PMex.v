(** Proofs about the wrapper for Matlab. *)
From Coq Require Import String ZArith List Arith Bool Lia.
From Verif Require Import MMex SMex.
Import ListNotations.
Open Scope string_scope.
Open Scope Z_scope.

(** a matrix is all that comes back *)
Definition one_matrix (d : doc) : bool :=
  forallb (fun k => match nth_error (d_pars d) k with Some (QMat _) => match d_kind d with Code => match d_outs d with [j] => Nat.eqb j (S k) | _ => false end | _ => false end | _ => true end) (seq 0 (length (d_pars d))).
Lemma matrices : Forall (fun d => forall k n, nth_error (d_pars d) k = Some (QMat n) -> d_kind d = Code /\ d_outs d = [S k]) documented.
Proof.
  assert (A : forallb one_matrix documented = true) by (vm_compute; reflexivity).
  rewrite forallb_forall in A. apply Forall_forall. intros d Hd k n Hk. specialize (A d Hd). unfold one_matrix in A. rewrite forallb_forall in A.
  assert (L : (k < length (d_pars d))%nat) by (apply nth_error_Some; congruence).
  assert (B := A k ltac:(apply in_seq; lia)). rewrite Hk in B. destruct (d_kind d); try discriminate. destruct (d_outs d) as [|j [|]]; try discriminate.
  apply Nat.eqb_eq in B. subst j. auto.
Qed.

Section Proofs.
Context {F S : Type}.
Variable trunc : F -> Z.
Variable ofint : Z -> F.
Variable fzero : F.
Variable lib : string -> S -> list (cin F) -> cres F S.
Variable reach : string -> S -> list (cin F) -> nat -> nat.
Notation call := (mcall F S trunc ofint fzero lib reach).

Lemma codes_map : forall l, codes F (map (EZ F) l) = Some l.
Proof. induction l as [|z l IH]; cbn; [reflexivity|]. rewrite IH. reflexivity. Qed.
Lemma reals_map : forall l, reals F (map (EF F) l) = Some l.
Proof. induction l as [|z l IH]; cbn; [reflexivity|]. rewrite IH. reflexivity. Qed.
Lemma scalar_int : forall a e, scalar a e -> first_int F trunc a = Some (int_of trunc e).
Proof. intros a e H. destruct H as [c e H]. unfold first_int. cbn. rewrite H. destruct e; reflexivity. Qed.
Lemma scalar_real : forall a e, scalar a e -> first_dbl F ofint a = Some (real_of ofint e).
Proof. intros a e H. destruct H as [c e H]. unfold first_dbl. cbn. rewrite H. destruct e; reflexivity. Qed.

Lemma filled_nth : forall q n k i, (i < n)%nat -> nth_error (filled F S fzero q n n k) i = Some (EF F (q_dbl F S q k i)).
Proof.
  intros q n k i Hi. unfold filled.
  rewrite nth_error_map, (nth_error_nth' (seq 0 n) 0%nat) by (rewrite seq_length; exact Hi).
  cbn [option_map]. rewrite seq_nth by exact Hi. rewrite Nat.add_0_l. destruct (Nat.ltb_spec i n); [reflexivity|lia].
Qed.
Lemma entry_row : forall q n k i, (i < n)%nat -> entry (MArr F KDouble 1 n (filled F S fzero q n n k)) 0 i = Some (EF F (q_dbl F S q k i)).
Proof.
  intros q n k i Hi. unfold entry, a_rows, a_cols, a_data.
  destruct (Nat.ltb_spec 0 1); [|lia]. destruct (Nat.ltb_spec i n); [|lia]. cbn [andb]. rewrite Nat.mul_1_l, Nat.add_0_l. apply filled_nth. exact Hi.
Qed.
Lemma entry_mat : forall q n k i j, (i < n)%nat -> (j < n)%nat ->
  entry (MArr F KDouble n n (filled F S fzero q (n * n) (n * n) k)) i j = Some (EF F (q_dbl F S q k (n * j + i))).
Proof.
  intros q n k i j Hi Hj. unfold entry, a_rows, a_cols, a_data.
  destruct (Nat.ltb_spec i n); [|lia]. destruct (Nat.ltb_spec j n); [|lia]. cbn [andb].
  replace (i + n * j)%nat with (n * j + i)%nat by lia. apply filled_nth. nia.
Qed.

Lemma find_row : forall n x, find (fun x => String.eqb (x_name x) n) mextable = Some x ->
  String.eqb n "MoorDynM_Create" = false -> String.eqb n "MoorDynM_ExternalWaveKinGetCoordinates" = false ->
  forall o ins s, call n o ins s = Some (mexrun F S trunc ofint fzero lib reach x o ins s).
Proof. intros n x H H1 H2 o ins s. unfold mcall. rewrite H1, H2, H. reflexivity. Qed.

(** a call with the right numbers of inputs and outputs whose inputs are read *)
Lemma run_row : forall x h ins vs s,
  length ins = (x_in x - 1)%nat -> x_in x <> 0%nat ->
  reads F trunc ofint (MArr F KUInt64 1 1 [EZ F h] :: ins) (x_reads x) = Some vs ->
  let gs := map (hand F h vs) (x_args x) in
  within F (reach (x_fun x) s gs) vs 0 (x_args x) = true ->
  let q := lib (x_fun x) s gs in
  mexrun F S trunc ofint fzero lib reach x (x_out x) (MArr F KUInt64 1 1 [EZ F h] :: ins) s =
  if match x_check x with CheckCode => negb (q_err F S q =? 0) | CheckObj => q_obj F S q =? 0 | NoCheck => false end then MErr F S (q_sys F S q)
  else MVal F S (map (output F S fzero q (reach (x_fun x) s gs) vs (x_args x)) (x_outs x)) (q_sys F S q).
Proof.
  intros x h ins vs s Hl Hn Hr gs Hw q. unfold mexrun.
  replace (length (MArr F KUInt64 1 1 [EZ F h] :: ins)) with (x_in x) by (cbn; lia).
  rewrite !Nat.eqb_refl. cbn [negb nth_error first_int a_cls numeric a_data]. rewrite Hr. fold gs. rewrite Hw. reflexivity.
Qed.

Ltac inv_fills := repeat match goal with
  | H : fills _ _ [] _ _ |- _ => inversion H; subst; clear H
  | H : fills _ _ (_ :: _) _ _ |- _ => inversion H; subst; clear H; try (exfalso; assumption)
  end.
Ltac shape := repeat split; try reflexivity; try apply entry_row; try (intros; apply entry_row; assumption);
  try (intros; rewrite entry_mat by assumption; f_equal; f_equal; match goal with H : forall i j, _ -> _ -> _ |- _ => apply H; assumption end).
Ltac finish h :=
  let E := fresh "E" in let R := fresh "R" in let W' := fresh "W" in let Z0 := fresh "Z" in let Z1 := fresh "Z" in
  match goal with |- context [mexrun _ _ _ _ _ _ _ ?x _ (?a :: ?ins) ?s] =>
    eassert (R : reads F trunc ofint (a :: ins) (x_reads x) = Some _) by
      (cbn [reads read nth_error x_reads a_cls a_data numeric]; 
       rewrite ?codes_map, ?reals_map; repeat match goal with H : scalar _ _ |- _ => rewrite ?(scalar_int _ _ H), ?(scalar_real _ _ H); clear H end; reflexivity);
    pose proof (run_row x h ins _ s eq_refl ltac:(discriminate) R) as E; clear R
  end;
  cbn [x_fun x_args x_check x_outs x_out map hand within room vec_size nth_error output] in E;
  repeat match goal with H : reach _ _ _ _ = _ |- _ => rewrite H in E; clear H end;
  match type of E with ?W = true -> _ =>
    assert (W' : W = true) by (repeat match goal with H : (reach _ _ _ _ <= _)%nat |- _ => apply Nat.leb_le in H; rewrite H end; rewrite ?Nat.leb_refl; reflexivity);
    specialize (E W'); clear W' end;
  rewrite E; clear E;
  unfold fails, returned; cbn [d_kind d_pars d_outs];
  match goal with
  | |- context [negb (?e =? 0)] => destruct (Z.eqb_spec e 0) as [Z0|Z0]; cbn [negb]; [right; split; [intro Z1; exact (Z1 Z0)|]|left; split; [exact Z0|reflexivity]]
  | |- context [?e =? 0] => destruct (Z.eqb_spec e 0) as [Z0|Z0]; [left; split; [exact Z0|reflexivity]|right; split; [intro Z1; exact (Z0 Z1)|]]
  | _ => right; split; [intro Z1; exact Z1|]
  end; try (eexists; split; [reflexivity|]; first [eexists; split; [reflexivity|]; shape | repeat (apply Forall2_cons; [eexists; split; [reflexivity|]; cbn [shows nth_error]; shape|]); apply Forall2_nil]).
Ltac limits Hk := try (pose proof (Hk 0%nat _ eq_refl) as [? ?]); try (pose proof (Hk 1%nat _ eq_refl) as [? ?]); try (pose proof (Hk 2%nat _ eq_refl) as [? ?]);
    try (pose proof (Hk 3%nat _ eq_refl) as [? ?]); try (pose proof (Hk 4%nat _ eq_refl) as [? ?]); try (pose proof (Hk 5%nat _ eq_refl) as [? ?]);
    try (pose proof (Hk 6%nat _ eq_refl) as [? ?]); try (pose proof (Hk 7%nat _ eq_refl) as [? ?]); clear Hk; cbn [may symmetric nth_error] in *.

Theorem documented_call : forall d h args ins s, In d documented -> ~ In (d_name d) misplaced -> fills trunc ofint (d_pars d) args ins ->
  let v := IObj F h :: ins in
  let q := lib (d_fun d) s v in
  (forall k p, nth_error (d_pars d) k = Some p -> may v (Datatypes.S k) p (reach (d_fun d) s v (Datatypes.S k)) /\ symmetric q (Datatypes.S k) p) ->
  (fails d q /\ call (d_name d) (n_outs d) (MArr F KUInt64 1 1 [EZ F h] :: args) s = Some (MErr F S (q_sys F S q))) \/
  (~ fails d q /\ exists l, call (d_name d) (n_outs d) (MArr F KUInt64 1 1 [EZ F h] :: args) s = Some (MVal F S l (q_sys F S q)) /\ returned d v q l).
Proof.
  intros d h args ins s Hd Hm Hf v q Hk. subst v q. unfold documented in Hd. cbn [In] in Hd.
  repeat match type of Hd with _ \/ _ => destruct Hd as [Hd|Hd]; [|] end; try contradiction; subst d; cbn [d_name d_fun d_pars d_kind d_outs] in *;
  try (exfalso; apply Hm; unfold misplaced; cbn [In]; tauto); clear Hm.
  all: inv_fills.
  all: (match goal with |- context [call ?n _ _ _] =>
    let t := eval vm_compute in (find (fun x => String.eqb (x_name x) n) mextable) in
    match t with Some ?x => rewrite (find_row n x eq_refl eq_refl eq_refl) end end).
  all: cbn [n_outs d_kind d_outs length].
  all: limits Hk; finish h.
Qed.

Lemma misplaced_call : forall n o r c l args s, In n misplaced -> call n o (MArr F KUInt64 r c l :: args) s = Some (MErr F S s).
Proof.
  intros n o r c l args s H. unfold misplaced in H. cbn [In] in H.
  repeat match type of H with _ \/ _ => destruct H as [H|H]; [|] end; try contradiction; subst n;
  (match goal with |- context [call ?n _ _ _] =>
    let t := eval vm_compute in (find (fun x => String.eqb (x_name x) n) mextable) in
    match t with Some ?x => rewrite (find_row n x eq_refl eq_refl eq_refl) end end);
  unfold mexrun; cbn [x_in x_out x_reads reads read nth_error a_cls];
  destruct (negb _); try reflexivity; destruct (negb _); try reflexivity; destruct (first_int _ _ _); reflexivity.
Qed.

Lemma count_call : forall x o ins s, length ins <> x_in x \/ o <> x_out x -> mexrun F S trunc ofint fzero lib reach x o ins s = MErr F S s.
Proof.
  intros x o ins s H. unfold mexrun. destruct (Nat.eqb_spec (length ins) (x_in x)); cbn [negb]; [|reflexivity].
  destruct (Nat.eqb_spec o (x_out x)); cbn [negb]; [|reflexivity]. exfalso. destruct H as [H|H]; exact (H ltac:(assumption)).
Qed.
Lemma documented_count : forall d o ins s, In d documented -> length ins <> (1 + n_ins d)%nat \/ o <> n_outs d -> call (d_name d) o ins s = Some (MErr F S s).
Proof.
  intros d o ins s Hd H.
  assert (E : exists x, find (fun x => String.eqb (x_name x) (d_name d)) mextable = Some x /\ x_in x = (1 + n_ins d)%nat /\ x_out x = n_outs d /\
     String.eqb (d_name d) "MoorDynM_Create" = false /\ String.eqb (d_name d) "MoorDynM_ExternalWaveKinGetCoordinates" = false).
  { assert (A : forallb (fun d => match find (fun x => String.eqb (x_name x) (d_name d)) mextable with
        | Some x => Nat.eqb (x_in x) (1 + n_ins d) && Nat.eqb (x_out x) (n_outs d) && negb (String.eqb (d_name d) "MoorDynM_Create") && negb (String.eqb (d_name d) "MoorDynM_ExternalWaveKinGetCoordinates")
        | None => false end) documented = true) by (vm_compute; reflexivity).
    rewrite forallb_forall in A. specialize (A d Hd). destruct (find _ mextable) as [x|]; [|discriminate]. exists x.
    apply andb_prop in A as [A A4]. apply andb_prop in A as [A A3]. apply andb_prop in A as [A1 A2].
    apply Nat.eqb_eq in A1, A2. apply negb_true_iff in A3, A4. auto. }
  destruct E as (x & E & Ei & Eo & E1 & E2). rewrite (find_row _ x E E1 E2). rewrite count_call; [reflexivity|]. rewrite Ei, Eo. exact H.
Qed.

Lemma no_handle : forall n x, find (fun x => String.eqb (x_name x) n) mextable = Some x -> forall o a args s,
  first_int F trunc a = None -> mexrun F S trunc ofint fzero lib reach x o (a :: args) s = MErr F S s.
Proof. intros n x Hx o a args s H. unfold mexrun. destruct (negb _); [reflexivity|]. destruct (negb _); [reflexivity|]. cbn [nth_error]. rewrite H. reflexivity. Qed.
Lemma documented_no_handle : forall d o a args s, In d documented -> (numeric (a_cls F a) = false \/ a_data F a = []) -> call (d_name d) o (a :: args) s = Some (MErr F S s).
Proof.
  intros d o a args s Hd H.
  assert (E : exists x, find (fun x => String.eqb (x_name x) (d_name d)) mextable = Some x /\
     String.eqb (d_name d) "MoorDynM_Create" = false /\ String.eqb (d_name d) "MoorDynM_ExternalWaveKinGetCoordinates" = false).
  { assert (A : forallb (fun d => match find (fun x => String.eqb (x_name x) (d_name d)) mextable with
        | Some x => negb (String.eqb (d_name d) "MoorDynM_Create") && negb (String.eqb (d_name d) "MoorDynM_ExternalWaveKinGetCoordinates")
        | None => false end) documented = true) by (vm_compute; reflexivity).
    rewrite forallb_forall in A. specialize (A d Hd). destruct (find _ mextable) as [x|]; [|discriminate]. exists x.
    apply andb_prop in A as [A3 A4]. apply negb_true_iff in A3, A4. auto. }
  destruct E as (x & E & E1 & E2). rewrite (find_row _ x E E1 E2). rewrite (no_handle _ x E); [reflexivity|].
  unfold first_int. destruct H as [H|H]; rewrite H; [reflexivity|]. destruct (numeric _); reflexivity.
Qed.

(** any number in the place of the handle is taken for one *)
Lemma any_handle : forall d o a e args s, In d documented -> ~ In (d_name d) misplaced -> scalar a e ->
  call (d_name d) o (a :: args) s = call (d_name d) o (MArr F KUInt64 1 1 [EZ F (int_of trunc e)] :: args) s.
Proof.
  intros d o a e args s Hd Hm H.
  assert (E : exists x, find (fun x => String.eqb (x_name x) (d_name d)) mextable = Some x /\
     String.eqb (d_name d) "MoorDynM_Create" = false /\ String.eqb (d_name d) "MoorDynM_ExternalWaveKinGetCoordinates" = false /\
     (In (d_name d) misplaced \/ forallb (fun r => match r with RInt k | RDbl k | RObj k | RStr k | RVec k => Nat.ltb 0 k end) (x_reads x) = true)).
  { assert (A : forallb (fun d => match find (fun x => String.eqb (x_name x) (d_name d)) mextable with
        | Some x => negb (String.eqb (d_name d) "MoorDynM_Create") && negb (String.eqb (d_name d) "MoorDynM_ExternalWaveKinGetCoordinates") &&
            (existsb (String.eqb (d_name d)) misplaced || forallb (fun r => match r with RInt k | RDbl k | RObj k | RStr k | RVec k => Nat.ltb 0 k end) (x_reads x))
        | None => false end) documented = true) by (vm_compute; reflexivity).
    rewrite forallb_forall in A. specialize (A d Hd). destruct (find _ mextable) as [x|]; [|discriminate]. exists x.
    apply andb_prop in A as [A A5]. apply andb_prop in A as [A3 A4]. apply negb_true_iff in A3, A4. repeat split; auto.
    apply orb_prop in A5 as [A5|A5]; [left|right; exact A5]. apply existsb_exists in A5 as (y & Hy & Ey). apply String.eqb_eq in Ey. rewrite Ey. exact Hy. }
  destruct E as (x & E & E1 & E2 & [E3|E3]); [contradiction|]. rewrite !(find_row _ x E E1 E2). f_equal. unfold mexrun. cbn [length nth_error].
  rewrite (scalar_int _ _ H). cbn [first_int a_cls numeric a_data].
  assert (R : reads F trunc ofint (a :: args) (x_reads x) = reads F trunc ofint (MArr F KUInt64 1 1 [EZ F (int_of trunc e)] :: args) (x_reads x)).
  { induction (x_reads x) as [|r rs IH]; [reflexivity|]. cbn [forallb] in E3. apply andb_prop in E3 as [E3 E4]. cbn [reads]. rewrite (IH E4).
    assert (Q : read F trunc ofint (a :: args) r = read F trunc ofint (MArr F KUInt64 1 1 [EZ F (int_of trunc e)] :: args) r).
    { destruct r as [k|k|k|k|k]; destruct k; try discriminate; reflexivity. }
    rewrite Q. reflexivity. }
  rewrite R. reflexivity.
Qed.

Lemma create_call : forall t s, let q := lib "MoorDyn_Create" s [IStr F t] in
  call "MoorDynM_Create" 1 [MArr F KChar 1 (length t) (map (EZ F) t)] s =
  Some (if q_obj F S q =? 0 then MErr F S (q_sys F S q) else MVal F S [MArr F KUInt64 1 1 [EZ F (q_obj F S q)]] (q_sys F S q)).
Proof. intros t s q. unfold mcall. cbn [String.eqb Ascii.eqb Bool.eqb]. unfold mexcreate. cbn [a_cls a_data Nat.eqb negb]. rewrite codes_map. reflexivity. Qed.
Lemma create_other : forall o ins s, (o <> 1%nat \/ length ins <> 1%nat \/ forall a, ins = [a] -> a_cls F a <> KChar) -> call "MoorDynM_Create" o ins s = Some (MErr F S s).
Proof.
  intros o ins s H. unfold mcall. cbn [String.eqb Ascii.eqb Bool.eqb]. unfold mexcreate. destruct ins as [|a [|b r]]; try reflexivity.
  destruct (a_cls F a) eqn:Ea; try reflexivity. destruct (Nat.eqb_spec o 1) as [->|Ho]; [|reflexivity]. exfalso.
  destruct H as [H|[H|H]]; [exact (H eq_refl)|exact (H eq_refl)|exact (H a eq_refl Ea)].
Qed.
Lemma coords_call : forall h s n, let q := lib "MoorDyn_ExternalWaveKinGetN" s [IObj F h; IOut F] in
  let r := lib "MoorDyn_ExternalWaveKinGetCoordinates" (q_sys F S q) [IObj F h; IOut F] in
  q_num F S q 1 = Z.of_nat n -> reach "MoorDyn_ExternalWaveKinGetCoordinates" (q_sys F S q) [IObj F h; IOut F] 1 = (3 * n)%nat ->
  let c := call "MoorDynM_ExternalWaveKinGetCoordinates" 1 [MArr F KUInt64 1 1 [EZ F h]] s in
  (q_err F S q <> 0 -> c = Some (MErr F S (q_sys F S q))) /\
  (q_err F S q = 0 -> q_err F S r <> 0 -> c = Some (MErr F S (q_sys F S r))) /\
  (q_err F S q = 0 -> q_err F S r = 0 -> exists a, c = Some (MVal F S [a] (q_sys F S r)) /\ a_cls F a = KDouble /\ a_rows F a = 1%nat /\ a_cols F a = (3 * n)%nat /\
     forall i, (i < 3 * n)%nat -> entry a 0 i = Some (EF F (q_dbl F S r 1 i))).
Proof.
  intros h s n q r Hn Hr c.
  assert (E : c = Some (if negb (q_err F S q =? 0) then MErr F S (q_sys F S q) else if negb (q_err F S r =? 0) then MErr F S (q_sys F S r) else MVal F S [MArr F KDouble 1 (3 * n) (filled F S fzero r (3 * n) (3 * n) 1)] (q_sys F S r))).
  { unfold c, mcall. cbn [String.eqb Ascii.eqb Bool.eqb]. unfold mexcoords. cbn [length Nat.eqb negb nth_error first_int a_cls numeric a_data]. fold q. fold r. rewrite Hn, Hr, Nat2Z.id, Nat.leb_refl. reflexivity. }
  split; [|split].
  - intros H. rewrite E. destruct (Z.eqb_spec (q_err F S q) 0); [contradiction|reflexivity].
  - intros H H'. rewrite E, H. cbn [Z.eqb negb]. destruct (Z.eqb_spec (q_err F S r) 0); [contradiction|reflexivity].
  - intros H H'. rewrite E, H, H'. cbn [Z.eqb negb]. eexists. split; [reflexivity|]. split; [reflexivity|]. split; [reflexivity|]. split; [reflexivity|].
    intros i Hi. apply entry_row. exact Hi.
Qed.

(** a vector too short for the C function *)
Lemma short_vector : forall d h args ins s k x, In d documented -> ~ In (d_name d) misplaced -> fills trunc ofint (d_pars d) args ins ->
  nth_error (d_pars d) k = Some PVec -> nth_error ins k = Some (IArr F x) -> (length x < reach (d_fun d) s (IObj F h :: ins) (Datatypes.S k))%nat ->
  call (d_name d) (n_outs d) (MArr F KUInt64 1 1 [EZ F h] :: args) s = Some (MUB F S).
Proof.
  intros d h args ins s k x Hd Hm Hf Hk Hx Hs.
  assert (A : In (d_name d) ["MoorDynM_ExternalWaveKinSet"; "MoorDynM_Init"; "MoorDynM_Init_NoIC"; "MoorDynM_SetLinePressInt"; "MoorDynM_Step"] \/
     existsb (fun p => match p with PVec => true | _ => false end) (d_pars d) = false).
  { assert (B : forallb (fun d => existsb (String.eqb (d_name d)) ["MoorDynM_ExternalWaveKinSet"; "MoorDynM_Init"; "MoorDynM_Init_NoIC"; "MoorDynM_SetLinePressInt"; "MoorDynM_Step"] ||
       negb (existsb (fun p => match p with PVec => true | _ => false end) (d_pars d))) documented = true) by (vm_compute; reflexivity).
    rewrite forallb_forall in B. specialize (B d Hd). apply orb_prop in B as [B|B]; [left|right; apply negb_true_iff; exact B].
    apply existsb_exists in B as (y & Hy & Ey). apply String.eqb_eq in Ey. rewrite Ey. exact Hy. }
  destruct A as [A|A].
  2: { exfalso. apply nth_error_In in Hk. assert (B : existsb (fun p => match p with PVec => true | _ => false end) (d_pars d) = true) by (apply existsb_exists; exists PVec; auto). congruence. }
  unfold documented in Hd. cbn [In] in Hd.
  repeat match type of Hd with _ \/ _ => destruct Hd as [Hd|Hd]; [|] end; try contradiction; subst d; cbn [d_name d_fun d_pars d_kind d_outs] in *;
  try (exfalso; vm_compute in A; intuition discriminate); clear A Hm.
  all: inv_fills.
  all: (match goal with |- context [call ?n _ _ _] =>
    let t := eval vm_compute in (find (fun x => String.eqb (x_name x) n) mextable) in
    match t with Some ?x => rewrite (find_row n x eq_refl eq_refl eq_refl) end end).
  all: cbn [n_outs d_kind d_outs length]; unfold mexrun; cbn [x_in x_out x_reads x_fun x_args x_check x_outs length Nat.eqb negb nth_error first_int a_cls numeric a_data reads read];
    rewrite ?reals_map; repeat match goal with H : scalar _ _ |- _ => rewrite ?(scalar_int _ _ H), ?(scalar_real _ _ H); clear H end;
    cbn [map hand nth_error within room vec_size];
    (destruct k as [|[|[|[|[|[|k]]]]]]; cbn [nth_error] in Hk, Hx; try discriminate Hk; try (destruct k; discriminate Hk); injection Hx as ->).
  all: apply Nat.leb_gt in Hs; rewrite Hs, ?andb_false_r, ?andb_false_l; reflexivity.
Qed.

(** a matrix comes back turned over *)
Lemma matrix_call : forall d h args ins s, In d documented -> fills trunc ofint (d_pars d) args ins -> forall k n,
  let v := IObj F h :: ins in let q := lib (d_fun d) s v in
  nth_error (d_pars d) k = Some (QMat n) -> reach (d_fun d) s v (Datatypes.S k) = (n * n)%nat -> q_err F S q = 0 ->
  exists a, call (d_name d) (n_outs d) (MArr F KUInt64 1 1 [EZ F h] :: args) s = Some (MVal F S [a] (q_sys F S q)) /\
    a_rows F a = n /\ a_cols F a = n /\ forall i j, (i < n)%nat -> (j < n)%nat -> entry a i j = Some (EF F (q_dbl F S q (Datatypes.S k) (n * j + i))).
Proof.
  intros d h args ins s Hd Hf k n v q Hk Hr Hq. subst v q.
  assert (A : In (d_name d) ["MoorDynM_GetBodyM"; "MoorDynM_GetRodM"; "MoorDynM_GetPointM"; "MoorDynM_GetLineNodeM"] \/
     existsb (fun p => match p with QMat _ => true | _ => false end) (d_pars d) = false).
  { assert (B : forallb (fun d => existsb (String.eqb (d_name d)) ["MoorDynM_GetBodyM"; "MoorDynM_GetRodM"; "MoorDynM_GetPointM"; "MoorDynM_GetLineNodeM"] ||
       negb (existsb (fun p => match p with QMat _ => true | _ => false end) (d_pars d))) documented = true) by (vm_compute; reflexivity).
    rewrite forallb_forall in B. specialize (B d Hd). apply orb_prop in B as [B|B]; [left|right; apply negb_true_iff; exact B].
    apply existsb_exists in B as (y & Hy & Ey). apply String.eqb_eq in Ey. rewrite Ey. exact Hy. }
  destruct A as [A|A].
  2: { exfalso. apply nth_error_In in Hk. assert (B : existsb (fun p => match p with QMat _ => true | _ => false end) (d_pars d) = true) by (apply existsb_exists; exists (QMat n); auto). congruence. }
  unfold documented in Hd. cbn [In] in Hd.
  repeat match type of Hd with _ \/ _ => destruct Hd as [Hd|Hd]; [|] end; try contradiction; subst d; cbn [d_name d_fun d_pars d_kind d_outs] in *;
  cbn [In] in A; try (exfalso; intuition discriminate); clear A.
  all: inv_fills.
  all: (match goal with |- context [call ?n _ _ _] =>
    let t := eval vm_compute in (find (fun x => String.eqb (x_name x) n) mextable) in
    match t with Some ?x => rewrite (find_row n x eq_refl eq_refl eq_refl) end end).
  all: destruct k as [|[|[|k]]]; cbn [nth_error] in Hk; try discriminate Hk; try (destruct k; discriminate Hk); injection Hk as <-.
  all: cbn [n_outs d_kind d_outs length]; unfold mexrun; cbn [x_in x_out x_reads x_fun x_args x_check x_outs length Nat.eqb negb nth_error first_int a_cls numeric a_data reads read];
    repeat match goal with H : scalar _ _ |- _ => rewrite ?(scalar_int _ _ H), ?(scalar_real _ _ H); clear H end;
    cbn [map hand nth_error within room vec_size]; rewrite Hr, Hq; cbn [Nat.mul Nat.add Nat.leb andb Z.eqb negb map output]; rewrite Hr;
    (eexists; split; [reflexivity|]; split; [reflexivity|]; split; [reflexivity|]; intros i j Hi Hj; apply entry_mat; assumption).
Qed.
End Proofs.
