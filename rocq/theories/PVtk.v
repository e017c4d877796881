(** Proofs about the VTK output. *)
From Coq Require Import String Ascii Reals ZArith List Arith Bool Lia Lra.
From Verif Require Import MErr MStr MVec MStateOps MMat MRodS MVtk SVtk PMat PStr PEuler.
Import ListNotations.

Section Vtk.
Context {F G : Type}.
Variable narrow : F -> G.
Variable plus : F -> F -> F.
Notation V := (vec F).
Notation comps := (comps F).

Lemma put_some : forall {A} i (x : A) l, (i < length l)%nat -> exists q, put i x l = Some q /\ length q = length l /\
  nth_error q i = Some x /\ forall j, j <> i -> nth_error q j = nth_error l j.
Proof.
  intros A i x l. revert i. induction l as [|y l IH]; intros i Hi; [cbn in Hi; lia|]. destruct i as [|i].
  - exists (x :: l). cbn. split; [reflexivity|]. split; [reflexivity|]. split; [reflexivity|]. intros j Hj. destruct j; [contradiction|reflexivity].
  - destruct (IH i ltac:(cbn in Hi; lia)) as (q & E & L & N1 & N2). exists (y :: q). cbn. rewrite E. split; [reflexivity|]. split; [cbn; lia|].
    split; [exact N1|]. intros j Hj. destruct j; [reflexivity|]. cbn. apply N2. lia.
Qed.
Lemma put_none : forall {A} i (x : A) l, (length l <= i)%nat -> put i x l = None.
Proof. intros A i x l. revert i. induction l as [|y l IH]; intros i Hi; [destruct i; reflexivity|]. destruct i as [|i]; [cbn in Hi; lia|]. cbn. rewrite IH; [reflexivity|cbn in Hi; lia]. Qed.
Lemma set_tuple_ok : forall (a : varr G) i x, (i < length (va_tuples G a))%nat -> exists q, set_tuple F G narrow a i x = Ok (VArr G (va_name G a) (va_comps G a) q) /\
  length q = length (va_tuples G a) /\ nth_error q i = Some (Some (map narrow x)) /\ forall j, j <> i -> nth_error q j = nth_error (va_tuples G a) j.
Proof. intros a i x H. unfold set_tuple. destruct (put_some i (Some (map narrow x)) (va_tuples G a) H) as (q & E & L & N1 & N2). rewrite E. exists q. auto. Qed.
Lemma at_ok : forall {A} (l : list A) i, (i < length l)%nat -> exists x, nth_error l i = Some x /\ at_ l i = Ok x.
Proof. intros A l i H. unfold at_. destruct (nth_error l i) eqn:E; [eauto|]. apply nth_error_None in E. lia. Qed.

Definition drag (p : V * V) : list F := map (fun p => plus (fst p) (snd p)) (combine (comps (fst p)) (comps (snd p))).

(** the loop over the nodes of a line, from node i on *)
Lemma line_loop : forall L, line_sized F L -> forall k i pts cells aM aD aF,
  (i + k = Datatypes.S (l_N F L))%nat -> length pts = i -> length cells = Nat.min i (l_N F L) ->
  length (va_tuples G aM) = Datatypes.S (l_N F L) -> length (va_tuples G aD) = Datatypes.S (l_N F L) -> length (va_tuples G aF) = Datatypes.S (l_N F L) ->
  (forall j c, (j < i)%nat -> nth_error (l_r F L) j = Some c -> nth_error pts j = Some (map narrow (comps c))) ->
  (forall j, (j < Nat.min i (l_N F L))%nat -> nth_error cells j = Some [j; Datatypes.S j]) ->
  (forall j c, (j < i)%nat -> nth_error (l_M F L) j = Some c -> nth_error (va_tuples G aM) j = Some (Some (map narrow c))) ->
  (forall j c, (j < i)%nat -> nth_error (combine (l_Dq F L) (l_Dp F L)) j = Some c -> nth_error (va_tuples G aD) j = Some (Some (map narrow (drag c)))) ->
  (forall j c, (j < i)%nat -> nth_error (l_Fnet F L) j = Some c -> nth_error (va_tuples G aF) j = Some (Some (map narrow (comps c)))) ->
  exists pts' cells' aM' aD' aF', line_nodes F G narrow plus L k i (pts, cells, aM, aD, aF) = Ok (pts', cells', aM', aD', aF') /\
    length pts' = Datatypes.S (l_N F L) /\ length cells' = l_N F L /\
    (length (va_tuples G aM') = Datatypes.S (l_N F L) /\ va_name G aM' = va_name G aM /\ va_comps G aM' = va_comps G aM) /\
    (length (va_tuples G aD') = Datatypes.S (l_N F L) /\ va_name G aD' = va_name G aD /\ va_comps G aD' = va_comps G aD) /\
    (length (va_tuples G aF') = Datatypes.S (l_N F L) /\ va_name G aF' = va_name G aF /\ va_comps G aF' = va_comps G aF) /\
    (forall j c, nth_error (l_r F L) j = Some c -> nth_error pts' j = Some (map narrow (comps c))) /\
    (forall j, (j < l_N F L)%nat -> nth_error cells' j = Some [j; Datatypes.S j]) /\
    (forall j c, nth_error (l_M F L) j = Some c -> nth_error (va_tuples G aM') j = Some (Some (map narrow c))) /\
    (forall j c, nth_error (combine (l_Dq F L) (l_Dp F L)) j = Some c -> nth_error (va_tuples G aD') j = Some (Some (map narrow (drag c)))) /\
    (forall j c, nth_error (l_Fnet F L) j = Some c -> nth_error (va_tuples G aF') j = Some (Some (map narrow (comps c)))).
Proof.
  intros L (S1 & S2 & S3 & S4 & S5 & S6 & S7 & S8 & S9 & S10 & S11 & S12 & S13 & S14).
  assert (B : forall {A} (l : list A) j c, length l = Datatypes.S (l_N F L) -> nth_error l j = Some c -> (j < Datatypes.S (l_N F L))%nat).
  { intros A l j c Hl Hj. rewrite <- Hl. apply nth_error_Some. congruence. }
  assert (Sc : length (combine (l_Dq F L) (l_Dp F L)) = Datatypes.S (l_N F L)) by (rewrite combine_length, S6, S7; lia).
  induction k as [|k IH]; intros i pts cells aM aD aF Hk Hp Hc HM HD HF P1 P2 P3 P4 P5.
  - exists pts, cells, aM, aD, aF. cbn. replace i with (Datatypes.S (l_N F L)) in * by lia.
    split; [reflexivity|]. split; [lia|]. split; [lia|]. split; [auto|]. split; [auto|]. split; [auto|]. split; [intros j c Hj; apply P1; [exact (B _ _ _ _ S1 Hj)|exact Hj]|].
    split; [intros j Hj; apply P2; lia|]. split; [intros j c Hj; apply P3; [exact (B _ _ _ _ S5 Hj)|exact Hj]|]. split; [intros j c Hj; apply P4; [exact (B _ _ _ _ Sc Hj)|exact Hj]|].
    intros j c Hj; apply P5; [exact (B _ _ _ _ S4 Hj)|exact Hj].
  - cbn [line_nodes].
    destruct (at_ok (l_r F L) i ltac:(lia)) as (r & Er & ->). destruct (at_ok (l_Dq F L) i ltac:(lia)) as (dq & Eq & ->). destruct (at_ok (l_Dp F L) i ltac:(lia)) as (dp & Ep & ->). cbn [obind].
    destruct (set_tuple_ok aD i (map (fun p => plus (fst p) (snd p)) (combine (comps dq) (comps dp))) ltac:(lia)) as (qD & -> & LD & ND1 & ND2). cbn [obind].
    destruct (at_ok (l_M F L) i ltac:(lia)) as (m & Em & ->). cbn [obind].
    destruct (set_tuple_ok aM i m ltac:(lia)) as (qM & -> & LM & NM1 & NM2). cbn [obind].
    destruct (at_ok (l_Fnet F L) i ltac:(lia)) as (f & Ef & ->). cbn [obind].
    destruct (set_tuple_ok aF i (comps f) ltac:(lia)) as (qF & -> & LF & NF1 & NF2). cbn [obind].
    set (cells1 := if Nat.eqb i (length (l_r F L) - 1) then cells else (cells ++ [[i; Datatypes.S i]])%list).
    assert (C : length cells1 = Nat.min (Datatypes.S i) (l_N F L) /\ forall j, (j < Nat.min (Datatypes.S i) (l_N F L))%nat -> nth_error cells1 j = Some [j; Datatypes.S j]).
    { unfold cells1. rewrite S1. destruct (Nat.eqb_spec i (Datatypes.S (l_N F L) - 1)) as [E|E].
      - split; [lia|]. intros j Hj. apply P2. lia.
      - rewrite app_length. cbn [length]. split; [lia|]. intros j Hj. destruct (Nat.eq_dec j i) as [->|Hji].
        + rewrite nth_error_app2 by lia. replace (i - length cells)%nat with O by lia. reflexivity.
        + rewrite nth_error_app1 by lia. apply P2. lia. }
    destruct C as [C1 C2].
    destruct (IH (Datatypes.S i) (pts ++ [map narrow (comps r)])%list cells1 (VArr G (va_name G aM) (va_comps G aM) qM) (VArr G (va_name G aD) (va_comps G aD) qD) (VArr G (va_name G aF) (va_comps G aF) qF))
      as (pts' & cells' & aM' & aD' & aF' & R); cbn [va_tuples va_name va_comps]; try lia.
    + rewrite app_length. cbn. lia.
    + intros j c Hj Ej. destruct (Nat.eq_dec j i) as [->|Hji].
      * rewrite nth_error_app2 by lia. replace (i - length pts)%nat with O by lia. rewrite Er in Ej. injection Ej as <-. reflexivity.
      * rewrite nth_error_app1 by lia. apply P1; [lia|exact Ej].
    + exact C2.
    + intros j c Hj Ej. destruct (Nat.eq_dec j i) as [->|Hji]; [rewrite NM1, Em in *; injection Ej as <-; reflexivity|rewrite NM2 by exact Hji; apply P3; [lia|exact Ej]].
    + intros j c Hj Ej. destruct (Nat.eq_dec j i) as [->|Hji]; [|rewrite ND2 by exact Hji; apply P4; [lia|exact Ej]].
      rewrite ND1. assert (c = (dq, dp)) as ->; [|reflexivity].
      clear - Ej Eq Ep. revert i Ej Eq Ep. generalize (l_Dp F L). induction (l_Dq F L) as [|a l IH]; intros l' i Ej Eq Ep; [destruct i; discriminate|].
      destruct l' as [|b l']; [destruct i; discriminate|]. destruct i as [|i]; cbn in *; [congruence|]. exact (IH _ _ Ej Eq Ep).
    + intros j c Hj Ej. destruct (Nat.eq_dec j i) as [->|Hji]; [rewrite NF1, Ef in *; injection Ej as <-; reflexivity|rewrite NF2 by exact Hji; apply P5; [lia|exact Ej]].
    + cbn [va_tuples va_name va_comps] in R. exists pts', cells', aM', aD', aF'. exact R.
Qed.

Lemma vec_array_ok : forall n (l : list V), l <> [] -> vec_array F G narrow n l = Ok (VArr G n 3 (map (fun v => Some (map narrow (comps v))) l)).
Proof. intros n l H. destruct l; [contradiction|reflexivity]. Qed.
Lemma nonempty_len : forall {A} (l : list A) n, length l = Datatypes.S n -> l <> [].
Proof. intros A l n H E. subst. discriminate. Qed.
Lemma fits_vec : forall n (l : list V), fits (length l) (VArr G n 3 (map (fun v => Some (map narrow (comps v))) l)).
Proof.
  intros n l. split; [cbn; apply map_length|]. cbn. apply Forall_forall. intros t H. apply in_map_iff in H as (v & <- & _). destruct v as [[x y] z]. eexists. split; reflexivity.
Qed.
Lemma fits_num : forall n (l : list F), fits (length l) (num_array F G narrow n l).
Proof. intros n l. split; [cbn; apply map_length|]. cbn. apply Forall_forall. intros t H. apply in_map_iff in H as (v & <- & _). eexists. split; reflexivity. Qed.
Lemma shows_vec : forall (n : string) (l : list V) i x, nth_error l i = Some x -> nth_error (map (fun v => Some (map narrow (comps v))) l) i = Some (Some (map narrow (comps x))).
Proof. intros n l i x H. rewrite nth_error_map, H. reflexivity. Qed.
Lemma shows_num : forall (l : list F) i x, nth_error l i = Some x -> nth_error (map (fun x => Some [narrow x]) l) i = Some (Some (map narrow [x])).
Proof. intros l i x H. rewrite nth_error_map, H. reflexivity. Qed.
(** tuples that show values all over *)
Lemma fits_all : forall {A} (a : varr G) (xs : list A) (parts : A -> list F) c, length (va_tuples G a) = length xs -> va_comps G a = c ->
  (forall i x, nth_error xs i = Some x -> nth_error (va_tuples G a) i = Some (Some (map narrow (parts x)))) -> Forall (fun x => length (parts x) = c) xs -> fits (length xs) a.
Proof.
  intros A a xs parts c Hl Hc H Hp. split; [exact Hl|]. apply Forall_forall. intros t Ht. apply In_nth_error in Ht as (i & Hi).
  destruct (nth_error xs i) as [x|] eqn:E. 2:{ apply nth_error_None in E. assert (i < length (va_tuples G a))%nat by (apply nth_error_Some; congruence). lia. }
  rewrite (H i x E) in Hi. injection Hi as <-. eexists. split; [reflexivity|]. rewrite map_length, Hc. rewrite Forall_forall in Hp. apply Hp. eapply nth_error_In, E.
Qed.
Lemma drag_len : forall p, length (drag p) = 3%nat.
Proof. intros [[[a b] c] [[d e] f]]. reflexivity. Qed.

Lemma line_shown : forall L, line_sized F L -> l_N F L <> 0%nat -> exists p, line_vtk F G narrow plus L = Ok p /\
  points_at narrow p (l_r F L) /\ py_verts G p = [] /\ length (py_lines G p) = l_N F L /\
  (forall i, (i < l_N F L)%nat -> nth_error (py_lines G p) i = Some [i; Datatypes.S i]) /\
  field_shows narrow (py_pdata G p) "rd" 3 comps (l_rd F L) /\ field_shows narrow (py_pdata G p) "Kurv" 1 (fun x => [x]) (l_Kurv F L) /\
  field_shows narrow (py_pdata G p) "M" 9 (fun m => m) (l_M F L) /\ field_shows narrow (py_pdata G p) "Fnet" 3 comps (l_Fnet F L) /\
  field_shows narrow (py_pdata G p) "Drag" 3 drag (combine (l_Dq F L) (l_Dp F L)) /\ field_shows narrow (py_pdata G p) "U" 3 comps (l_U F L) /\
  field_shows narrow (py_cdata G p) "lstr" 1 (fun x => [x]) (l_lstr F L) /\ field_shows narrow (py_cdata G p) "ldstr" 1 (fun x => [x]) (l_ldstr F L) /\
  field_shows narrow (py_cdata G p) "V" 1 (fun x => [x]) (l_V F L) /\ field_shows narrow (py_cdata G p) "T" 3 comps (l_T F L) /\
  field_shows narrow (py_cdata G p) "F" 1 (fun x => [x]) (l_F F L) /\
  Forall (fits (Datatypes.S (l_N F L))) (py_pdata G p) /\ Forall (fun a => va_name G a <> "F"%string -> fits (l_N F L) a) (py_cdata G p).
Proof.
  intros L HL HN. destruct (HL) as (S1 & S2 & S3 & S4 & S5 & S6 & S7 & S8 & S9 & S10 & S11 & S12 & S13 & S14).
  assert (Sc : length (combine (l_Dq F L) (l_Dp F L)) = Datatypes.S (l_N F L)) by (rewrite combine_length, S6, S7; lia).
  unfold line_vtk. rewrite (vec_array_ok "rd" _ (nonempty_len _ _ S2)), (vec_array_ok "Fnet" _ (nonempty_len _ _ S4)), (vec_array_ok "U" _ (nonempty_len _ _ S13)), (vec_array_ok "T" (l_T F L)) by (intro E; rewrite E in S11; cbn in S11; lia).
  cbn [obind].
  destruct (line_loop L HL (Datatypes.S (l_N F L)) 0 [] [] (farray G "M" 9 (Datatypes.S (l_N F L))) (farray G "Drag" 3 (Datatypes.S (l_N F L))) (VArr G "Fnet" 3 (map (fun v => Some (map narrow (comps v))) (l_Fnet F L))))
    as (pts & cells & aM & aD & aF & E & Lp & Lc & (LM & NM & CM) & (LD & ND & CD) & (LF & NF & CF) & Q1 & Q2 & Q3 & Q4 & Q5); try (cbn; rewrite ?repeat_length, ?map_length; lia); try (intros; lia).
  rewrite E. cbn [obind]. eexists. split; [reflexivity|]. cbn [py_points py_verts py_lines py_pdata py_cdata].
  destruct aM as [nM cM tM], aD as [nD cD tD], aF as [nF cF tF]. cbn [va_name va_comps va_tuples farray] in *. subst nM cM nD cD nF cF.
  split; [split; [cbn; lia|intros i x y z H; exact (Q1 i _ H)]|]. split; [reflexivity|]. split; [exact Lc|]. split; [exact Q2|].
  split; [eexists; split; [reflexivity|]; split; [reflexivity|]; split; [apply map_length|apply (shows_vec "rd")]|].
  split; [eexists; split; [reflexivity|]; split; [reflexivity|]; split; [apply map_length|exact (shows_num _)]|].
  split; [eexists; split; [reflexivity|]; split; [reflexivity|]; split; [cbn; lia|exact Q3]|].
  split; [eexists; split; [reflexivity|]; split; [reflexivity|]; split; [cbn; lia|exact Q5]|].
  split; [eexists; split; [reflexivity|]; split; [reflexivity|]; split; [cbn; lia|exact Q4]|].
  split; [eexists; split; [reflexivity|]; split; [reflexivity|]; split; [apply map_length|apply (shows_vec "U")]|].
  split; [eexists; split; [reflexivity|]; split; [reflexivity|]; split; [apply map_length|exact (shows_num _)]|].
  split; [eexists; split; [reflexivity|]; split; [reflexivity|]; split; [apply map_length|exact (shows_num _)]|].
  split; [eexists; split; [reflexivity|]; split; [reflexivity|]; split; [apply map_length|exact (shows_num _)]|].
  split; [eexists; split; [reflexivity|]; split; [reflexivity|]; split; [apply map_length|apply (shows_vec "T")]|].
  split; [eexists; split; [reflexivity|]; split; [reflexivity|]; split; [apply map_length|exact (shows_num _)]|].
  split.
  - apply Forall_cons; [rewrite <- S2; apply fits_vec|]. apply Forall_cons; [rewrite <- S3; apply fits_num|].
    apply Forall_cons; [rewrite <- S5; apply (fits_all _ (l_M F L) (fun m => m) 9); [cbn; lia|reflexivity|exact Q3|exact S14]|].
    apply Forall_cons; [rewrite <- S4; apply (fits_all _ (l_Fnet F L) comps 3); [cbn; lia|reflexivity|exact Q5|apply Forall_forall; intros [[? ?] ?] _; reflexivity]|].
    apply Forall_cons; [rewrite <- Sc; apply (fits_all _ (combine (l_Dq F L) (l_Dp F L)) drag 3); [cbn; lia|reflexivity|exact Q4|apply Forall_forall; intros c _; apply drag_len]|].
    apply Forall_cons; [rewrite <- S13; apply fits_vec|]. apply Forall_nil.
  - apply Forall_cons; [intros _; rewrite <- S8; apply fits_num|]. apply Forall_cons; [intros _; rewrite <- S9; apply fits_num|]. apply Forall_cons; [intros _; rewrite <- S10; apply fits_num|].
    apply Forall_cons; [intros _; rewrite <- S11; apply fits_vec|]. apply Forall_cons; [intros H; cbn in H; contradiction|]. apply Forall_nil.
Qed.
Lemma line_bad : forall L p, line_sized F L -> line_vtk F G narrow plus L = Ok p -> ~ well_formed p.
Proof.
  intros L p HL E (_ & _ & W). assert (HN : l_N F L <> 0%nat).
  { intro H. destruct HL as (_ & _ & _ & _ & _ & _ & _ & _ & _ & _ & S11 & _). unfold line_vtk in E. rewrite H in S11. destruct (l_T F L); [|discriminate].
    destruct (vec_array _ _ _ "rd" _); try discriminate. cbn in E. destruct (vec_array _ _ _ "Fnet" _); try discriminate. cbn in E. destruct (vec_array _ _ _ "U" _); discriminate. }
  destruct (line_shown L HL HN) as (p' & E' & _ & Hv & Hc & _ & _ & _ & _ & _ & _ & _ & _ & _ & _ & _ & (a & Ha & _ & La & _) & _). rewrite E in E'. injection E' as <-.
  rewrite Forall_forall in W. unfold field in Ha. apply find_some in Ha as [Ha _]. destruct (W a Ha) as [W1 _].
  destruct HL as (_ & _ & _ & _ & _ & _ & _ & _ & _ & _ & _ & S12 & _). rewrite Hv, Hc in W1. cbn in W1. lia.
Qed.
Lemma line_empty : forall L, line_sized F L -> l_N F L = 0%nat -> line_vtk F G narrow plus L = UB.
Proof.
  intros L (S1 & S2 & S3 & S4 & S5 & S6 & S7 & S8 & S9 & S10 & S11 & S12 & S13 & S14) H. unfold line_vtk.
  rewrite (vec_array_ok "rd" _ (nonempty_len _ _ S2)), (vec_array_ok "Fnet" _ (nonempty_len _ _ S4)), (vec_array_ok "U" _ (nonempty_len _ _ S13)). cbn [obind].
  rewrite H in S11. destruct (l_T F L); [reflexivity|discriminate].
Qed.

(** rods *)
Lemma rod_loop : forall R n, length (r_r F R) = n -> length (r_rd F R) = n -> length (r_Fnet F R) = n -> forall k i pts ard aF,
  (i + k = n)%nat -> length pts = i -> length (va_tuples G ard) = n -> length (va_tuples G aF) = n ->
  (forall j c, (j < i)%nat -> nth_error (r_r F R) j = Some c -> nth_error pts j = Some (map narrow (comps c))) ->
  (forall j c, (j < i)%nat -> nth_error (r_rd F R) j = Some c -> nth_error (va_tuples G ard) j = Some (Some (map narrow (comps c)))) ->
  (forall j c, (j < i)%nat -> nth_error (r_Fnet F R) j = Some c -> nth_error (va_tuples G aF) j = Some (Some (map narrow (comps c)))) ->
  exists pts' ard' aF', rod_nodes F G narrow R k i (pts, ard, aF) = Ok (pts', ard', aF') /\ length pts' = n /\
    (length (va_tuples G ard') = n /\ va_name G ard' = va_name G ard /\ va_comps G ard' = va_comps G ard) /\
    (length (va_tuples G aF') = n /\ va_name G aF' = va_name G aF /\ va_comps G aF' = va_comps G aF) /\
    (forall j c, nth_error (r_r F R) j = Some c -> nth_error pts' j = Some (map narrow (comps c))) /\
    (forall j c, nth_error (r_rd F R) j = Some c -> nth_error (va_tuples G ard') j = Some (Some (map narrow (comps c)))) /\
    (forall j c, nth_error (r_Fnet F R) j = Some c -> nth_error (va_tuples G aF') j = Some (Some (map narrow (comps c)))).
Proof.
  intros R n S1 S2 S3.
  assert (B : forall {A} (l : list A) j c, length l = n -> nth_error l j = Some c -> (j < n)%nat).
  { intros A l j c Hl Hj. rewrite <- Hl. apply nth_error_Some. congruence. }
  induction k as [|k IH]; intros i pts ard aF Hk Hp HD HF P1 P2 P3.
  - exists pts, ard, aF. cbn. replace i with n in * by lia. split; [reflexivity|]. split; [exact Hp|]. split; [auto|]. split; [auto|].
    split; [intros j c Hj; apply P1; [exact (B _ _ _ _ S1 Hj)|exact Hj]|]. split; [intros j c Hj; apply P2; [exact (B _ _ _ _ S2 Hj)|exact Hj]|]. intros j c Hj; apply P3; [exact (B _ _ _ _ S3 Hj)|exact Hj].
  - cbn [rod_nodes].
    destruct (at_ok (r_r F R) i ltac:(lia)) as (r & Er & ->). destruct (at_ok (r_rd F R) i ltac:(lia)) as (v & Ev & ->). cbn [obind].
    destruct (set_tuple_ok ard i (comps v) ltac:(lia)) as (qD & -> & LD & ND1 & ND2). cbn [obind].
    destruct (at_ok (r_Fnet F R) i ltac:(lia)) as (f & Ef & ->). cbn [obind].
    destruct (set_tuple_ok aF i (comps f) ltac:(lia)) as (qF & -> & LF & NF1 & NF2). cbn [obind].
    destruct (IH (Datatypes.S i) (pts ++ [map narrow (comps r)])%list (VArr G (va_name G ard) (va_comps G ard) qD) (VArr G (va_name G aF) (va_comps G aF) qF))
      as (pts' & aD' & aF' & R'); cbn [va_tuples va_name va_comps]; try lia.
    + rewrite app_length. cbn. lia.
    + intros j c Hj Ej. destruct (Nat.eq_dec j i) as [->|Hji].
      * rewrite nth_error_app2 by lia. replace (i - length pts)%nat with O by lia. rewrite Er in Ej. injection Ej as <-. reflexivity.
      * rewrite nth_error_app1 by lia. apply P1; [lia|exact Ej].
    + intros j c Hj Ej. destruct (Nat.eq_dec j i) as [->|Hji]; [rewrite ND1, Ev in *; injection Ej as <-; reflexivity|rewrite ND2 by exact Hji; apply P2; [lia|exact Ej]].
    + intros j c Hj Ej. destruct (Nat.eq_dec j i) as [->|Hji]; [rewrite NF1, Ef in *; injection Ej as <-; reflexivity|rewrite NF2 by exact Hji; apply P3; [lia|exact Ej]].
    + cbn [va_tuples va_name va_comps] in R'. exists pts', aD', aF'. exact R'.
Qed.
Lemma rod_shown : forall R n, r_N F R = n -> length (r_r F R) = Datatypes.S n -> length (r_rd F R) = Datatypes.S n -> length (r_Fnet F R) = Datatypes.S n ->
  exists p, rod_vtk F G narrow R = Ok p /\ well_formed p /\ points_at narrow p (r_r F R) /\
    (if Nat.eqb n 0 then py_verts G p = [[0%nat]] /\ py_lines G p = [] else py_verts G p = [] /\ py_lines G p = [seq 0 (Datatypes.S n)]) /\
    field_shows narrow (py_pdata G p) "rd" 3 comps (r_rd F R) /\ field_shows narrow (py_pdata G p) "Fnet" 3 comps (r_Fnet F R).
Proof.
  intros R n HN S1 S2 S3.
  destruct (rod_loop R (Datatypes.S n) S1 S2 S3 (Datatypes.S n) 0 [] (farray G "rd" 3 (Datatypes.S n)) (farray G "Fnet" 3 (Datatypes.S n)))
    as (pts & aD & aF & E & Lp & (LD & ND & CD) & (LF & NF & CF) & Q1 & Q2 & Q3); try (cbn; rewrite ?repeat_length; lia); try (intros; lia).
  destruct aD as [nD cD tD], aF as [nF cF tF]. cbn [va_name va_comps va_tuples farray] in *. subst nD cD nF cF.
  assert (C3 : forall l : list V, Forall (fun x => length (comps x) = 3%nat) l) by (intros l; apply Forall_forall; intros [[? ?] ?] _; reflexivity).
  assert (W1 : fits (Datatypes.S n) (VArr G "rd" 3 tD)) by (rewrite <- S2; apply (fits_all _ (r_rd F R) comps 3); [cbn; lia|reflexivity|exact Q2|apply C3]).
  assert (W2 : fits (Datatypes.S n) (VArr G "Fnet" 3 tF)) by (rewrite <- S3; apply (fits_all _ (r_Fnet F R) comps 3); [cbn; lia|reflexivity|exact Q3|apply C3]).
  unfold rod_vtk. rewrite HN, S1. exists (if Nat.eqb n 0 then Poly G pts [[0%nat]] [] [VArr G "rd" 3 tD; VArr G "Fnet" 3 tF] [] else Poly G pts [] [seq 0 (Datatypes.S n)] [VArr G "rd" 3 tD; VArr G "Fnet" 3 tF] []).
  destruct (Nat.eqb_spec n 0) as [H0|H0].
  - subst n. rewrite H0 in *. rewrite E. cbn [obind]. split; [reflexivity|]. split; [|split; [split; [cbn; lia|intros i x y z H; exact (Q1 i _ H)]|split; [auto|split]]].
    + split; [|split]; cbn [py_points py_verts py_lines py_pdata py_cdata]; [repeat constructor; lia| |constructor]. rewrite Lp. repeat (apply Forall_cons || apply Forall_nil); assumption.
    + eexists. split; [reflexivity|]. split; [reflexivity|]. split; [cbn; lia|exact Q2].
    + eexists. split; [reflexivity|]. split; [reflexivity|]. split; [cbn; lia|exact Q3].
  - rewrite E. cbn [obind]. split; [reflexivity|]. split; [|split; [split; [cbn; lia|intros i x y z H; exact (Q1 i _ H)]|split; [auto|split]]].
    + split; [|split]; cbn [py_points py_verts py_lines py_pdata py_cdata]; [| |constructor].
      * apply Forall_cons; [|constructor]. apply Forall_forall. intros i Hi. apply in_seq in Hi. lia.
      * rewrite Lp. repeat (apply Forall_cons || apply Forall_nil); assumption.
    + eexists. split; [reflexivity|]. split; [reflexivity|]. split; [cbn; lia|exact Q2].
    + eexists. split; [reflexivity|]. split; [reflexivity|]. split; [cbn; lia|exact Q3].
Qed.
Lemma point_shown : forall r rd M f, length M = 9%nat -> exists p, point_vtk F G narrow r rd M f = Ok p /\ well_formed p /\ points_at narrow p [r] /\
  py_verts G p = [[0%nat]] /\ py_lines G p = [] /\
  field_shows narrow (py_pdata G p) "rd" 3 comps [rd] /\ field_shows narrow (py_pdata G p) "M" 9 (fun m => m) [M] /\ field_shows narrow (py_pdata G p) "Fnet" 3 comps [f].
Proof.
  intros [[x y] z] rd M f HM. eexists. split; [reflexivity|].
  assert (P : forall {A} (parts : A -> list F) a i v, nth_error [a] i = Some v -> nth_error [Some (map narrow (parts a))] i = Some (Some (map narrow (parts v)))).
  { intros A parts a i v H. destruct i as [|[|i]]; cbn in *; try discriminate. injection H as <-. reflexivity. }
  split; [|split; [split; [reflexivity|]|]].
  - split; [|split]; cbn [py_points py_verts py_lines py_pdata py_cdata length app]; [repeat constructor| |constructor].
    destruct rd as [[? ?] ?], f as [[? ?] ?]. repeat (apply Forall_cons || apply Forall_nil); (split; [reflexivity|]; apply Forall_cons; [|apply Forall_nil]; eexists; split; [reflexivity|]; try reflexivity; cbn; rewrite map_length; exact HM).
  - intros i a b c H. destruct i as [|[|i]]; cbn in *; try discriminate. injection H as -> -> ->. reflexivity.
  - split; [reflexivity|]. split; [reflexivity|]. split; [|split]; (eexists; split; [reflexivity|]; split; [reflexivity|]; split; [reflexivity|]).
    + exact (P _ comps rd). + exact (P _ (fun m => m) M). + exact (P _ comps f).
Qed.
End Vtk.

(** systems *)
Lemma set_block_spec : forall {A} i (x : A) l, nth_error (set_block i x l) i = Some (Some x) /\ length (set_block i x l) = Nat.max (length l) (Datatypes.S i) /\
  (forall j, j <> i -> (j < length l)%nat -> nth_error (set_block i x l) j = nth_error l j).
Proof.
  intros A i x l. unfold set_block. destruct (le_lt_dec (length l) i) as [H|H].
  - rewrite put_none by exact H. rewrite !app_length, repeat_length. cbn [length]. split; [|split; [lia|]].
    + rewrite nth_error_app2 by lia. rewrite nth_error_app2; rewrite repeat_length; [|lia]. rewrite Nat.sub_diag. reflexivity.
    + intros j Hj Hl. apply nth_error_app1. exact Hl.
  - destruct (put_some i (Some x) l H) as (q & -> & Lq & N1 & N2). split; [exact N1|]. split; [lia|]. intros j Hj _. apply N2. exact Hj.
Qed.
Lemma set_blocks_spec : forall {A} (xs : list A) n l, (forall i x, nth_error xs i = Some x -> nth_error (set_blocks n xs l) (n + i) = Some (Some x)) /\
  length (set_blocks n xs l) = Nat.max (length l) (match xs with [] => 0 | _ => n + length xs end) /\
  (forall j, (j < n)%nat -> (j < length l)%nat -> nth_error (set_blocks n xs l) j = nth_error l j).
Proof.
  intros A xs. induction xs as [|x xs IH]; intros n l.
  - cbn. split; [intros i y H; destruct i; discriminate|]. split; [lia|]. auto.
  - cbn [set_blocks]. destruct (set_block_spec n x l) as (B1 & B2 & B3). destruct (IH (Datatypes.S n) (set_block n x l)) as (C1 & C2 & C3). split; [|split].
    + intros i y H. destruct i as [|i]; cbn in H.
      * injection H as <-. rewrite Nat.add_0_r. rewrite C3 by lia. exact B1.
      * replace (n + Datatypes.S i)%nat with (Datatypes.S n + i)%nat by lia. apply C1. exact H.
    + rewrite C2, B2. destruct xs; cbn [length]; lia.
    + intros j Hj Hl. rewrite C3 by lia. apply B3; lia.
Qed.
Lemma nth_some_lt : forall {A} (l : list A) i x, nth_error l i = Some x -> (i < length l)%nat.
Proof. intros. apply nth_error_Some. congruence. Qed.
Lemma system_shown : forall {A} (bodies points rods lines : list A), system_vtk bodies points rods lines = map Some (bodies ++ points ++ rods ++ lines).
Proof.
  intros A bodies points rods lines. unfold system_vtk.
  set (o0 := repeat None (length rods + length points + length lines)). set (o1 := set_blocks 0 bodies o0). set (o2 := set_blocks (length bodies) points o1).
  set (o3 := set_blocks (length bodies + length points) rods o2).
  destruct (set_blocks_spec bodies 0 o0) as (A1 & A2 & A3). fold o1 in A1, A2, A3.
  destruct (set_blocks_spec points (length bodies) o1) as (B1 & B2 & B3). fold o2 in B1, B2, B3.
  destruct (set_blocks_spec rods (length bodies + length points) o2) as (C1 & C2 & C3). fold o3 in C1, C2, C3.
  destruct (set_blocks_spec lines (length bodies + length points + length rods) o3) as (D1 & D2 & D3).
  assert (L0 : length o0 = (length rods + length points + length lines)%nat) by apply repeat_length.
  assert (L1 : (length bodies <= length o1)%nat) by (rewrite A2; destruct bodies; cbn [length]; lia).
  assert (L2 : (length bodies + length points <= length o2)%nat) by (rewrite B2; destruct points; cbn [length] in *; lia).
  assert (L3 : (length bodies + length points + length rods <= length o3)%nat) by (rewrite C2; destruct rods; cbn [length] in *; lia).
  assert (L : length (set_blocks (length bodies + length points + length rods) lines o3) = length (bodies ++ points ++ rods ++ lines)).
  { rewrite !app_length, D2, C2, B2, A2, L0. destruct bodies, points, rods, lines; cbn [length]; lia. }
  apply nth_ext with (d := None) (d' := None); [rewrite map_length; exact L|]. intros i Hi. rewrite L in Hi.
  apply nth_error_nth.
  rewrite !app_length in Hi.
  assert (K : forall (x : A), nth_error (bodies ++ points ++ rods ++ lines) i = Some x -> nth_error (set_blocks (length bodies + length points + length rods) lines o3) i = Some (Some x) ->
     nth_error (set_blocks (length bodies + length points + length rods) lines o3) i = Some (nth i (map Some (bodies ++ points ++ rods ++ lines)) None)).
  { intros x E1 E2. rewrite E2. f_equal. symmetry. apply nth_error_nth. rewrite nth_error_map, E1. reflexivity. }
  destruct (le_lt_dec (length bodies) i) as [H1|H1].
  2: { destruct (nth_error bodies i) as [x|] eqn:E; [|apply nth_error_None in E; lia]. apply (K x); [rewrite nth_error_app1 by lia; exact E|].
       rewrite D3 by lia. rewrite C3 by lia. rewrite B3 by lia. exact (A1 i x E). }
  destruct (le_lt_dec (length bodies + length points) i) as [H2|H2].
  2: { destruct (nth_error points (i - length bodies)) as [x|] eqn:E; [|apply nth_error_None in E; lia]. apply (K x); [rewrite nth_error_app2, nth_error_app1 by lia; exact E|].
       rewrite D3 by lia. rewrite C3 by lia. replace i with (length bodies + (i - length bodies))%nat by lia. exact (B1 _ x E). }
  destruct (le_lt_dec (length bodies + length points + length rods) i) as [H3|H3].
  2: { destruct (nth_error rods (i - length bodies - length points)) as [x|] eqn:E; [|apply nth_error_None in E; lia]. apply (K x); [rewrite nth_error_app2, nth_error_app2, nth_error_app1 by lia; exact E|].
       rewrite D3 by lia. replace i with (length bodies + length points + (i - length bodies - length points))%nat by lia. exact (C1 _ x E). }
  destruct (nth_error lines (i - length bodies - length points - length rods)) as [x|] eqn:E; [|apply nth_error_None in E; lia].
  apply (K x); [rewrite nth_error_app2, nth_error_app2, nth_error_app2 by lia; exact E|].
  replace i with (length bodies + length points + length rods + (i - length bodies - length points - length rods))%nat by lia. exact (D1 _ x E).
Qed.

(** names of files *)
Lemma split_last : forall sep e, e <> [] -> ~ In sep e -> forall stem w, ~ In sep w -> exists l, split_sep (w ++ stem ++ sep :: e) sep = (l ++ [e])%list.
Proof.
  intros sep e He Hs stem. induction stem as [|c stem IH]; intros w Hw.
  - cbn [app]. rewrite split_sep_eq, gl_word_sep by exact Hw. rewrite gl_word by assumption. cbn [filter]. exists (filter nonempty [w]). cbn [filter].
    destruct e; [contradiction|]. cbn. destruct (nonempty w); reflexivity.
  - cbn [app]. destruct (ascii_dec c sep) as [->|Hc].
    + rewrite split_sep_eq, gl_word_sep by exact Hw. destruct (IH [] (fun f => f)) as (l & E). cbn [app] in E. rewrite split_sep_eq in E. cbn [filter]. rewrite E.
      destruct (nonempty w); [exists (w :: l)|exists l]; reflexivity.
    + destruct (IH (w ++ [c])%list) as (l & E). { intro H. apply in_app_iff in H as [H|[H|[]]]; [exact (Hw H)|exact (Hc H)]. }
      rewrite <- app_assoc in E. cbn [app] in E. eauto.
Qed.
Lemma ub_name : forall {A} (reader : format -> str -> vtkerr * A) k m, use_body reader (repeat "."%char k) m = UB.
Proof. intros A reader k m. unfold use_body. rewrite <- (app_nil_r (repeat _ k)), split_sep_leads. reflexivity. Qed.
Lemma str_eqb_iff : forall a b, str_eqb a b = true <-> a = b.
Proof.
  induction a as [|x a IH]; intros [|y b]; cbn; split; intro H; try reflexivity; try discriminate.
  - apply andb_prop in H as [H1 H2]. apply Ascii.eqb_eq in H1. apply IH in H2. congruence.
  - injection H as -> ->. rewrite Ascii.eqb_refl. now apply IH.
Qed.
Lemma use_body_ext : forall {A} (reader : format -> str -> vtkerr * A) stem e m, e <> [] -> ~ In "."%char e ->
  let name := (stem ++ "."%char :: e)%list in
  let answer f := Ok (match reader f name with (NoError, x) => (MOORDYN_SUCCESS, x) | (err, _) => (vtk_error err, m) end) in
  (lower e = ["v"; "t"; "p"]%char -> use_body reader name m = answer FormatXML) /\
  (lower e = ["s"; "t"; "l"]%char -> use_body reader name m = answer FormatSTL) /\
  (lower e <> ["v"; "t"; "p"]%char -> lower e <> ["s"; "t"; "l"]%char -> use_body reader name m = Ok (MOORDYN_INVALID_INPUT_FILE, m)).
Proof.
  intros A reader stem e m He Hs name answer. destruct (split_last "."%char e He Hs stem [] (fun f => f)) as (l & E). cbn [app] in E. fold name in E.
  unfold use_body. rewrite E, rev_app_distr. cbn [rev app]. cbv zeta.
  assert (X : str_eqb (lower e) ["v"; "t"; "p"]%char = true <-> lower e = ["v"; "t"; "p"]%char) by apply str_eqb_iff.
  assert (Y : str_eqb (lower e) ["s"; "t"; "l"]%char = true <-> lower e = ["s"; "t"; "l"]%char) by apply str_eqb_iff.
  split; [|split].
  - intro H. apply X in H. rewrite H. unfold answer. destruct (reader FormatXML name) as [[] x]; reflexivity.
  - intro H. assert (str_eqb (lower e) ["v"; "t"; "p"]%char = false) as -> by (rewrite H; reflexivity). apply Y in H. rewrite H. unfold answer. destruct (reader FormatSTL name) as [[] x]; reflexivity.
  - intros H1 H2. destruct (str_eqb (lower e) ["v"; "t"; "p"]%char); [exfalso; apply H1, X; reflexivity|]. destruct (str_eqb (lower e) ["s"; "t"; "l"]%char); [exfalso; apply H2, Y; reflexivity|]. reflexivity.
Qed.
Lemma save_code : forall e, save_vtk e = Returns (vtk_error e).
Proof. intros []; reflexivity. Qed.
Lemma save_zero : forall e, vtk_error e = MOORDYN_SUCCESS <-> e = NoError.
Proof. intros []; split; intro H; try reflexivity; discriminate. Qed.

(** bodies *)
Open Scope R_scope.
Lemma turn_quat : forall w x y z v, x * x + y * y + z * z <> 0 ->
  let n := sqrt (x * x + y * y + z * z) in let m := if Rlt_dec w 0 then - n else n in
  rotate_wxyz (180 / PI * (2 * atan2 n (Rabs w))) (V3 (x / m) (y / m) (z / m)) v = mmulv (qrot (qnormalized (Q4 w x y z))) v.
Proof.
  intros w x y z [a b c] Hn n m.
  assert (Hnn : 0 < x * x + y * y + z * z) by nra.
  assert (Pn : 0 < n) by (apply sqrt_lt_R0; exact Hnn).
  assert (N2 : n * n = x * x + y * y + z * z) by (apply sqrt_sqrt; lra).
  assert (Hs : 0 < w * w + x * x + y * y + z * z) by nra.
  unfold qnormalized. cbn [qw qx qy qz]. cbv zeta. destruct (Rlt_dec 0 (w * w + x * x + y * y + z * z)) as [_|H]; [|lra].
  set (h := sqrt (w * w + x * x + y * y + z * z)).
  assert (Ph : 0 < h) by (apply sqrt_lt_R0; exact Hs).
  assert (Hy : hypot (Rabs w) n = h).
  { unfold hypot, h. f_equal. rewrite N2. unfold Rabs; destruct (Rcase_abs w); ring. }
  assert (C1 := atan2_cos n (Rabs w)). assert (S1 := atan2_sin n (Rabs w)). rewrite Hy in C1, S1.
  set (th := atan2 n (Rabs w)) in *. set (g := / h).
  assert (S0 : sin th = g * n) by (unfold g; rewrite <- S1; field; lra).
  assert (C0 : cos th = g * Rabs w) by (unfold g; rewrite <- C1; field; lra).
  assert (C2 : cos (2 * th) = 1 - 2 * (g * g * (n * n))) by (rewrite cos_2a_sin, S0; ring).
  assert (S2 : sin (2 * th) = 2 * (g * g * (n * Rabs w))) by (rewrite sin_2a, S0, C0; ring).
  unfold rotate_wxyz. cbv zeta. replace (180 / PI * (2 * th) * PI / 180) with (2 * th) by (field; exact PI_neq0).
  assert (M2 : m * m = n * n) by (unfold m; destruct (Rlt_dec w 0); ring).
  assert (Mn : m <> 0) by (intro E; rewrite E in M2; nra).
  assert (Mw : n * Rabs w = m * w). { unfold m, Rabs. destruct (Rlt_dec w 0), (Rcase_abs w); try lra; ring. }
  assert (L : dot (V3 (x / m) (y / m) (z / m)) (V3 (x / m) (y / m) (z / m)) = 1).
  { unfold dot. cbn [vx vy vz]. replace (x / m * (x / m) + y / m * (y / m) + z / m * (z / m)) with ((x * x + y * y + z * z) / (m * m)) by (field; exact Mn). rewrite M2, N2. field. lra. }
  rewrite L, sqrt_1, Rinv_1, C2, S2, Mw.
  replace (1 - (1 - 2 * (g * g * (n * n)))) with (2 * (g * g * (m * m))) by (rewrite M2; ring).
  rewrite N2. clearbody g m. unfold mmulv, qrot, qscale, vadd, vscale, cross, dot. cbn [qw qx qy qz mr0 mr1 mr2 vx vy vz].
  f_equal; field; exact Mn.
Qed.
Lemma sum3_zero : forall x y z, x * x + y * y + z * z = 0 -> x = 0 /\ y = 0 /\ z = 0.
Proof. intros. repeat split; nra. Qed.
Lemma body_shown : forall r7 vel v, body_vtk r7 v = fst (body_point (qrot (qnormalized (xq_quat r7))) (xq_pos r7) vel v).
Proof.
  intros [pos [w x y z]] vel v. unfold body_vtk, body_point, transformKinematics, angle_axis. cbn [xq_quat xq_pos fst qw qx qy qz]. cbv zeta.
  destruct (Req_EM_T (sqrt (x * x + y * y + z * z)) 0) as [E|E].
  - assert (x * x + y * y + z * z = 0) as H by (apply sqrt_eq_0 in E; nra). apply sum3_zero in H as (-> & -> & ->). f_equal.
    unfold rotate_wxyz. cbv zeta. replace (180 / PI * 0 * PI / 180) with 0 by (field; exact PI_neq0). rewrite cos_0, sin_0.
    assert (D : qrot (qnormalized (Q4 w 0 0 0)) = M3 (V3 1 0 0) (V3 0 1 0) (V3 0 0 1)).
    { unfold qnormalized. cbv zeta. destruct (Rlt_dec _ _); unfold qrot, qscale; cbn [qw qx qy qz]; f_equal; f_equal; ring. }
    rewrite D. destruct v as [a b c]. unfold mmulv, vadd, vscale, cross, dot. cbn [mr0 mr1 mr2 vx vy vz]. f_equal; ring.
  - f_equal. apply (turn_quat w x y z v). intro H. apply E. rewrite H. apply sqrt_0.
Qed.
