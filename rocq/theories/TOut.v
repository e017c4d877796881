(** C98: the output files. *)
From Coq Require Import String Ascii List Arith Bool Reals Lra Lia.
From Verif Require Import MErr MStr MVec MStateOps MOut SOut POut POutb.
Import ListNotations.
Local Open Scope nat_scope.

(** The file of a line, after any number of outputs: it is there exactly if one of the documented flags is given, and it
    is a table: one line of names, one of units if wanted, and then one row for every output, in which the value of
    every column is the one of its name. *)
Theorem C98_line : forall show u lds rds m names us ss, setting show rds m -> Forall (fits lds rds m names) ss ->
  exists f, outputs show u lds rds ss (initialized u lds rds m names us) = (f, Ok tt) /\
  forall k d q0, nth_error lds k = Some d -> let cs := cols line_groups (d_N d) (d_ch d) in
    if own_file (d_ch d)
    then exists t, nth_error (f_lines f) k = Some (Some t) /\ table t = Some (head u cs ++ map (fun s => row_of show cs (s_time s, nth k (s_lines s) q0)) ss)
    else nth_error (f_lines f) k = Some None.
Proof. intros. destruct (outputs_all show u lds rds m names us ss) as (f & E & H1 & _); try assumption. exists f. split; [exact E|exact H1]. Qed.
Print Assumptions C98_line.

(** The same for a rod of any type; in particular the flag that says whether the head is written, which the constructor
    leaves without a value, is never read before it has one. *)
Theorem C98_rod : forall show u lds rds m names us ss, setting show rds m -> Forall (fits lds rds m names) ss ->
  exists f, outputs show u lds rds ss (initialized u lds rds m names us) = (f, Ok tt) /\
  forall k d q0, nth_error rds k = Some d -> let cs := cols rod_groups (d_N d) (d_ch d) in
    if own_file (d_ch d)
    then exists r, nth_error (f_rods f) k = Some (Some r) /\ table (rtext r) = Some (head u cs ++ map (fun s => row_of show cs (s_time s, nth k (s_rods s) q0)) ss)
    else nth_error (f_rods f) k = Some None.
Proof. intros. destruct (outputs_all show u lds rds m names us ss) as (f & E & _ & H1 & _); try assumption. exists f. split; [exact E|exact H1]. Qed.
Print Assumptions C98_rod.

(** The documents give rods the flags of lines. Of these, U, D, t, c, s and d make a file with the times only. *)
Theorem C98_rod_flags_refuted : forall show u lds rds m names us ss, setting show rds m -> Forall (fits lds rds m names) ss ->
  exists f, outputs show u lds rds ss (initialized u lds rds m names us) = (f, Ok tt) /\
  forall k d, nth_error rds k = Some d -> d_ch d <> [] -> (forall c, In c (d_ch d) -> In c (ot "UDtcsd")) ->
  exists r, nth_error (f_rods f) k = Some (Some r) /\ table (rtext r) = Some ([ot "Time"] :: (if u then [[ot "(s)"]] else []) ++ map (fun s => [show (s_time s)]) ss).
Proof.
  intros show u lds rds m names us ss ST SZ. destruct (C98_rod show u lds rds m names us ss ST SZ) as (f & E & H). exists f. split; [exact E|]. intros k d Hd Hn Hc.
  assert (O : own_file (d_ch d) = true).
  { unfold own_file. apply existsb_exists. destruct (d_ch d) as [|c l]; [easy|]. exists c. specialize (Hc c (or_introl eq_refl)). split; [cbn in *; tauto|]. unfold asked. destruct (in_dec ascii_dec c (c :: l)) as [|Hx]; [reflexivity|exfalso; apply Hx; now left]. }
  assert (C : cols rod_groups (d_N d) (d_ch d) = [time_col rsnap]).
  { assert (A : forall c, ~ In c (ot "UDtcsd") -> asked (d_ch d) c = false) by (intros c Hx; unfold asked; destruct (in_dec ascii_dec c (d_ch d)) as [Hi|]; [exfalso; exact (Hx (Hc c Hi))|reflexivity]).
    unfold cols, rod_groups. cbn [flat_map g_flag]. rewrite !A by (cbn; intuition discriminate). reflexivity. }
  destruct ss as [|s0 ss'].
  - specialize (H k d (Rsnap (fun _ => V3 0 0 0) (fun _ => V3 0 0 0) (fun _ => V3 0 0 0))%R Hd). cbv zeta in H. rewrite O, C in H. exact H.
  - specialize (H k d (nth k (s_rods s0) (Rsnap (fun _ => V3 0 0 0) (fun _ => V3 0 0 0) (fun _ => V3 0 0 0))%R) Hd). cbv zeta in H. rewrite O, C in H. exact H.
Qed.
Print Assumptions C98_rod_flags_refuted.

(** Bodies always have a file with a row for every output. Its head is there only for bodies of type FREE and CPLDPIN. *)
Theorem C98_body_partial : forall show u lds rds m names us ss, setting show rds m -> Forall (fits lds rds m names) ss ->
  exists f, outputs show u lds rds ss (initialized u lds rds m names us) = (f, Ok tt) /\
  forall k b q0, nth_error (m_bodies m) k = Some b -> exists t, nth_error (f_bodies f) k = Some t /\
    table t = Some (match fst b with BFree | BCpldPin => head u body_cols | BCoupled | BFixed => [] end ++ map (fun s => row_of show body_cols (s_time s, nth k (s_bodies s) q0)) ss).
Proof. intros. destruct (outputs_all show u lds rds m names us ss) as (f & E & _ & _ & H1 & _); try assumption. exists f. split; [exact E|]. intros k b q0 Hb. destruct (H1 k b q0 Hb) as (t & Ht & T). exists t. split; [exact Ht|]. rewrite T. now destruct (fst b). Qed.
Print Assumptions C98_body_partial.

(** That every file of a body begins with the names of its columns is false. *)
Theorem C98_body_refuted : forall show u names us, (forall x, clean (show x)) -> ~ (forall lds rds m ss f,
  setting show rds m -> Forall (fits lds rds m names) ss -> outputs show u lds rds ss (initialized u lds rds m names us) = (f, Ok tt) ->
  forall k t, nth_error (f_bodies f) k = Some t -> exists rs, table t = Some (map c_name body_cols :: rs)).
Proof.
  intros show u names us HS H. set (m := Moor [] [] [(BCoupled, [])]).
  assert (ST : setting show [] m) by (split; [exact HS|]; split; [intros k Hk; cbn in Hk; lia|reflexivity]).
  destruct (C98_body_partial show u [] [] m names us [] ST (Forall_nil _)) as (f & E & B). destruct (B 0 (BCoupled, []) (V3 0 0 0, V3 0 0 0)%R eq_refl) as (t & Ht & T).
  destruct (H [] [] m [] f ST (Forall_nil _) E 0 t Ht) as (rs & R). rewrite T in R. discriminate.
Qed.
Print Assumptions C98_body_refuted.

(** The main file: the names of the channels, their units if wanted, and a row for every output. *)
Theorem C98_main : forall show u lds rds m names us ss cn cu, setting show rds m -> Forall (fits lds rds m names) ss ->
  Forall2 padded names cn -> Forall2 padded us cu ->
  exists f, outputs show u lds rds ss (initialized u lds rds m names us) = (f, Ok tt) /\
  table (f_main f) = Some ((ot "Time" :: cn) :: (if u then [ot "(s)" :: cu] else []) ++ map (fun s => show (s_time s) :: map show (values (s_vals s))) ss).
Proof. intros. destruct (outputs_all show u lds rds m names us ss) as (f & E & _ & _ & _ & H3); try assumption. exists f. split; [exact E|]. apply rows_table. now apply H3. Qed.
Print Assumptions C98_main.

(** If the value of a channel cannot be had, the error is returned; the row of the main file has the channels before it
    and no end of line, and no other file is written. *)
Theorem C98_torn : forall show u lds rds m names us ss cn cu s xs e rest, setting show rds m -> Forall (fits lds rds m names) ss ->
  Forall2 padded names cn -> Forall2 padded us cu -> s_vals s = map Ok xs ++ Throw e :: rest ->
  exists f l, outputs show u lds rds ss (initialized u lds rds m names us) = (f, Ok tt) /\
  outputs show u lds rds (ss ++ [s]) (initialized u lds rds m names us) = (Files (f_main f ++ l) (f_lines f) (f_rods f) (f_bodies f), Throw e) /\
  words l = show (s_time s) :: map show xs /\ table (f_main f ++ l) = None.
Proof.
  intros show u lds rds m names us ss cn cu s xs e rest ST SZ H1 H2 Hv. destruct (outputs_all show u lds rds m names us ss ST SZ) as (f & E & _ & _ & _ & H3).
  destruct (torn_output show u lds rds s f _ xs e rest (proj1 ST) (H3 cn cu H1 H2) Hv) as (l & A & W & T). exists f, l. split; [exact E|]. split; [|auto].
  rewrite (outputs_app _ _ _ _ _ _ _ _ E). cbn [outputs]. now rewrite A.
Qed.
Print Assumptions C98_torn.

(** Cases: a line, a fixed rod on a coupled body, a free rod and a free body, two channels, two outputs. *)
Definition ex_show (x : R) : str := if Rlt_dec x 0 then ot "-1" else ot "1".
Example C98_ex_show : forall x, clean (ex_show x).
Proof. intro x. unfold ex_show. destruct (Rlt_dec x 0); (split; [discriminate|]); repeat constructor; try discriminate. Qed.
Definition ex_m : moor := Moor [RFixed; RFree] [] [(BCoupled, [0]); (BFree, [])].
Definition ex_lds : list odef := [Odef 2 (ot "pt"); Odef 3 (ot "-")].
Definition ex_rds : list odef := [Odef 1 (ot "v"); Odef 1 (ot "t")].
Definition ex_l : lsnap := (Lsnap (fun i => V3 (INR i) 0 (-1)) (fun _ => 0) (fun _ => V3 0 0 0) (fun _ => V3 0 0 0) (fun _ => V3 0 0 0) (fun _ => V3 0 0 0) (fun _ => V3 0 0 0) (fun _ => V3 0 0 0) (fun _ => V3 3 4 0) (fun _ => V3 0 0 0) (fun _ => 1) (fun _ => 0) (fun _ => 1) (fun _ => V3 0 0 0))%R.
Definition ex_r : rsnap := (Rsnap (fun i => V3 0 0 (- INR i)) (fun _ => V3 (-1) 0 0) (fun _ => V3 0 0 0))%R.
Definition ex_s (t : R) : snap := Snap t [Ok 5%R; Ok (-7)%R] [ex_l; ex_l] [ex_r; ex_r] [(V3 0 0 (-1), V3 0 0 0)%R; (V3 1 1 1, V3 0 0 0)%R].
Definition ex_names : list str := [ot "FairTen1"; ot "AnchTen1"].
Definition ex_units : list str := [ot "(N)   "; ot "(N)   "].
Example C98_ex_setting : setting ex_show ex_rds ex_m.
Proof. split; [exact C98_ex_show|]. split; [|reflexivity]. intros [|[|k]] Hk E; cbn in *; try reflexivity; try discriminate; lia. Qed.
Example C98_ex_fits : Forall (fits ex_lds ex_rds ex_m ex_names) [ex_s 0%R; ex_s (1 / 2)%R].
Proof. repeat constructor; eexists; reflexivity. Qed.
Example C98_ex_names : Forall2 padded ex_names [ot "FairTen1"; ot "AnchTen1"] /\ Forall2 padded ex_units [ot "(N)"; ot "(N)"].
Proof.
  assert (A : forall s, plain s = true -> s <> EmptyString -> padded (ot s) (ot s)) by (intros s H1 H2; exists []; split; [now rewrite app_nil_r|]; split; [now apply plain_clean|reflexivity]).
  assert (B : padded (ot "(N)   ") (ot "(N)")) by (exists (ot "   "); split; [reflexivity|]; split; [now apply plain_clean|reflexivity]).
  split; repeat constructor; try exact B; apply A; (reflexivity || discriminate).
Qed.
Example C98_ex_cols : map c_name (cols line_groups 2 (ot "pt")) =
  map ot ["Time"; "Node0px"; "Node0py"; "Node0pz"; "Node1px"; "Node1py"; "Node1pz"; "Node2px"; "Node2py"; "Node2pz"; "Seg1Te"; "Seg2Te"]%string.
Proof. reflexivity. Qed.
Example C98_ex_row : row_of ex_show (cols rod_groups 1 (ot "v")) (0, ex_r)%R = map ot ["1"; "-1"; "1"; "1"; "-1"; "1"; "1"]%string.
Proof.
  assert (P : ex_show 0 = ot "1") by (unfold ex_show; destruct (Rlt_dec 0 0); [exfalso; lra|reflexivity]).
  assert (N : ex_show (-1) = ot "-1") by (unfold ex_show; destruct (Rlt_dec (-1) 0); [reflexivity|exfalso; lra]).
  change (map ex_show [0; -1; 0; 0; -1; 0; 0]%R = map ot ["1"; "-1"; "1"; "1"; "-1"; "1"; "1"]%string). cbn [map]. now rewrite P, N.
Qed.
