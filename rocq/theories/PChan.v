(** Proofs about the output channels. *)
From Coq Require Import String Ascii List Arith ZArith NArith Bool Reals Lia Lra.
From Verif Require Import MErr MStr MVec MStateOps MBody MDetach MParse MChan SChan PStr PLine.
From Verif Require MTime.
Import ListNotations.
Local Open Scope nat_scope.

Definition code (m : meaning) : nat :=
  match m with
  | Pos AX => 1 | Pos AY => 2 | Pos AZ => 3 | Rot AX => 4 | Rot AY => 5 | Rot AZ => 6 | Vel AX => 7 | Vel AY => 8 | Vel AZ => 9
  | RotVel AX => 10 | RotVel AY => 11 | RotVel AZ => 12 | Acc AX => 13 | Acc AY => 14 | Acc AZ => 15 | RotAcc AX => 16 | RotAcc AY => 17 | RotAcc AZ => 18
  | Tension => 19 | Force AX => 20 | Force AY => 21 | Force AZ => 22 | Moment AX => 23 | Moment AY => 24 | Moment AZ => 25 | Submerged => 26 | TensionA => 27 | TensionB => 28
  end.
Ltac sufs H := cbn [suffixes letter append] in H; repeat (destruct H as [<- |H]); try contradiction H.
Lemma quantity_code m s : In s (suffixes m) -> quantity (tx s) = Some (code m).
Proof. intro H. destruct m as [[]|[]|[]|[]|[]|[]|[]|[]| | | |]; sufs H; reflexivity. Qed.
Lemma suffix_facts m s : In s (suffixes m) -> str_eqb (firstn 2 (tx s)) (tx "NA") = false /\ str_eqb (firstn 2 (tx s)) (tx "NB") = false /\ nonempty (tx s) = true /\
  forallb is_alpha (tx s) = true /\ existsb is_digit (tx s) = false.
Proof. intro H. destruct m as [[]|[]|[]|[]|[]|[]|[]|[]| | | |]; sufs H; repeat split. Qed.
Lemma unit_code m w t n o : chan_unit (Chan w (code m) t n o) = units_of m.
Proof. destruct m as [[]|[]|[]|[]|[]|[]|[]|[]| | | |]; reflexivity. Qed.
Lemma code_ten m : m <> Tension -> (code m =? 19) = false.
Proof. intro H. destruct m as [[]|[]|[]|[]|[]|[]|[]|[]| | | |]; try reflexivity. contradiction. Qed.

Lemma digit_alpha c : is_digit c = true -> is_alpha c = false.
Proof. destruct c as [[] [] [] [] [] [] [] []]; vm_compute; congruence. Qed.
Lemma digit_space c : is_digit c = true -> is_space c = false /\ Ascii.eqb c "-" = false /\ Ascii.eqb c "+" = false.
Proof. destruct c as [[] [] [] [] [] [] [] []]; vm_compute; repeat split; congruence. Qed.
Lemma digits_no_alpha d : forallb is_digit d = true -> existsb is_alpha d = false.
Proof. induction d as [|c d IH]; cbn [forallb existsb]; [reflexivity|]. intro H. apply andb_true_iff in H as [A B]. now rewrite (digit_alpha _ A), (IH B). Qed.
Lemma atoi_written d n : written d n -> atoi d = Z.of_nat n.
Proof.
  intros (N & D & V). destruct d as [|c d]; [contradiction|]. cbn [forallb] in D. apply andb_true_iff in D as [A B]. destruct (digit_space _ A) as (S1 & S2 & S3).
  unfold atoi. cbn [dropwhile]. rewrite S1, S2, S3. exact V.
Qed.
Lemma written_nonempty d n : written d n -> nonempty d = true. Proof. intros (N & _). destruct d; [contradiction|reflexivity]. Qed.
Lemma starts_digit d n r : written d n -> starts is_digit (d ++ r).
Proof. intros (N & D & _). destruct d as [|c d]; [contradiction|]. cbn [forallb] in D. apply andb_true_iff in D as [A _]. right. exists c, (d ++ r). split; [reflexivity|exact A]. Qed.
Lemma starts_tx s r : nonempty (tx s) = true -> forallb is_alpha (tx s) = true -> starts is_alpha (tx s ++ r).
Proof. destruct (tx s) as [|c l]; [discriminate|]. cbn [forallb app]. intros _ H. apply andb_true_iff in H as [A _]. right. exists c, (l ++ r). split; [reflexivity|exact A]. Qed.
Lemma decompose_parts w l1 n1 l2 n2 l3 : decomposition (upper w) l1 n1 l2 n2 l3 ->
  d_let1 (decomposeString w) = l1 /\ d_num1 (decomposeString w) = n1 /\ d_let2 (decomposeString w) = l2 /\ d_num2 (decomposeString w) = n2 /\ d_let3 (decomposeString w) = l3.
Proof. intro X. apply decompose_iff in X. repeat split; congruence. Qed.
Lemma dec_object w k d n s : existsb is_digit (tx k) = false -> written d n -> nonempty (tx s) = true -> forallb is_alpha (tx s) = true -> existsb is_digit (tx s) = false -> upper w = tx k ++ d ++ tx s ->
  d_let1 (decomposeString w) = tx k /\ d_num1 (decomposeString w) = d /\ d_let2 (decomposeString w) = tx s /\ d_num2 (decomposeString w) = [] /\ d_let3 (decomposeString w) = [].
Proof.
  intros Hk Hd N A D E. assert (X : decomposition (upper w) (tx k) d (tx s) [] []).
  { constructor; rewrite ?app_nil_r; auto; try (left; reflexivity).
    - apply digits_no_alpha. apply Hd.
    - eapply starts_digit. exact Hd.
    - rewrite <- (app_nil_r (tx s)). now apply starts_tx. }
  now apply decompose_parts.
Qed.
Lemma dec_node w k d n d' n' s : existsb is_digit (tx k) = false -> written d n -> written d' n' -> nonempty (tx s) = true -> forallb is_alpha (tx s) = true -> upper w = tx k ++ d ++ tx "N" ++ d' ++ tx s ->
  d_let1 (decomposeString w) = tx k /\ d_num1 (decomposeString w) = d /\ d_let2 (decomposeString w) = tx "N" /\ d_num2 (decomposeString w) = d' /\ d_let3 (decomposeString w) = tx s.
Proof.
  intros Hk Hd Hd' N A E. assert (X : decomposition (upper w) (tx k) d (tx "N") d' (tx s)).
  { constructor; auto.
    - apply digits_no_alpha. apply Hd.
    - apply digits_no_alpha. apply Hd'.
    - eapply starts_digit. exact Hd.
    - right. exists "N"%char, (d' ++ tx s). split; reflexivity.
    - eapply starts_digit. exact Hd'.
    - rewrite <- (app_nil_r (tx s)). now apply starts_tx. }
  now apply decompose_parts.
Qed.
Lemma tx_app a b : tx (a ++ b)%string = tx a ++ tx b.
Proof. unfold tx. induction a as [|c a IH]; [reflexivity|]. cbn. now rewrite IH. Qed.

(** from the parts of a name to the channel *)
Lemma read_from_object s w ty node l2 m x : In x (suffixes m) -> is_txt (d_let1 (decomposeString w)) "FAIRTEN" = false -> is_txt (d_let1 (decomposeString w)) "ANCHTEN" = false ->
  chan_object s (decomposeString w) (atoi (d_num1 (decomposeString w))) = Ok (Some (ty, node, l2)) ->
  (if nonempty (d_let3 (decomposeString w)) then d_let3 (decomposeString w) else l2) = tx x -> (ty =? 0) = false -> (ty = 3 -> m <> Tension) ->
  read_chan w s = Ok (Some (Chan w (code m) ty node (atoi (d_num1 (decomposeString w))))).
Proof.
  intros X F A C E T R. unfold read_chan. rewrite F, A, C. cbn [obind]. rewrite E, (quantity_code _ _ X), T.
  destruct (ty =? 3) eqn:T3; [|reflexivity]. apply Nat.eqb_eq in T3. rewrite (code_ten m (R T3)). reflexivity.
Qed.
Definition kinds4 := ["L"; "LINE"; "P"; "POINT"; "R"; "ROD"; "B"; "BODY"]%string.
Lemma kind_facts k : In k kinds4 -> existsb is_digit (tx k) = false /\ is_txt (tx k) "FAIRTEN" = false /\ is_txt (tx k) "ANCHTEN" = false.
Proof. intro K. cbn [kinds4 In] in K. repeat (destruct K as [<- |K]; [repeat split|]). contradiction K. Qed.
Lemma read_line_object s w i m : names w ["L"; "LINE"]%string i m -> read_chan w s = Ok (Some (Chan w (code m) 1 0%Z (Z.of_nat (S i)))).
Proof.
  intros (k & d & x & K & D & X & E). destruct (suffix_facts _ _ X) as (FA & FB & NE & AL & ND). destruct (kind_facts k) as (KD & K1 & K2); [destruct K as [<-|[<-|[]]]; cbn; tauto|].
  destruct (dec_object _ _ _ _ _ KD D NE AL ND E) as (E1 & E2 & E3 & E4 & E5). rewrite <- (atoi_written _ _ D), <- E2.
  apply (read_from_object s w 1 0%Z (tx x) m x X); rewrite ?E1, ?E5; try assumption; try reflexivity; try discriminate.
  unfold chan_object. rewrite E1, E3, E4, E5, FA, FB. destruct K as [<-|[<-|[]]]; reflexivity.
Qed.
Lemma read_line_node s w i n m : names_node w ["L"; "LINE"]%string i n m -> read_chan w s = Ok (Some (Chan w (code m) 1 (Z.of_nat n) (Z.of_nat (S i)))).
Proof.
  intros (k & d & d' & x & K & D & D' & X & E). destruct (suffix_facts _ _ X) as (FA & FB & NE & AL & ND). destruct (kind_facts k) as (KD & K1 & K2); [destruct K as [<-|[<-|[]]]; cbn; tauto|].
  destruct (dec_node _ _ _ _ _ _ _ KD D D' NE AL E) as (E1 & E2 & E3 & E4 & E5). rewrite <- (atoi_written _ _ D), <- E2.
  apply (read_from_object s w 1 (Z.of_nat n) (tx "N") m x X); rewrite ?E1, ?E5, ?NE; try assumption; try reflexivity; try discriminate.
  unfold chan_object. rewrite E1, E3, E4, E5, NE, (atoi_written _ _ D'). destruct K as [<-|[<-|[]]]; reflexivity.
Qed.
Lemma read_line_end s w i e m x : names_end w ["L"; "LINE"]%string i e m -> nth_error (s_lines s) i = Some x -> e = "A"%string \/ e = "B"%string ->
  read_chan w s = Ok (Some (Chan w (code m) 1 (if String.eqb e "A" then 0%Z else li_segs x) (Z.of_nat (S i)))).
Proof.
  intros (k & d & y & K & D & X & E) L Ee. destruct (suffix_facts _ _ X) as (FA & FB & NE & AL & ND). destruct (kind_facts k) as (KD & K1 & K2); [destruct K as [<-|[<-|[]]]; cbn; tauto|].
  assert (G : tx ("N" ++ e)%string ++ tx y = tx ("N" ++ e ++ y)%string) by (rewrite !tx_app, <- app_assoc; reflexivity). rewrite G in E.
  assert (NE' : nonempty (tx ("N" ++ e ++ y)%string) = true) by reflexivity.
  assert (AL' : forallb is_alpha (tx ("N" ++ e ++ y)%string) = true) by (destruct Ee as [-> | ->]; rewrite !tx_app; cbn [tx list_ascii_of_string app forallb]; rewrite AL; reflexivity).
  assert (ND' : existsb is_digit (tx ("N" ++ e ++ y)%string) = false) by (destruct Ee as [-> | ->]; rewrite !tx_app; cbn [tx list_ascii_of_string app existsb]; rewrite ND; reflexivity).
  destruct (dec_object _ _ _ _ _ KD D NE' AL' ND' E) as (E1 & E2 & E3 & E4 & E5). rewrite <- (atoi_written _ _ D), <- E2.
  apply (read_from_object s w 1 _ (tx y) m y X); rewrite ?E1, ?E5; try assumption; try reflexivity; try discriminate.
  assert (LN : line_N s (atoi (d_num1 (decomposeString w))) = Ok (li_segs x)).
  { rewrite E2, (atoi_written _ _ D). unfold line_N. assert (B : (1 <=? Z.of_nat (S i))%Z = true) by (apply Z.leb_le; lia). rewrite B. replace (Z.to_nat (Z.of_nat (S i) - 1)) with i by lia. now rewrite L. }
  unfold chan_object. rewrite LN, E1, E3, E4, E5. destruct Ee as [-> | ->]; destruct K as [<-|[<-|[]]]; reflexivity.
Qed.
Lemma read_point_object s w i m : names w ["P"; "POINT"]%string i m -> read_chan w s = Ok (Some (Chan w (code m) 2 (-1)%Z (Z.of_nat (S i)))).
Proof.
  intros (k & d & x & K & D & X & E). destruct (suffix_facts _ _ X) as (FA & FB & NE & AL & ND). destruct (kind_facts k) as (KD & K1 & K2); [destruct K as [<-|[<-|[]]]; cbn; tauto|].
  destruct (dec_object _ _ _ _ _ KD D NE AL ND E) as (E1 & E2 & E3 & E4 & E5). rewrite <- (atoi_written _ _ D), <- E2.
  apply (read_from_object s w 2 (-1)%Z (tx x) m x X); rewrite ?E1, ?E5; try assumption; try reflexivity; try discriminate.
  unfold chan_object. rewrite E1, E3, E5. destruct K as [<-|[<-|[]]]; reflexivity.
Qed.
Lemma read_body_object s w i m : names w ["B"; "BODY"]%string i m -> read_chan w s = Ok (Some (Chan w (code m) 4 (-1)%Z (Z.of_nat (S i)))).
Proof.
  intros (k & d & x & K & D & X & E). destruct (suffix_facts _ _ X) as (FA & FB & NE & AL & ND). destruct (kind_facts k) as (KD & K1 & K2); [destruct K as [<-|[<-|[]]]; cbn; tauto|].
  destruct (dec_object _ _ _ _ _ KD D NE AL ND E) as (E1 & E2 & E3 & E4 & E5). rewrite <- (atoi_written _ _ D), <- E2.
  apply (read_from_object s w 4 (-1)%Z (tx x) m x X); rewrite ?E1, ?E5; try assumption; try reflexivity; try discriminate.
  unfold chan_object. rewrite E1, E3, E5. destruct K as [<-|[<-|[]]]; reflexivity.
Qed.
Lemma read_rod_object s w i m : names w ["R"; "ROD"]%string i m -> m <> Tension -> read_chan w s = Ok (Some (Chan w (code m) 3 (-1)%Z (Z.of_nat (S i)))).
Proof.
  intros (k & d & x & K & D & X & E) T. destruct (suffix_facts _ _ X) as (FA & FB & NE & AL & ND). destruct (kind_facts k) as (KD & K1 & K2); [destruct K as [<-|[<-|[]]]; cbn; tauto|].
  destruct (dec_object _ _ _ _ _ KD D NE AL ND E) as (E1 & E2 & E3 & E4 & E5). rewrite <- (atoi_written _ _ D), <- E2.
  apply (read_from_object s w 3 (-1)%Z (tx x) m x X); rewrite ?E1, ?E5; try assumption; try reflexivity; try discriminate; [|auto].
  unfold chan_object. rewrite E1, E3, E5, FA, FB. destruct K as [<-|[<-|[]]]; reflexivity.
Qed.
Lemma read_rod_node s w i n m : names_node w ["R"; "ROD"]%string i n m -> m <> Tension -> read_chan w s = Ok (Some (Chan w (code m) 3 (Z.of_nat n) (Z.of_nat (S i)))).
Proof.
  intros (k & d & d' & x & K & D & D' & X & E) T. destruct (suffix_facts _ _ X) as (FA & FB & NE & AL & ND). destruct (kind_facts k) as (KD & K1 & K2); [destruct K as [<-|[<-|[]]]; cbn; tauto|].
  destruct (dec_node _ _ _ _ _ _ _ KD D D' NE AL E) as (E1 & E2 & E3 & E4 & E5). rewrite <- (atoi_written _ _ D), <- E2.
  apply (read_from_object s w 3 (Z.of_nat n) (tx "N") m x X); rewrite ?E1, ?E5, ?NE; try assumption; try reflexivity; try discriminate; [|auto].
  unfold chan_object. rewrite E1, E3, E4, E5, NE, (atoi_written _ _ D'), (written_nonempty _ _ D'). destruct K as [<-|[<-|[]]]; reflexivity.
Qed.

(** values *)
Lemma at_ub_nth {A} (l : list A) i x : nth_error l i = Some x -> at_ub l (Z.of_nat i) = Ok x.
Proof. intro H. unfold at_ub. assert (B : (0 <=? Z.of_nat i)%Z = true) by (apply Z.leb_le; lia). rewrite B, Nat2Z.id, H. reflexivity. Qed.
Lemma at_ub_obj {A} (l : list A) i x : nth_error l i = Some x -> at_ub l (Z.of_nat (S i) - 1) = Ok x.
Proof. intro H. replace (Z.of_nat (S i) - 1)%Z with (Z.of_nat i) by lia. now apply at_ub_nth. Qed.
Lemma at_ub_node l k : k < length l -> at_ub l (Z.of_nat k) = Ok (node_of l k).
Proof. intro H. apply at_ub_nth. unfold node_of. now apply nth_error_nth'. Qed.
Lemma u32_small n : (Z.of_nat n < 2 ^ 31)%Z -> u32 (Z.of_nat n) = Z.of_nat n.
Proof. intro H. unfold u32. apply Z.mod_small. lia. Qed.
Lemma force_node L k : whole_line L -> k <= v_N L -> ch_force L (Z.of_nat k) = Ok (node_of (v_F L) k).
Proof.
  intros (_ & _ & _ & F & _ & _ & B) K. unfold ch_force. rewrite u32_small by lia. assert (X : (Z.of_nat (v_N L) <? Z.of_nat k)%Z = false) by (apply Z.ltb_ge; lia). rewrite X. apply at_ub_node. lia.
Qed.
Lemma ten_node L k : whole_line L -> 0 < k < v_N L -> ch_ten L (Z.of_nat k) = Ok (vscale (1 / 2) (vadd (vadd (node_of (v_T L) (k - 1)) (node_of (v_Td L) (k - 1))) (vadd (node_of (v_T L) k) (node_of (v_Td L) k)))).
Proof.
  intros (_ & _ & _ & _ & T & Td & B) K. unfold ch_ten. rewrite u32_small by lia. assert (X : (Z.of_nat (v_N L) <? Z.of_nat k)%Z = false) by (apply Z.ltb_ge; lia).
  assert (X0 : (Z.of_nat k =? 0)%Z = false) by (apply Z.eqb_neq; lia). assert (X1 : (Z.of_nat k =? Z.of_nat (v_N L))%Z = false) by (apply Z.eqb_neq; lia). rewrite X, X0, X1.
  replace (Z.of_nat k - 1)%Z with (Z.of_nat (k - 1)) by lia. rewrite !at_ub_node by lia. cbn [obind]. f_equal.
  unfold vscale, vadd. cbn. f_equal; lra.
Qed.
Lemma line_reports L w i k m v : whole_line L -> k <= v_N L -> line_value L k m = Some v -> line_output L (Chan w (code m) 1 (Z.of_nat k) i) = Ok v.
Proof.
  intros W K V. pose proof W as (N1 & R1 & R2 & R3 & _ & _ & B). unfold line_output. cbn [ch_q ch_node].
  destruct m as [[]|[]|[]|[]|[]|[]|[]|[]| | | |]; cbn [line_value] in V; try discriminate; injection V as <-; cbn [code]; rewrite ?at_ub_node by lia; rewrite ?(force_node L k W K); try reflexivity.
  - unfold node_tension. assert (X0 : (Z.of_nat k =? 0)%Z = (k =? 0)) by (destruct (Nat.eqb_spec k 0); [apply Z.eqb_eq|apply Z.eqb_neq]; lia).
    assert (X1 : (Z.of_nat k =? Z.of_nat (v_N L))%Z = (k =? v_N L)) by (destruct (Nat.eqb_spec k (v_N L)); [apply Z.eqb_eq|apply Z.eqb_neq]; lia). rewrite X0, X1.
    destruct ((k =? 0) || (k =? v_N L)) eqn:E; [reflexivity|]. apply orb_false_iff in E as [A C]. apply Nat.eqb_neq in A, C. rewrite ten_node by (auto; lia). reflexivity.
  - change 0%Z with (Z.of_nat 0). rewrite force_node by (auto; lia). reflexivity.
  - rewrite force_node by auto. reflexivity.
Qed.
Lemma line_channel s a w i k m v L : nth_error (a_lines a) i = Some L -> whole_line L -> k <= v_N L -> line_value L k m = Some v ->
  read_chan w s = Ok (Some (Chan w (code m) 1 (Z.of_nat k) (Z.of_nat (S i)))) -> reports s a w v (units_of m).
Proof.
  intros N W K V R. eexists. split; [exact R|]. split; [reflexivity|]. split; [|apply unit_code]. unfold get_output. cbn [ch_o ch_obj]. rewrite (at_ub_obj _ _ _ N). cbn [obind]. now apply line_reports.
Qed.
Lemma line_object_reports s a w i m v L : nth_error (a_lines a) i = Some L -> whole_line L -> line_value L 0 m = Some v -> names w ["L"; "LINE"]%string i m -> reports s a w v (units_of m).
Proof. intros N W V H. apply (line_channel s a w i 0 m v L N W); [lia|exact V|]. now apply read_line_object. Qed.
Lemma line_node_reports s a w i k m v L : nth_error (a_lines a) i = Some L -> whole_line L -> k <= v_N L -> line_value L k m = Some v -> names_node w ["L"; "LINE"]%string i k m -> reports s a w v (units_of m).
Proof. intros N W K V H. apply (line_channel s a w i k m v L N W K V). now apply read_line_node. Qed.
Lemma line_end_reports s a w i e m v L x : nth_error (a_lines a) i = Some L -> whole_line L -> nth_error (s_lines s) i = Some x -> li_segs x = Z.of_nat (v_N L) -> (e = "A" \/ e = "B")%string ->
  line_value L (if String.eqb e "A" then 0 else v_N L) m = Some v -> names_end w ["L"; "LINE"]%string i e m -> reports s a w v (units_of m).
Proof.
  intros N W X S E V H. apply (line_channel s a w i (if String.eqb e "A" then 0 else v_N L) m v L N W); [destruct (String.eqb e "A"); lia|exact V|].
  rewrite (read_line_end s w i e m x H X E), S. destruct (String.eqb e "A"); reflexivity.
Qed.
Lemma fairten_reports s a w i L x d : nth_error (a_lines a) i = Some L -> whole_line L -> nth_error (s_lines s) i = Some x -> li_segs x = Z.of_nat (v_N L) -> written d (S i) -> upper w = tx "FAIRTEN" ++ d ->
  reports s a w (norm (node_of (v_F L) (v_N L))) "(N)".
Proof.
  intros N W X S D E. assert (P : decomposition (upper w) (tx "FAIRTEN") d [] [] []).
  { constructor; rewrite ?app_nil_r; auto; try (left; reflexivity); [apply digits_no_alpha, D|]. rewrite <- (app_nil_r d). eapply starts_digit. exact D. }
  destruct (decompose_parts _ _ _ _ _ _ P) as (E1 & E2 & _). eexists. unfold read_chan. rewrite E1, E2, (atoi_written _ _ D). cbn [is_txt]. unfold is_txt. cbn [tx list_ascii_of_string str_eqb Ascii.eqb Bool.eqb andb].
  unfold line_N. assert (B : (1 <=? Z.of_nat (Datatypes.S i))%Z = true) by (apply Z.leb_le; lia). rewrite B. replace (Z.to_nat (Z.of_nat (Datatypes.S i) - 1)) with i by lia. rewrite X. cbn [obind].
  split; [reflexivity|]. split; [reflexivity|]. split; [|reflexivity]. unfold get_output. cbn [ch_o ch_obj]. rewrite (at_ub_obj _ _ _ N). cbn [obind]. unfold line_output. cbn [ch_q ch_node]. rewrite S, Z.eqb_refl, orb_true_r.
  rewrite force_node by auto. reflexivity.
Qed.
Lemma anchten_reports s a w i L d : nth_error (a_lines a) i = Some L -> whole_line L -> written d (S i) -> upper w = tx "ANCHTEN" ++ d -> reports s a w (norm (node_of (v_F L) 0)) "(N)".
Proof.
  intros N W D E. assert (P : decomposition (upper w) (tx "ANCHTEN") d [] [] []).
  { constructor; rewrite ?app_nil_r; auto; try (left; reflexivity); [apply digits_no_alpha, D|]. rewrite <- (app_nil_r d). eapply starts_digit. exact D. }
  destruct (decompose_parts _ _ _ _ _ _ P) as (E1 & E2 & _). eexists. unfold read_chan. rewrite E1, E2, (atoi_written _ _ D). unfold is_txt. cbn [tx list_ascii_of_string str_eqb Ascii.eqb Bool.eqb andb].
  split; [reflexivity|]. split; [reflexivity|]. split; [|reflexivity]. unfold get_output. cbn [ch_o ch_obj]. rewrite (at_ub_obj _ _ _ N). cbn [obind]. unfold line_output. cbn [ch_q ch_node]. cbn [Z.eqb orb].
  change 0%Z with (Z.of_nat 0). rewrite force_node by (auto; lia). reflexivity.
Qed.
Lemma point_reports s a w i m v P : nth_error (a_points a) i = Some P -> point_value P m = Some v -> names w ["P"; "POINT"]%string i m -> reports s a w v (units_of m).
Proof.
  intros N V H. eexists. split; [exact (read_point_object s w i m H)|]. split; [reflexivity|]. split; [|apply unit_code]. unfold get_output. cbn [ch_o ch_obj]. rewrite (at_ub_obj _ _ _ N). unfold omap. cbn [obind]. unfold point_output. cbn [ch_q].
  destruct m as [[]|[]|[]|[]|[]|[]|[]|[]| | | |]; cbn [point_value] in V; try discriminate; injection V as <-; reflexivity.
Qed.
Lemma body_reports s a w i m v B : nth_error (a_bodies a) i = Some B -> body_value B m = Some v -> names w ["B"; "BODY"]%string i m -> reports s a w v (units_of m).
Proof.
  intros N V H. eexists. split; [exact (read_body_object s w i m H)|]. split; [reflexivity|]. split; [|apply unit_code]. unfold get_output. cbn [ch_o ch_obj]. rewrite (at_ub_obj _ _ _ N). unfold omap. cbn [obind]. unfold body_output. cbn [ch_q].
  destruct m as [[]|[]|[]|[]|[]|[]|[]|[]| | | |]; cbn [body_value] in V; try discriminate; injection V as <-; reflexivity.
Qed.
Lemma body_ten s a w i B : nth_error (a_bodies a) i = Some B -> names w ["B"; "BODY"]%string i Tension -> reports s a w (norm (v6hd (z_F6 B))) "(N)".
Proof.
  intros N H. eexists. split; [exact (read_body_object s w i Tension H)|]. split; [reflexivity|]. split; [|reflexivity]. unfold get_output. cbn [ch_o ch_obj]. rewrite (at_ub_obj _ _ _ N). reflexivity.
Qed.
Lemma vof_sum_all l : forall n, length l = S n -> vof_sum l n = Ok (fold_right Rplus 0%R l).
Proof.
  induction l as [|x l IH]; intros n H; [discriminate|]. destruct n as [|n]; cbn [vof_sum].
  - destruct l; [|discriminate]. cbn. f_equal. lra.
  - rewrite (IH n) by (cbn in H; lia). reflexivity.
Qed.
Lemma rod_reports s a w i m v D : nth_error (a_rods a) i = Some D -> whole_rod D -> rod_value D m = Some v -> names w ["R"; "ROD"]%string i m -> reports s a w v (units_of m).
Proof.
  intros N W V H. assert (T : m <> Tension) by (intros ->; discriminate). eexists. split; [exact (read_rod_object s w i m H T)|]. split; [reflexivity|]. split; [|apply unit_code].
  unfold get_output. cbn [ch_o ch_obj]. rewrite (at_ub_obj _ _ _ N). cbn [obind]. unfold rod_output. cbn [ch_q ch_node Z.eqb Pos.eqb]. destruct W as (_ & _ & _ & W & _).
  destruct m as [[]|[]|[]|[]|[]|[]|[]|[]| | | |]; cbn [rod_value] in V; try discriminate; injection V as <-; cbn [code]; try reflexivity.
  rewrite (vof_sum_all _ _ W). reflexivity.
Qed.
Lemma rod_node_reports s a w i k m v D : nth_error (a_rods a) i = Some D -> whole_rod D -> k <= u_N D -> rod_node_value D k m = Some v -> names_node w ["R"; "ROD"]%string i k m -> reports s a w v (units_of m).
Proof.
  intros N W K V H. assert (T : m <> Tension) by (intros ->; discriminate). eexists. split; [exact (read_rod_node s w i k m H T)|]. split; [reflexivity|]. split; [|apply unit_code].
  unfold get_output. cbn [ch_o ch_obj]. rewrite (at_ub_obj _ _ _ N). cbn [obind]. unfold rod_output. cbn [ch_q ch_node]. assert (X : (Z.of_nat k =? -1)%Z = false) by (apply Z.eqb_neq; lia). rewrite X.
  destruct W as (W1 & W2 & W3 & _). destruct m as [[]|[]|[]|[]|[]|[]|[]|[]| | | |]; cbn [rod_node_value] in V; try discriminate; injection V as <-; cbn [code]; rewrite at_ub_node by lia; reflexivity.
Qed.
(** a line that does not exist, and a node that does not exist *)
Lemma missing_object s a w i m : names w ["B"; "BODY"]%string i m -> length (a_bodies a) <= i -> exists c, read_chan w s = Ok (Some c) /\ get_output a c = UB.
Proof.
  intros H L. eexists. split; [exact (read_body_object s w i m H)|]. unfold get_output. cbn [ch_o ch_obj]. unfold at_ub, omap. replace (Z.of_nat (S i) - 1)%Z with (Z.of_nat i) by lia.
  assert (B : (0 <=? Z.of_nat i)%Z = true) by (apply Z.leb_le; lia). rewrite B, Nat2Z.id. apply nth_error_None in L. rewrite L. reflexivity.
Qed.
Lemma missing_node s a w i k L ax : nth_error (a_lines a) i = Some L -> whole_line L -> v_N L < k -> names_node w ["L"; "LINE"]%string i k (Pos ax) -> exists c, read_chan w s = Ok (Some c) /\ get_output a c = UB.
Proof.
  intros N W K H. eexists. split; [exact (read_line_node s w i k (Pos ax) H)|]. unfold get_output. cbn [ch_o ch_obj]. rewrite (at_ub_obj _ _ _ N). cbn [obind]. unfold line_output. cbn [ch_q ch_node].
  assert (X : at_ub (v_r L) (Z.of_nat k) = UB). { unfold at_ub. assert (B : (0 <=? Z.of_nat k)%Z = true) by (apply Z.leb_le; lia). rewrite B, Nat2Z.id. assert (E : nth_error (v_r L) k = None) by (apply nth_error_None; destruct W as (_ & W & _); lia). now rewrite E. }
  destruct ax; cbn [code]; rewrite X; reflexivity.
Qed.
(** the word used for points in the description of the old format *)
Lemma con_word s w d x n m : In x (suffixes m) -> written d n -> upper w = tx "CON" ++ d ++ tx x -> read_chan w s = Ok None.
Proof.
  intros X D E. destruct (suffix_facts _ _ X) as (FA & FB & NE & AL & ND). destruct (dec_object w "CON" d n x eq_refl D NE AL ND E) as (E1 & E2 & E3 & E4 & E5).
  unfold read_chan, chan_object. rewrite E1. reflexivity.
Qed.
