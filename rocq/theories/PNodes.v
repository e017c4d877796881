(** Proofs about the water kinematics at nodes. *)
From Coq Require Import List Arith ZArith Bool Reals Lia.
From Verif Require Import MErr MVec MStateOps MNodes SNodes.
Import ListNotations.
Local Open Scope nat_scope.

Section Gen.
Context {T : Type} (f : v3 -> wkin -> T -> wkin * T * outcome unit) (g : v3 -> wkin -> T -> wkin) (h : v3 -> T -> T) (C : nat -> T -> Prop).
Hypothesis Hf : forall p w x n, C (S n) x -> f p w x = (g p w x, h p x, Ok tt).
Hypothesis HC : forall p x n, C (S n) x -> C n (h p x).
Definition after (ps : list v3) (x : T) : T := fold_left (fun x p => h p x) ps x.
Lemma after_app a b x : after (a ++ b) x = after b (after a x). Proof. apply fold_left_app. Qed.
Lemma all_row_gen ps : forall ws x n, C (length ps + n) x -> length ws = length ps ->
  exists ws', all_row f ps ws x = (ws', after ps x, Ok tt) /\ length ws' = length ps /\ C n (after ps x) /\
    (forall j p w, nth_error ps j = Some p -> nth_error ws j = Some w -> nth_error ws' j = Some (g p w (after (firstn j ps) x))).
Proof.
  induction ps as [|p ps IH]; intros ws x n Hc L; cbn [all_row].
  - exists ws. destruct ws; [|discriminate]. repeat split; auto. intros [|j]; discriminate.
  - destruct ws as [|w ws]; [discriminate|]. injection L as L. cbn [length plus] in Hc. rewrite (Hf _ _ _ _ Hc).
    destruct (IH ws (h p x) n (HC _ _ _ Hc) L) as (ws' & -> & L' & C' & I). exists (g p w x :: ws'). split; [reflexivity|]. split; [cbn; lia|]. split; [exact C'|].
    intros [|j] q v; cbn [nth_error firstn]; [intros H1 H2; injection H1 as <-; injection H2 as <-; reflexivity|apply I].
Qed.
Lemma all_rows_gen ps : forall ws x n, C (length (concat ps) + n) x -> map (@length wkin) ws = map (@length v3) ps ->
  exists ws', all_rows f ps ws x = (ws', after (concat ps) x, Ok tt) /\ map (@length wkin) ws' = map (@length v3) ps /\ C n (after (concat ps) x) /\
    (forall r j p w, get2 ps r j = Some p -> get2 ws r j = Some w ->
      exists row, nth_error ps r = Some row /\ get2 ws' r j = Some (g p w (after (concat (firstn r ps) ++ firstn j row) x))).
Proof.
  induction ps as [|p ps IH]; intros ws x n Hc L; cbn [all_rows].
  - exists ws. destruct ws; [|discriminate]. repeat split; auto. intros [|r] j q w; discriminate.
  - destruct ws as [|w ws]; [discriminate|]. injection L as L0 L. cbn [concat] in *. rewrite app_length, <- Nat.add_assoc in Hc.
    destruct (all_row_gen p w x _ Hc L0) as (w' & -> & L1 & C1 & I1). destruct (IH ws (after p x) n C1 L) as (ws' & -> & L' & C' & I).
    exists (w' :: ws'). rewrite after_app. split; [reflexivity|]. split; [cbn [map]; congruence|]. split; [exact C'|].
    intros [|r] j q v; unfold get2; cbn [nth_error firstn concat app].
    + intros H1 H2. exists p. split; [reflexivity|]. now apply I1.
    + intros H1 H2. destruct (I r j q v H1 H2) as (row & E & G). exists row. split; [exact E|]. unfold get2 in G. rewrite G. rewrite <- app_assoc. now rewrite (after_app p).
Qed.
Definition flat (s : nodes) : list v3 := concat (n_lines s) ++ concat (n_rods s) ++ n_points s ++ n_bodies s.
Definition before (s : nodes) (a : addr) : list v3 :=
  match a with
  | ALine l j => concat (firstn l (n_lines s)) ++ match nth_error (n_lines s) l with Some row => firstn j row | None => [] end
  | ARod r j => concat (n_lines s) ++ concat (firstn r (n_rods s)) ++ match nth_error (n_rods s) r with Some row => firstn j row | None => [] end
  | APoint p => concat (n_lines s) ++ concat (n_rods s) ++ firstn p (n_points s)
  | ABody b => concat (n_lines s) ++ concat (n_rods s) ++ n_points s ++ firstn b (n_bodies s)
  end.
Lemma concat_ones ps : concat (ones ps) = ps. Proof. unfold ones. induction ps as [|p ps IH]; cbn; [reflexivity|now rewrite IH]. Qed.
Lemma firstn_ones ps k : concat (firstn k (ones ps)) = firstn k ps. Proof. unfold ones. revert k. induction ps as [|p ps IH]; intros [|k]; cbn; try reflexivity. now rewrite IH. Qed.
Lemma get2_ones ps r : get2 (ones ps) r 0 = nth_error ps r.
Proof. revert r. induction ps as [|p ps IH]; intros [|r]; try reflexivity. apply IH. Qed.
Lemma len_ones ps : map (@length v3) (ones ps) = map (fun _ => 1) ps. Proof. unfold ones. now rewrite map_map. Qed.
Lemma all_nodes_gen s t x n : C (length (flat s) + n) x -> fits s t ->
  exists t', all_nodes f s t x = (t', after (flat s) x, Ok tt) /\ fits s t' /\
    forall a p w, position s a = Some p -> water t a = Some w -> water t' a = Some (g p w (after (before s a) x)).
Proof.
  unfold flat. rewrite !app_length, <- !Nat.add_assoc. intros Hc (F1 & F2 & F3 & F4). unfold all_nodes.
  destruct (all_rows_gen _ _ _ _ Hc F1) as (l & -> & L1 & C1 & I1). destruct (all_rows_gen _ _ _ _ C1 F2) as (r & -> & L2 & C2 & I2).
  rewrite <- len_ones in F3, F4. rewrite <- (concat_ones (n_points s)) in C2. destruct (all_rows_gen _ _ _ _ C2 F3) as (q & -> & L3 & C3 & I3).
  rewrite <- (concat_ones (n_bodies s)) in C3. destruct (all_rows_gen _ _ _ _ C3 F4) as (b & -> & L4 & C4 & I4).
  exists (Wtab l r q b). split; [rewrite !after_app, !concat_ones; reflexivity|]. split; [unfold fits; cbn; rewrite <- !len_ones; auto|].
  intros [i j|i j|i|i] p w; cbn [position water before t_lines t_rods t_points t_bodies]; intros H1 H2.
  - destruct (I1 _ _ _ _ H1 H2) as (row & E & G). rewrite E. exact G.
  - destruct (I2 _ _ _ _ H1 H2) as (row & E & G). rewrite E, G. now rewrite <- after_app.
  - rewrite <- get2_ones in H1. destruct (I3 _ _ _ _ H1 H2) as (row & E & G). rewrite G. rewrite !after_app, firstn_ones. reflexivity.
  - rewrite <- get2_ones in H1. destruct (I4 _ _ _ _ H1 H2) as (row & E & G). rewrite G. rewrite !after_app, firstn_ones, concat_ones. reflexivity.
Qed.
End Gen.

(** numbering of the nodes *)
Definition index (s : nodes) (a : addr) : nat := length (before s a).
Lemma nth_split_len {A} (l : list A) j p : nth_error l j = Some p -> length (firstn j l) = j /\ j < length l.
Proof. intro H. assert (j < length l) by (apply nth_error_Some; congruence). now rewrite firstn_length_le by lia. Qed.
Lemma concat_firstn_lt {A} (ps : list (list A)) r row : nth_error ps r = Some row ->
  concat ps = concat (firstn r ps) ++ row ++ concat (skipn (S r) ps).
Proof. revert r. induction ps as [|p ps IH]; intros [|r]; cbn [nth_error firstn skipn concat app]; intro H; try discriminate; [injection H as ->; reflexivity|]. rewrite (IH _ H), <- app_assoc. reflexivity. Qed.
Lemma get2_inv {A} (ps : list (list A)) r j p : get2 ps r j = Some p -> exists row, nth_error ps r = Some row /\ nth_error row j = Some p.
Proof. unfold get2. destruct (nth_error ps r) as [row|]; [eauto|discriminate]. Qed.
Definition idx2 {A} (ps : list (list A)) r j := length (concat (firstn r ps)) + j.
Lemma idx2_lt {A} (ps : list (list A)) r j p : get2 ps r j = Some p -> idx2 ps r j < length (concat ps).
Proof. intro H. apply get2_inv in H as (row & E & H). rewrite (concat_firstn_lt _ _ _ E), !app_length. apply nth_split_len in H. unfold idx2. lia. Qed.
Lemma idx2_nth {A} (ps : list (list A)) r j p : get2 ps r j = Some p -> nth_error (concat ps) (idx2 ps r j) = Some p.
Proof.
  intro H. apply get2_inv in H as (row & E & H). rewrite (concat_firstn_lt _ _ _ E). unfold idx2. rewrite nth_error_app2 by lia.
  rewrite Nat.add_comm, Nat.add_sub. rewrite nth_error_app1; [exact H|]. now apply nth_split_len in H.
Qed.
Lemma idx2_surj {A} (ps : list (list A)) : forall i, i < length (concat ps) -> exists r j p, get2 ps r j = Some p /\ idx2 ps r j = i.
Proof.
  induction ps as [|row ps IH]; cbn [concat]; intros i Hi; [cbn in Hi; lia|]. rewrite app_length in Hi. destruct (Nat.lt_ge_cases i (length row)) as [L|L].
  - destruct (nth_error row i) as [p|] eqn:E; [|apply nth_error_None in E; lia]. exists 0, i, p. split; [exact E|reflexivity].
  - destruct (IH (i - length row)) as (r & j & p & G & E); [lia|]. exists (S r), j, p. split; [exact G|]. unfold idx2 in *. cbn [firstn concat]. rewrite app_length. lia.
Qed.
Lemma idx2_inj {A} (ps : list (list A)) r j p r' j' q : get2 ps r j = Some p -> get2 ps r' j' = Some q -> idx2 ps r j = idx2 ps r' j' -> r = r' /\ j = j'.
Proof.
  revert r r'. induction ps as [|row ps IH]; intros r r' H H' E; [destruct r; discriminate|].
  destruct r as [|r], r' as [|r']; unfold get2, idx2 in *; cbn [nth_error firstn concat] in *; rewrite ?app_length in E; cbn [length] in E.
  - split; lia.
  - apply nth_split_len in H. lia.
  - apply nth_split_len in H'. lia.
  - destruct (IH r r' H H') as [-> ->]; [lia|]. now split.
Qed.
Lemma index_line s l j p : position s (ALine l j) = Some p -> index s (ALine l j) = idx2 (n_lines s) l j.
Proof.
  cbn [position]. intro H. apply get2_inv in H as (row & E & H). unfold index. cbn [before]. rewrite E, app_length. apply nth_split_len in H as [H _]. now rewrite H.
Qed.
Lemma index_rod s l j p : position s (ARod l j) = Some p -> index s (ARod l j) = length (concat (n_lines s)) + idx2 (n_rods s) l j.
Proof.
  cbn [position]. intro H. apply get2_inv in H as (row & E & H). unfold index. cbn [before]. rewrite E, !app_length. apply nth_split_len in H as [H _]. now rewrite H.
Qed.
Lemma index_point s l p : position s (APoint l) = Some p -> index s (APoint l) = length (concat (n_lines s)) + length (concat (n_rods s)) + l /\ l < length (n_points s).
Proof. cbn [position]. intro H. unfold index. cbn [before]. rewrite !app_length. apply nth_split_len in H. lia. Qed.
Lemma index_body s l p : position s (ABody l) = Some p -> index s (ABody l) = length (concat (n_lines s)) + length (concat (n_rods s)) + length (n_points s) + l /\ l < length (n_bodies s).
Proof. cbn [position]. intro H. unfold index. cbn [before]. rewrite !app_length. apply nth_split_len in H. lia. Qed.
Lemma index_numbering s : numbering s (length (flat s)) (index s).
Proof.
  unfold flat. rewrite !app_length. split; [|split].
  - intros [l j|l j|l|l] p H.
    + rewrite (index_line _ _ _ _ H). apply idx2_lt in H. lia.
    + rewrite (index_rod _ _ _ _ H). apply idx2_lt in H. lia.
    + apply index_point in H. lia.
    + apply index_body in H. lia.
  - intros [l j|l j|l|l] [l' j'|l' j'|l'|l'] p q H H';
      rewrite ?(index_line _ _ _ _ H), ?(index_rod _ _ _ _ H), ?(index_line _ _ _ _ H'), ?(index_rod _ _ _ _ H');
      try (pose proof (index_point _ _ _ H)); try (pose proof (index_body _ _ _ H)); try (pose proof (index_point _ _ _ H')); try (pose proof (index_body _ _ _ H'));
      try (pose proof (idx2_lt _ _ _ _ H)); try (pose proof (idx2_lt _ _ _ _ H')); intro E; try lia.
    + destruct (idx2_inj _ _ _ _ _ _ _ H H' E) as [-> ->]. reflexivity.
    + destruct (idx2_inj _ _ _ _ _ _ _ H H') as [-> ->]; [lia|reflexivity].
    + f_equal. lia.
    + f_equal. lia.
  - intros i Hi. destruct (Nat.lt_ge_cases i (length (concat (n_lines s)))) as [L1|L1].
    { destruct (idx2_surj _ _ L1) as (r & j & p & G & E). exists (ALine r j), p. split; [exact G|]. now rewrite (index_line _ _ _ _ G). }
    destruct (Nat.lt_ge_cases i (length (concat (n_lines s)) + length (concat (n_rods s)))) as [L2|L2].
    { destruct (idx2_surj (n_rods s) (i - length (concat (n_lines s)))) as (r & j & p & G & E); [lia|]. exists (ARod r j), p. split; [exact G|]. rewrite (index_rod _ _ _ _ G). lia. }
    destruct (Nat.lt_ge_cases i (length (concat (n_lines s)) + length (concat (n_rods s)) + length (n_points s))) as [L3|L3].
    { set (k := i - length (concat (n_lines s)) - length (concat (n_rods s))). destruct (nth_error (n_points s) k) as [p|] eqn:E; [|apply nth_error_None in E; lia].
      exists (APoint k), p. split; [exact E|]. destruct (index_point s k p E). lia. }
    set (k := i - length (concat (n_lines s)) - length (concat (n_rods s)) - length (n_points s)). destruct (nth_error (n_bodies s) k) as [p|] eqn:E; [|apply nth_error_None in E; lia].
    exists (ABody k), p. split; [exact E|]. destruct (index_body s k p E). lia.
Qed.
Lemma index_flat s a p : position s a = Some p -> nth_error (flat s) (index s a) = Some p.
Proof.
  unfold flat. intro H. destruct a as [l j|l j|l|l].
  - rewrite (index_line _ _ _ _ H). rewrite nth_error_app1; [now apply idx2_nth|now apply (idx2_lt _ _ _ p)].
  - rewrite (index_rod _ _ _ _ H). rewrite nth_error_app2 by lia. rewrite Nat.add_comm, Nat.add_sub. rewrite nth_error_app1; [now apply idx2_nth|now apply (idx2_lt _ _ _ p)].
  - pose proof (index_point _ _ _ H) as [-> L]. rewrite nth_error_app2 by lia. rewrite nth_error_app2 by lia. rewrite nth_error_app1 by lia.
    rewrite <- H. cbn [position]. f_equal. lia.
  - pose proof (index_body _ _ _ H) as [-> L]. do 3 rewrite nth_error_app2 by lia. rewrite <- H. cbn [position]. f_equal. lia.
Qed.

(** tables *)
Lemma add_objects_ok ns : forall id t, id = length t -> add_objects id ns t = Ok (t ++ map (repeat wzero) ns).
Proof.
  induction ns as [|n ns IH]; intros id t E; cbn [add_objects map]; [now rewrite app_nil_r|]. unfold add_nodes. rewrite E, Nat.eqb_refl. cbn [obind].
  rewrite IH by (rewrite app_length; cbn; lia). now rewrite <- app_assoc.
Qed.
Lemma lengths_repeat ns : map (@length wkin) (map (repeat wzero) ns) = ns.
Proof. rewrite map_map. rewrite <- (map_id ns) at 2. apply map_ext. intro. apply repeat_length. Qed.
Lemma make_table_fits s : exists t, make_table s = Ok t /\ fits s t.
Proof.
  unfold make_table. rewrite !add_objects_ok by reflexivity. cbn [obind app]. eexists. split; [reflexivity|]. unfold fits. cbn [t_lines t_rods t_points t_bodies]. now rewrite !lengths_repeat.
Qed.
Lemma get2_shape {A B} (xs : list (list A)) (ys : list (list B)) r j a : map (@length A) xs = map (@length B) ys -> get2 ys r j = Some a -> exists b, get2 xs r j = Some b.
Proof.
  intros E H. apply get2_inv in H as (row & E1 & H). unfold get2. apply (f_equal (fun l => nth_error l r)) in E. rewrite !nth_error_map, E1 in E. cbn [option_map] in E.
  destruct (nth_error xs r) as [x|]; [|discriminate]. injection E as E. apply nth_split_len in H. destruct (nth_error x j) eqn:G; [eauto|]. apply nth_error_None in G. lia.
Qed.
Lemma fits_water s t a p : fits s t -> position s a = Some p -> exists w, water t a = Some w.
Proof.
  intros (F1 & F2 & F3 & F4). rewrite <- len_ones in F3, F4. destruct a; cbn [position water]; intro H.
  - now apply (get2_shape _ _ _ _ _ F1 H).
  - now apply (get2_shape _ _ _ _ _ F2 H).
  - rewrite <- get2_ones in H. now apply (get2_shape _ _ _ _ _ F3 H).
  - rewrite <- get2_ones in H. now apply (get2_shape _ _ _ _ _ F4 H).
Qed.
Lemma after_app_points ps : forall acc : list v3, after (fun p acc => acc ++ [p]) ps acc = acc ++ ps.
Proof. unfold after. induction ps as [|p ps IH]; intro acc; cbn [fold_left]; [now rewrite app_nil_r|]. rewrite IH, <- app_assoc. reflexivity. Qed.
Lemma after_count ps : forall i, after (fun _ i => S i) ps i = i + length ps.
Proof. unfold after. induction ps as [|p ps IH]; intro i; cbn [fold_left length]; [lia|]. rewrite IH. lia. Qed.
Lemma node_points_ok s t : fits s t -> node_points s t = Ok (flat s).
Proof.
  intro F. unfold node_points.
  destruct (all_nodes_gen (fun p w (acc : list v3) => (w, acc ++ [p], Ok tt)) (fun _ w _ => w) (fun p acc => acc ++ [p]) (fun _ _ => True)
    (fun _ _ _ _ _ => eq_refl) (fun _ _ _ _ => I) s t [] 0 I F) as (t' & -> & _ & _). now rewrite after_app_points.
Qed.
Lemma set_nodes_ok u ud s t : length u = length ud -> length (flat s) <= length u -> fits s t ->
  exists t' i, all_nodes (set_node u ud) s t 0 = (t', i, Ok tt) /\ fits s t' /\
    forall a p w, position s a = Some p -> water t a = Some w ->
      water t' a = Some (Wk (w_zeta w) (nth (index s a) u vzero) (nth (index s a) ud vzero) (w_pdyn w)).
Proof.
  intros Lu L F. destruct (all_nodes_gen (set_node u ud) (fun _ w i => Wk (w_zeta w) (nth i u vzero) (nth i ud vzero) (w_pdyn w)) (fun _ i => S i) (fun n i => i + n <= length u)) with (s := s) (t := t) (x := 0) (n := 0) as (t' & E & F' & I).
  - intros p w i n H. unfold set_node. destruct (Nat.leb_spec (length u) i); [lia|reflexivity].
  - intros p i n H. lia.
  - lia.
  - exact F.
  - exists t', (after (fun _ i => S i) (flat s) 0). split; [exact E|]. split; [exact F'|]. intros a p w H1 H2. rewrite (I _ _ _ H1 H2), after_count. reflexivity.
Qed.
(** too few entries *)
Lemma all_row_short u ud ps : forall ws i ws' x r, length ws = length ps -> all_row (set_node u ud) ps ws i = (ws', x, r) ->
  (r = Ok tt /\ x = i + length ps /\ (ps = [] \/ x <= length u) \/ r = Throw ExInvalidValue /\ length u < i + length ps) /\ length ws' = length ps.
Proof.
  induction ps as [|p ps IH]; intros ws i ws' x r L; cbn [all_row].
  - intro H. injection H as <- <- <-. split; [left; repeat split; [cbn; lia|now left]|exact L].
  - destruct ws as [|w ws]; [discriminate|]. injection L as L. unfold set_node at 1. destruct (Nat.leb_spec (length u) i).
    + intro H'. injection H' as <- <- <-. split; [right; split; [reflexivity|cbn; lia]|cbn; lia].
    + destruct (all_row (set_node u ud) ps ws (S i)) as [[ws2 x2] r2] eqn:E. intro H'. injection H' as <- <- <-.
      destruct (IH _ _ _ _ _ L E) as [[(-> & -> & B)|(-> & B)] L2]; (split; [|cbn; lia]); [left|right]; cbn [length]; split; try reflexivity; try lia.
      split; [lia|]. right. destruct B as [->|B]; [cbn; lia|lia].
Qed.
Lemma all_rows_short u ud ps : forall ws i ws' x r, map (@length wkin) ws = map (@length v3) ps -> all_rows (set_node u ud) ps ws i = (ws', x, r) ->
  (r = Ok tt /\ x = i + length (concat ps) \/ r = Throw ExInvalidValue /\ length u < i + length (concat ps)) /\ map (@length wkin) ws' = map (@length v3) ps /\ (r = Ok tt -> i <= length u -> x <= length u).
Proof.
  induction ps as [|p ps IH]; intros ws i ws' x r L; cbn [all_rows].
  - intro H. injection H as <- <- <-. cbn [concat length]. rewrite Nat.add_0_r. auto.
  - destruct ws as [|w ws]; [discriminate|]. injection L as L0 L. destruct (all_row (set_node u ud) p w i) as [[w1 x1] r1] eqn:E1.
    destruct (all_row_short _ _ _ _ _ _ _ _ L0 E1) as [[(-> & -> & B)|(-> & B)] L1].
    + destruct (all_rows (set_node u ud) ps ws (i + length p)) as [[ws2 x2] r2] eqn:E2. intro H. injection H as <- <- <-. cbn [concat map]. rewrite app_length.
      destruct (IH _ _ _ _ _ L E2) as [[(-> & ->)|(-> & K)] (L2 & M)].
      * split; [left; split; [reflexivity|lia]|]. split; [congruence|]. intros _ Hi. destruct B as [->|B]; [cbn [length] in *; rewrite Nat.add_0_r in M; specialize (M eq_refl); lia|specialize (M eq_refl); lia].
      * split; [right; split; [reflexivity|lia]|]. split; [congruence|discriminate].
    + intro H. injection H as <- <- <-. cbn [concat map]. rewrite app_length. split; [right; split; [reflexivity|lia]|]. split; [congruence|discriminate].
Qed.
Lemma set_nodes_short u ud s t : length u < length (flat s) -> fits s t -> exists t' i, all_nodes (set_node u ud) s t 0 = (t', i, Throw ExInvalidValue) /\ fits s t'.
Proof.
  unfold flat. rewrite !app_length. intros L (F1 & F2 & F3 & F4). rewrite <- len_ones in F3, F4. unfold all_nodes.
  destruct (all_rows (set_node u ud) (n_lines s) (t_lines t) 0) as [[l x1] r1] eqn:E1. destruct (all_rows_short _ _ _ _ _ _ _ _ F1 E1) as [[(-> & ->)|(-> & K1)] (L1 & M1)].
  2:{ eexists. eexists. split; [reflexivity|]. unfold fits. cbn. rewrite <- !len_ones. auto. }
  specialize (M1 eq_refl ltac:(lia)).
  destruct (all_rows (set_node u ud) (n_rods s) (t_rods t) _) as [[r x2] r2] eqn:E2. destruct (all_rows_short _ _ _ _ _ _ _ _ F2 E2) as [[(-> & ->)|(-> & K2)] (L2 & M2)].
  2:{ eexists. eexists. split; [reflexivity|]. unfold fits. cbn. rewrite <- !len_ones. auto. }
  specialize (M2 eq_refl M1).
  destruct (all_rows (set_node u ud) (ones (n_points s)) (t_points t) _) as [[p x3] r3] eqn:E3. destruct (all_rows_short _ _ _ _ _ _ _ _ F3 E3) as [[(-> & ->)|(-> & K3)] (L3 & M3)].
  2:{ eexists. eexists. split; [reflexivity|]. unfold fits. cbn. rewrite <- !len_ones. auto. }
  specialize (M3 eq_refl M2).
  destruct (all_rows (set_node u ud) (ones (n_bodies s)) (t_bodies t) _) as [[b x4] r4] eqn:E4. destruct (all_rows_short _ _ _ _ _ _ _ _ F4 E4) as [[(-> & ->)|(-> & K4)] (L4 & M4)].
  - specialize (M4 eq_refl M3). exfalso. rewrite !concat_ones in *. lia.
  - eexists. eexists. split; [reflexivity|]. unfold fits. cbn. rewrite <- !len_ones. auto.
Qed.

(** summing *)
Lemma sum_row_ok c tm ps : forall ws ns, length ws = length ps -> length ns = length ps -> exists r, sum_row c tm ps ws ns = Ok r /\ length r = length ps /\
  forall j p w n, nth_error ps j = Some p -> nth_error ws j = Some w -> nth_error ns j = Some n ->
    nth_error r j = Some (Wk (w_zeta n) (vadd (w_u w) (fst (c p tm))) (vadd (w_ud w) (snd (c p tm))) (w_pdyn n)).
Proof.
  induction ps as [|p ps IH]; intros [|w ws] [|n ns] L1 L2; try discriminate.
  - exists []. repeat split. intros [|j]; discriminate.
  - injection L1 as L1. injection L2 as L2. destruct (IH ws ns L1 L2) as (r & E & L & I). unfold sum_row in *. rewrite E. cbn [obind]. eexists. split; [reflexivity|]. split; [cbn; lia|].
    intros [|j] q v m; cbn [nth_error]; [intros H1 H2 H3; injection H1 as <-; injection H2 as <-; injection H3 as <-; reflexivity|apply I].
Qed.
Lemma sum_rows_ok c tm ps : forall ws ns, map (@length wkin) ws = map (@length v3) ps -> map (@length wkin) ns = map (@length v3) ps ->
  exists r, sum_rows c tm ps ws ns = Ok r /\ map (@length wkin) r = map (@length v3) ps /\
  forall i j p w n, get2 ps i j = Some p -> get2 ws i j = Some w -> get2 ns i j = Some n ->
    get2 r i j = Some (Wk (w_zeta n) (vadd (w_u w) (fst (c p tm))) (vadd (w_ud w) (snd (c p tm))) (w_pdyn n)).
Proof.
  induction ps as [|p ps IH]; intros [|w ws] [|n ns] L1 L2; try discriminate.
  - exists []. repeat split. intros [|i] j; discriminate.
  - injection L1 as K1 L1. injection L2 as K2 L2. destruct (IH ws ns L1 L2) as (r & E & L & I). destruct (sum_row_ok c tm p w n K1 K2) as (x & Ex & Lx & Ix).
    unfold sum_rows in *. rewrite Ex. cbn [obind]. rewrite E. cbn [obind]. eexists. split; [reflexivity|]. split; [cbn [map]; congruence|].
    intros [|i] j q v m; unfold get2; cbn [nth_error]; [apply Ix|apply I].
Qed.
Lemma update_external s tm w c : external w = true -> currK w = Some c -> fits s (waveKin w) -> fits s (nodeKin w) ->
  exists w', update_waves s tm w = Ok w' /\ fits s (nodeKin w') /\ waveKin w' = waveKin w /\
    forall a p v n, position s a = Some p -> water (waveKin w) a = Some v -> water (nodeKin w) a = Some n ->
      water (nodeKin w') a = Some (Wk (w_zeta n) (vadd (w_u v) (fst (c p tm))) (vadd (w_ud v) (snd (c p tm))) (w_pdyn n)).
Proof.
  intros He Hc (W1 & W2 & W3 & W4) (N1 & N2 & N3 & N4). rewrite <- len_ones in W3, W4, N3, N4. unfold update_waves. rewrite He, Hc.
  destruct (sum_rows_ok c tm _ _ _ W1 N1) as (l & -> & L1 & I1). cbn [obind]. destruct (sum_rows_ok c tm _ _ _ W2 N2) as (r & -> & L2 & I2). cbn [obind].
  destruct (sum_rows_ok c tm _ _ _ W3 N3) as (q & -> & L3 & I3). cbn [obind]. destruct (sum_rows_ok c tm _ _ _ W4 N4) as (b & -> & L4 & I4). cbn [obind].
  eexists. split; [reflexivity|]. cbn [nodeKin set_nodeKin waveKin]. split; [unfold fits; cbn; rewrite <- !len_ones; auto|]. split; [reflexivity|].
  intros [i j|i j|i|i] p v n; cbn [position water t_lines t_rods t_points t_bodies]; rewrite <- ?get2_ones; auto.
Qed.
Lemma unit_nodes f (g : v3 -> wkin -> wkin) s t : (forall p w (x : unit), f p w x = (g p w, x, Ok tt)) -> fits s t ->
  exists t', all_nodes f s t tt = (t', tt, Ok tt) /\ fits s t' /\ forall a p w, position s a = Some p -> water t a = Some w -> water t' a = Some (g p w).
Proof.
  intros Hf F. destruct (all_nodes_gen f (fun p w _ => g p w) (fun _ x => x) (fun _ _ => True)) with (s := s) (t := t) (x := tt) (n := 0) as (t' & E & F' & I).
  - intros p w x n _. apply Hf.
  - auto.
  - exact I.
  - exact F.
  - exists t'. rewrite E. destruct (after (fun _ x => x) (flat s) tt). auto.
Qed.
