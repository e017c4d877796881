(** Proofs about the texts of the output files. *)
From Coq Require Import String Ascii List Arith Bool Reals DecimalString Lia.
From Verif Require Import MErr MStr MVec MStateOps MOut SOut.
Import ListNotations.
Local Open Scope nat_scope.

(** words *)
Lemma words_from_word w : Forall (fun c => blank c = false /\ c <> "010"%char) w -> forall v b, words_from v (w ++ b) = words_from (v ++ w) b.
Proof.
  induction w as [|c w IH]; intros H v b; [now rewrite app_nil_r|]. inversion H as [|? ? [Hc _] Hw]; subst. cbn. rewrite Hc, IH by exact Hw. now rewrite <- app_assoc.
Qed.
Lemma words_blank c b : blank c = true -> words (c :: b) = words b.
Proof. intro H. unfold words. cbn. now rewrite H. Qed.
Lemma words_cell w c b : clean w -> blank c = true -> words (w ++ c :: b) = w :: words b.
Proof. intros [Hn Hw] Hc. unfold words. rewrite words_from_word by exact Hw. cbn. rewrite Hc. destruct w; [easy|reflexivity]. Qed.
Lemma words_last w : clean w -> words w = [w].
Proof. intros [Hn Hw]. unfold words. rewrite <- (app_nil_r w) at 1. rewrite words_from_word by exact Hw. cbn. destruct w; [easy|reflexivity]. Qed.
Definition row_ok (s : str) (ws : list str) : Prop := (forall b, words (s ++ b) = ws ++ words b) /\ ~ In "010"%char s.
Lemma row_nil : row_ok [] [].
Proof. split; [reflexivity|easy]. Qed.
Lemma row_app s1 w1 s2 w2 : row_ok s1 w1 -> row_ok s2 w2 -> row_ok (s1 ++ s2) (w1 ++ w2).
Proof. intros [H1 N1] [H2 N2]. split; [intro b; now rewrite <- !app_assoc, H1, H2|]. rewrite in_app_iff. tauto. Qed.
Lemma row_cell w seps : clean w -> seps <> [] -> forallb blank seps = true -> row_ok (w ++ seps) [w].
Proof.
  intros Hw Hs Hb. destruct seps as [|c seps]; [easy|]. cbn in Hb. apply andb_true_iff in Hb as [Hc Hb]. split.
  - intro b. rewrite <- app_assoc. cbn [app]. rewrite words_cell by assumption. change ([w] ++ words b) with (w :: words b). f_equal. induction seps as [|a seps IH]; [reflexivity|]. cbn in Hb. apply andb_true_iff in Hb as [Ha Hb]. change ((a :: seps) ++ b) with (a :: seps ++ b). rewrite words_blank by exact Ha. now apply IH.
  - assert (Q : forall x, blank x = true -> x <> "010"%char) by (intros x Hx ->; discriminate). rewrite in_app_iff. intros [H|[H|H]].
    + destruct Hw as [_ Hw]. rewrite Forall_forall in Hw. apply Hw in H. tauto.
    + exact (Q _ Hc H).
    + rewrite forallb_forall in Hb. apply Hb in H. discriminate.
Qed.
Lemma row_concat {A} (f : A -> str) (g : A -> list str) l : (forall a, In a l -> row_ok (f a) (g a)) -> row_ok (concat (map f l)) (flat_map g l).
Proof. induction l as [|a l IH]; intro H; cbn; [apply row_nil|]. apply row_app; [apply H; now left|apply IH; intros; apply H; now right]. Qed.
Lemma row_iff b s ws : row_ok s ws -> row_ok (iff b s) (if b then ws else []).
Proof. destruct b; [trivial|intros _; apply row_nil]. Qed.

(** lines of text *)
Definition rows (s : str) (rs : list (list str)) : Prop := forall rest, table (s ++ rest) = option_map (app rs) (table rest).
Lemma rows_nil : rows [] [].
Proof. intro rest. cbn. now destruct (table rest). Qed.
Lemma rows_app s1 r1 s2 r2 : rows s1 r1 -> rows s2 r2 -> rows (s1 ++ s2) (r1 ++ r2).
Proof. intros H1 H2 rest. rewrite <- app_assoc, H1, H2. destruct (table rest); cbn; [now rewrite app_assoc|reflexivity]. Qed.
Lemma lines_from_line l : ~ In "010"%char l -> forall v b, lines_from v (l ++ "010"%char :: b) = option_map (cons (v ++ l)) (lines_from [] b).
Proof.
  induction l as [|c l IH]; intros H v b; cbn [app lines_from]; [now rewrite app_nil_r|].
  destruct (Ascii.eqb_spec c "010"); [exfalso; apply H; now left|]. rewrite IH by (intro; apply H; now right). now rewrite <- app_assoc.
Qed.
Lemma rows_line s ws : words s = ws -> ~ In "010"%char s -> rows (s ++ [NL]) [ws].
Proof.
  intros HW HN rest. rewrite <- app_assoc. cbn [app]. unfold table, NL. rewrite lines_from_line by exact HN. cbn [app].
  destruct (lines_from [] rest) as [ls|]; cbn; [now rewrite HW|reflexivity].
Qed.
Lemma rows_row s ws : row_ok s ws -> rows (s ++ [NL]) [ws].
Proof. intros [H N]. apply rows_line; [|exact N]. specialize (H []). now rewrite !app_nil_r in H. Qed.
Lemma rows_table s rs : rows s rs -> table s = Some rs.
Proof. intro H. specialize (H []). rewrite app_nil_r in H. rewrite H. cbn. now rewrite app_nil_r. Qed.
Lemma rows_concat {A} (f : A -> str) (g : A -> list str) l : (forall a, In a l -> rows (f a) [g a]) -> rows (concat (map f l)) (map g l).
Proof. induction l as [|a l IH]; intro H; cbn; [apply rows_nil|]. apply (rows_app _ [g a]); [apply H; now left|apply IH; intros; apply H; now right]. Qed.

(** names *)
Lemma clean_app a b : Forall (fun c => blank c = false /\ c <> "010"%char) a -> clean b -> clean (a ++ b).
Proof. intros Ha [Hn Hb]. split; [destruct a; [exact Hn|discriminate]|]. apply Forall_app; split; assumption. Qed.
Lemma ot_app a b : ot (a ++ b) = ot a ++ ot b.
Proof. unfold ot. induction a as [|c a IH]; cbn; [reflexivity|now rewrite IH]. Qed.
Definition plain (s : string) : bool := forallb (fun c => negb (blank c) && negb (Ascii.eqb c "010")) (ot s).
Lemma plain_forall s : plain s = true -> Forall (fun c => blank c = false /\ c <> "010"%char) (ot s).
Proof.
  unfold plain. rewrite forallb_forall, Forall_forall. intros H c Hc. apply H in Hc. apply andb_true_iff in Hc as [H1 H2].
  split; [now apply negb_true_iff in H1|]. intros ->. discriminate.
Qed.
Lemma plain_clean s : plain s = true -> s <> EmptyString -> clean (ot s).
Proof. intros H Hn. split; [destruct s; [easy|discriminate]|now apply plain_forall]. Qed.
Lemma plain_uint d : plain (NilEmpty.string_of_uint d) = true.
Proof. unfold plain, ot. induction d; cbn; auto. Qed.
Lemma plain_dec n : Forall (fun c => blank c = false /\ c <> "010"%char) (dec n).
Proof.
  unfold dec. apply plain_forall. unfold NilZero.string_of_uint. destruct (Nat.to_uint n) eqn:E; [reflexivity|..]; rewrite <- E; apply plain_uint.
Qed.
Lemma name_clean what i n : plain what = true -> plain n = true -> n <> EmptyString -> clean (ot what ++ dec i ++ ot n).
Proof. intros H1 H2 H3. apply clean_app; [now apply plain_forall|]. apply clean_app; [apply plain_dec|now apply plain_clean]. Qed.
Lemma cell_name what i n seps : plain what = true -> plain n = true -> n <> EmptyString -> seps <> [] -> forallb blank seps = true ->
  row_ok (ot what ++ dec i ++ ot n ++ seps) [ot what ++ dec i ++ ot n].
Proof. intros. replace (ot what ++ dec i ++ ot n ++ seps) with ((ot what ++ dec i ++ ot n) ++ seps) by now rewrite <- !app_assoc. apply row_cell; [now apply name_clean|assumption..]. Qed.
Lemma row_cols3 what q i : plain what = true -> plain q = true -> row_ok (cols3 what q i)
  [ot what ++ dec i ++ ot (q ++ "x"); ot what ++ dec i ++ ot (q ++ "y"); ot what ++ dec i ++ ot (q ++ "z")].
Proof.
  intros H1 H2. assert (P : forall c, plain (String c EmptyString) = true -> plain (q ++ String c EmptyString) = true).
  { intros c Hc. unfold plain in *. rewrite ot_app, forallb_app, H2, Hc. reflexivity. }
  assert (NE : forall c, (q ++ String c EmptyString)%string <> EmptyString) by (intro c; destruct q; discriminate).
  unfold cols3. change (ot "x ") with (ot "x" ++ [SP]). change (ot "y ") with (ot "y" ++ [SP]). change (ot "z ") with (ot "z" ++ [SP]).
  replace (ot what ++ dec i ++ ot q ++ (ot "x" ++ [SP]) ++ [TAB; SP] ++ ot what ++ dec i ++ ot q ++ (ot "y" ++ [SP]) ++ [TAB; SP] ++ ot what ++ dec i ++ ot q ++ (ot "z" ++ [SP]) ++ [TAB; SP])
    with ((ot what ++ dec i ++ ot (q ++ "x") ++ [SP; TAB; SP]) ++ (ot what ++ dec i ++ ot (q ++ "y") ++ [SP; TAB; SP]) ++ (ot what ++ dec i ++ ot (q ++ "z") ++ [SP; TAB; SP]))
    by (rewrite !ot_app, <- !app_assoc; reflexivity).
  apply (row_app _ [_]); [apply cell_name; auto; try discriminate; try (apply P; reflexivity); try apply NE|]. apply (row_app _ [_] _ [_]); apply cell_name; auto; try discriminate; try (apply P; reflexivity); try apply NE.
Qed.
Lemma row_col1 what q i : plain what = true -> plain q = true -> q <> EmptyString -> row_ok (col1 what q i) [ot what ++ dec i ++ ot q].
Proof. intros. apply cell_name; auto; discriminate. Qed.
Lemma has_asked c ch : has c ch = asked ch c.
Proof.
  unfold has, asked. destruct (in_dec ascii_dec c ch) as [H|H].
  - apply existsb_exists. exists c. split; [exact H|apply Ascii.eqb_refl].
  - apply not_true_is_false. intro E. apply existsb_exists in E as (x & Hx & E). apply Ascii.eqb_eq in E. subst. contradiction.
Qed.
Lemma row_times n u seps : clean u -> seps <> [] -> forallb blank seps = true -> row_ok (times n (u ++ seps)) (repeat u n).
Proof. intros Hu Hs Hb. unfold times. induction n as [|n IH]; cbn; [apply row_nil|]. apply (row_app _ [u]); [now apply row_cell|exact IH]. Qed.

Section Show.
Variable show : R -> str.
Hypothesis Hshow : forall x, clean (show x).
Lemma row_num x : row_ok (num show x) [show x].
Proof. apply row_cell; [apply Hshow|discriminate|reflexivity]. Qed.
Lemma row_num3 v : row_ok (num3 show v) [show (vx v); show (vy v); show (vz v)].
Proof. unfold num3. apply (row_app _ [_]); [apply row_num|]. apply (row_app _ [_] _ [_]); apply row_num. Qed.

(** one group of columns *)
Section Group.
Variables (Q : Type) (N : nat) (ch : str) (tq : R * Q).
Definition blk (b : bool) {A} (l : list A) : list A := if b then l else [].
Lemma names3 q u f c pl : plain q = true -> row_ok (iff (has c ch) (match pl with Nodes => loop (cols3 "Node" q) 0 (N + 1) | Segs => loop (cols3 "Seg" q) 1 N end))
  (map c_name (if asked ch c then group_cols N (Group c pl (@xyz Q q u f)) else [])).
Proof.
  intro Hq. rewrite has_asked. destruct (asked ch c); cbn [iff]; [|apply row_nil]. unfold group_cols. cbn [g_place g_q]. destruct pl; unfold loop.
  - replace (map c_name _) with (flat_map (fun i => [ot "Node" ++ dec i ++ ot (q ++ "x"); ot "Node" ++ dec i ++ ot (q ++ "y"); ot "Node" ++ dec i ++ ot (q ++ "z")]) (seq 0 (N + 1)))
      by (rewrite !flat_map_concat_map, concat_map, map_map; reflexivity). apply row_concat. intros. now apply row_cols3.
  - replace (map c_name _) with (flat_map (fun i => [ot "Seg" ++ dec i ++ ot (q ++ "x"); ot "Seg" ++ dec i ++ ot (q ++ "y"); ot "Seg" ++ dec i ++ ot (q ++ "z")]) (seq 1 N))
      by (rewrite !flat_map_concat_map, concat_map, map_map; reflexivity). apply row_concat. intros. now apply row_cols3.
Qed.
Lemma names1 n u f c pl : plain n = true -> n <> EmptyString -> row_ok (iff (has c ch) (match pl with Nodes => loop (col1 "Node" n) 0 (N + 1) | Segs => loop (col1 "Seg" n) 1 N end))
  (map c_name (if asked ch c then @group_cols Q N (Group c pl [(n, u, f)]) else [])).
Proof.
  intros Hn He. rewrite has_asked. destruct (asked ch c); cbn [iff]; [|apply row_nil]. unfold group_cols. cbn [g_place g_q]. destruct pl; unfold loop.
  - replace (map c_name _) with (flat_map (fun i => [ot "Node" ++ dec i ++ ot n]) (seq 0 (N + 1)))
      by (rewrite !flat_map_concat_map, concat_map, map_map; reflexivity). apply row_concat. intros. now apply row_col1.
  - replace (map c_name _) with (flat_map (fun i => [ot "Seg" ++ dec i ++ ot n]) (seq 1 N))
      by (rewrite !flat_map_concat_map, concat_map, map_map; reflexivity). apply row_concat. intros. now apply row_col1.
Qed.
Lemma repeat3 {A} (a : A) k n : repeat a (3 * n) = flat_map (fun _ => [a; a; a]) (seq k n).
Proof. revert k. induction n as [|n IH]; intro k; [reflexivity|]. replace (3 * S n) with (S (S (S (3 * n)))) by lia. cbn [repeat seq flat_map app]. now rewrite <- IH. Qed.
Lemma repeat1 {A} (a : A) k n : repeat a n = flat_map (fun _ => [a]) (seq k n).
Proof. revert k. induction n as [|n IH]; intro k; [reflexivity|]. cbn. f_equal. apply IH. Qed.
Lemma units3 q u f c pl seps : plain u = true -> u <> EmptyString -> seps <> [] -> forallb blank seps = true ->
  row_ok (iff (has c ch) (times (match pl with Nodes => S (3 * N + 2) | Segs => 3 * N end) (ot u ++ seps)))
  (map c_unit (if asked ch c then group_cols N (Group c pl (@xyz Q q u f)) else [])).
Proof.
  intros Hu He Hs Hb. rewrite has_asked. destruct (asked ch c); cbn [iff]; [|apply row_nil]. unfold group_cols. cbn [g_place g_q]. destruct pl.
  - replace (map c_unit _) with (repeat (ot u) (S (3 * N + 2))); [apply row_times; auto; now apply plain_clean|].
    replace (S (3 * N + 2)) with (3 * (N + 1)) by lia. rewrite (repeat3 _ 0). rewrite !flat_map_concat_map, concat_map, map_map. reflexivity.
  - replace (map c_unit _) with (repeat (ot u) (3 * N)); [apply row_times; auto; now apply plain_clean|].
    rewrite (repeat3 _ 1). rewrite !flat_map_concat_map, concat_map, map_map. reflexivity.
Qed.
Lemma units1 n u f c pl seps k : plain u = true -> u <> EmptyString -> seps <> [] -> forallb blank seps = true -> k = (match pl with Nodes => S N | Segs => N end) ->
  row_ok (iff (has c ch) (times k (ot u ++ seps)))
  (map c_unit (if asked ch c then @group_cols Q N (Group c pl [(n, u, f)]) else [])).
Proof.
  intros Hu He Hs Hb ->. rewrite has_asked. destruct (asked ch c); cbn [iff]; [|apply row_nil]. unfold group_cols. cbn [g_place g_q]. destruct pl.
  - replace (map c_unit _) with (repeat (ot u) (S N)); [apply row_times; auto; now apply plain_clean|].
    replace (S N) with (N + 1) by lia. rewrite (repeat1 _ 0). rewrite !flat_map_concat_map, concat_map, map_map. reflexivity.
  - replace (map c_unit _) with (repeat (ot u) N); [apply row_times; auto; now apply plain_clean|].
    rewrite (repeat1 _ 1). rewrite !flat_map_concat_map, concat_map, map_map. reflexivity.
Qed.
Lemma vals3 q u f c pl : row_ok (iff (has c ch) (loop (fun i => num3 show (f (snd tq) i)) 0 (match pl with Nodes => N + 1 | Segs => N end)))
  (row_of show (if asked ch c then group_cols N (Group c pl (@xyz Q q u f)) else []) tq).
Proof.
  rewrite has_asked. unfold row_of. destruct (asked ch c); cbn [iff]; [|apply row_nil]. unfold group_cols. cbn [g_place g_q]. destruct pl; unfold loop.
  - replace (map _ (flat_map _ _)) with (flat_map (fun i => [show (vx (f (snd tq) i)); show (vy (f (snd tq) i)); show (vz (f (snd tq) i))]) (seq 0 (N + 1)))
      by (rewrite !flat_map_concat_map, concat_map, map_map; reflexivity). apply row_concat. intros. apply row_num3.
  - rewrite <- seq_shift. replace (map _ (flat_map _ _)) with (flat_map (fun i => [show (vx (f (snd tq) i)); show (vy (f (snd tq) i)); show (vz (f (snd tq) i))]) (seq 0 N)).
    + apply row_concat. intros. apply row_num3.
    + rewrite !flat_map_concat_map, concat_map, !map_map. f_equal. apply map_ext. intro i. unfold xyz. cbn [map c_val]. replace (S i - 1) with i by lia. reflexivity.
Qed.
Lemma vals1 n u f c pl : row_ok (iff (has c ch) (loop (fun i => num show (f (snd tq) i)) 0 (match pl with Nodes => N + 1 | Segs => N end)))
  (row_of show (if asked ch c then @group_cols Q N (Group c pl [(n, u, f)]) else []) tq).
Proof.
  rewrite has_asked. unfold row_of. destruct (asked ch c); cbn [iff]; [|apply row_nil]. unfold group_cols. cbn [g_place g_q]. destruct pl; unfold loop.
  - replace (map _ (flat_map _ _)) with (flat_map (fun i => [show (f (snd tq) i)]) (seq 0 (N + 1)))
      by (rewrite !flat_map_concat_map, concat_map, map_map; reflexivity). apply row_concat. intros. apply row_num.
  - rewrite <- seq_shift. replace (map _ (flat_map _ _)) with (flat_map (fun i => [show (f (snd tq) i)]) (seq 0 N)).
    + apply row_concat. intros. apply row_num.
    + rewrite !flat_map_concat_map, concat_map, !map_map. f_equal. apply map_ext. intro i. cbn [map c_val]. replace (S i - 1) with i by lia. reflexivity.
Qed.
End Group.

(** headers and rows *)
Lemma map_cols {Q B} (f : column Q -> B) gs N ch : map f (cols gs N ch) = [f (time_col Q)] ++ flat_map (fun g => map f (if asked ch (g_flag g) then group_cols N g else [])) gs.
Proof. unfold cols. cbn [map app]. f_equal. rewrite !flat_map_concat_map, concat_map, map_map. reflexivity. Qed.
Definition lineq (s : str) (ws : list str) : Prop := exists l, s = l ++ [NL] /\ words l = ws /\ ~ In "010"%char l.
Lemma lineq_nl : lineq [NL] [].
Proof. exists []. split; [reflexivity|]. split; [reflexivity|easy]. Qed.
Lemma lineq_app s1 w1 s2 w2 : row_ok s1 w1 -> lineq s2 w2 -> lineq (s1 ++ s2) (w1 ++ w2).
Proof. intros [H N] (l & -> & <- & N2). exists (s1 ++ l). split; [now rewrite app_assoc|]. split; [apply H|]. rewrite in_app_iff. tauto. Qed.
Lemma lineq_cell w seps s2 w2 : plain w = true -> w <> EmptyString -> seps <> [] -> forallb blank seps = true -> lineq s2 w2 -> lineq (ot w ++ seps ++ s2) ([ot w] ++ w2).
Proof. intros. rewrite app_assoc. apply lineq_app; [apply row_cell; [now apply plain_clean|assumption..]|assumption]. Qed.
Lemma lineq_rows s ws : lineq s ws -> rows s [ws].
Proof. intros (l & -> & H & N). now apply rows_line. Qed.
Ltac groups := apply lineq_rows; rewrite map_cols; cbn [flat_map line_groups rod_groups g_flag].
Ltac first_cell := apply (lineq_cell _ [TAB; SP]); [reflexivity|discriminate|discriminate|reflexivity|].
Ltac n3 pl := apply lineq_app; [apply (names3 _ _ _ _ _ _ _ pl); reflexivity|].
Ltac n1 pl := apply lineq_app; [apply (names1 _ _ _ _ _ _ _ pl); [reflexivity|discriminate]|].
Ltac u3 pl u := apply lineq_app; [apply (units3 _ _ _ _ u _ _ pl [SP; TAB]); [reflexivity|discriminate|discriminate|reflexivity]|].
Ltac u1 pl u seps := apply lineq_app; [apply (units1 _ _ _ _ u _ _ pl seps); [reflexivity|discriminate|discriminate|reflexivity|reflexivity]|].
Ltac w3 pl := apply lineq_app; [refine (vals3 _ _ _ (_, _) _ _ _ _ pl)|].
Ltac w1 pl := apply lineq_app; [refine (vals1 _ _ _ (_, _) _ _ _ _ pl)|].
Lemma line_header_rows N ch : rows (line_header N ch) [map c_name (cols line_groups N ch)].
Proof. groups. first_cell. n3 Nodes. n1 Nodes. n3 Nodes. n3 Nodes. n3 Nodes. n1 Segs. n3 Segs. n1 Segs. n1 Segs. n3 Nodes. apply lineq_nl. Qed.
Lemma rod_header_rows N ch : rows (rod_header N ch) [map c_name (cols rod_groups N ch)].
Proof. groups. first_cell. n3 Nodes. n3 Nodes. n3 Nodes. apply lineq_nl. Qed.
Lemma line_units_rows N ch : rows (line_units N ch) [map c_unit (cols line_groups N ch)].
Proof.
  groups. first_cell. u3 Nodes "(m)"%string. u1 Nodes "(1/m)"%string [SP; TAB; SP]. u3 Nodes "(m/s)"%string. u3 Nodes "(m/s)"%string. u3 Nodes "(N)"%string.
  u1 Segs "(N)"%string [SP; TAB]. u3 Segs "(N)"%string. u1 Segs "(-)"%string [SP; TAB]. u1 Segs "(-/s)"%string [SP; TAB]. u3 Nodes "(N)"%string. apply lineq_nl.
Qed.
Lemma rod_units_rows N ch : rows (rod_units N ch) [map c_unit (cols rod_groups N ch)].
Proof. groups. first_cell. u3 Nodes "(m)"%string. u3 Nodes "(m/s)"%string. u3 Nodes "(N)"%string. apply lineq_nl. Qed.
Lemma line_row_rows N ch t q : rows (line_row show N ch t q) [row_of show (cols line_groups N ch) (t, q)].
Proof. unfold row_of. groups. apply lineq_app; [apply row_num|]. w3 Nodes. w1 Nodes. w3 Nodes. w3 Nodes. w3 Nodes. w1 Segs. w3 Segs. w1 Segs. w1 Segs. w3 Nodes. apply lineq_nl. Qed.
Lemma rod_row_rows N ch t q : rows (rod_row show N ch t q) [row_of show (cols rod_groups N ch) (t, q)].
Proof. unfold row_of. groups. apply lineq_app; [apply row_num|]. w3 Nodes. w3 Nodes. w3 Nodes. apply lineq_nl. Qed.
Lemma closed_line s ws : (exists l, s = l ++ [NL] /\ words l = ws /\ forallb (fun c => negb (Ascii.eqb c "010")) l = true) -> rows s [ws].
Proof.
  intros (l & -> & H & N). apply rows_line; [exact H|]. intro HI. rewrite forallb_forall in N. apply N in HI. discriminate.
Qed.
Lemma body_header_rows : rows body_header [map c_name body_cols].
Proof. apply closed_line. exists (removelast body_header). split; [reflexivity|]. split; reflexivity. Qed.
Lemma body_units_rows : rows body_units [map c_unit body_cols].
Proof. apply closed_line. exists (removelast body_units). split; [reflexivity|]. split; reflexivity. Qed.
Lemma clean_nl w : clean w -> ~ In "010"%char w.
Proof. intros [_ H] HI. rewrite Forall_forall in H. apply H in HI. tauto. Qed.
Lemma body_row_rows t p a : rows (body_row show t p a) [row_of show body_cols (t, (p, a))].
Proof.
  apply lineq_rows. unfold body_row, row_of, body_cols. cbn [map c_val time_col fst snd].
  change [show t; show (vx p); show (vy p); show (vz p); show (vx a); show (vy a); show (vz a)] with ([show t] ++ [show (vx p); show (vy p); show (vz p)] ++ [show (vx a)] ++ [show (vy a)] ++ [show (vz a)]).
  apply lineq_app; [apply row_num|]. apply lineq_app; [apply row_num3|].
  rewrite (app_assoc (show (vx a))). apply lineq_app; [apply row_cell; [apply Hshow|discriminate|reflexivity]|].
  rewrite (app_assoc (show (vy a))). apply lineq_app; [apply row_cell; [apply Hshow|discriminate|reflexivity]|].
  exists (show (vz a)). split; [reflexivity|]. split; [apply words_last, Hshow|apply clean_nl, Hshow].
Qed.
(** the main file *)
Lemma main_head_rows w names (us : list str) : plain w = true -> w <> EmptyString -> Forall2 (fun n c => exists b, n = c ++ b /\ clean c /\ forallb blank b = true) names us ->
  rows (ot w ++ [TAB; SP] ++ concat (map (fun n => n ++ [TAB; SP]) names) ++ [NL]) [ot w :: us].
Proof.
  intros Hw He H. apply lineq_rows. change (ot w :: us) with ([ot w] ++ us). apply (lineq_cell _ [TAB; SP]); [assumption..|discriminate|reflexivity|].
  induction H as [|n c names us (b & -> & Hc & Hb) HF IH]; [apply lineq_nl|]. cbn [map concat]. rewrite <- !app_assoc. rewrite (app_assoc b), (app_assoc c). change (c :: us) with ([c] ++ us).
  apply lineq_app; [|exact IH]. apply row_cell; [exact Hc|destruct b; discriminate|]. rewrite forallb_app, Hb. reflexivity.
Qed.
Lemma main_row_rows t vals xs : vals = map Ok xs -> snd (main_row show t vals) = Ok tt /\ rows (fst (main_row show t vals)) [show t :: map show xs].
Proof.
  intros ->. unfold main_row. cbn [fst snd]. assert (H : snd (main_cells show (map Ok xs)) = Ok tt /\ lineq (fst (main_cells show (map Ok xs))) (map show xs)).
  { induction xs as [|x xs [IH1 IH2]]; cbn [map main_cells fst snd]; [split; [reflexivity|apply lineq_nl]|]. split; [exact IH1|]. apply (lineq_app _ [show x]); [apply row_num|exact IH2]. }
  destruct H as [H1 H2]. split; [exact H1|]. apply lineq_rows. apply (lineq_app _ [show t]); [apply row_num|exact H2].
Qed.
Lemma main_cells_ok vals s : main_cells show vals = (s, Ok tt) -> exists xs, vals = map Ok xs.
Proof.
  revert s; induction vals as [|v vals IH]; intros s H; [exists []; reflexivity|]. destruct v as [x| | |]; cbn in H; try discriminate.
  destruct (main_cells show vals) as [s' o]. cbn in H. assert (o = Ok tt) by congruence. subst o. destruct (IH s' eq_refl) as [xs ->]. exists (x :: xs). reflexivity.
Qed.
End Show.
