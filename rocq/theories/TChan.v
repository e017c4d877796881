(** C88: an output channel reports the quantity that its name stands for. *)
From Coq Require Import String Ascii List Arith ZArith Bool Reals Lra Lia.
From Verif Require Import MErr MStr MVec MStateOps MBody MDetach MParse MChan SChan PStr PChan.
From Verif Require MTime.
Import ListNotations.
Local Open Scope nat_scope.

(** A channel of a line as a whole is that of its end A. *)
Theorem C88_line : forall s a w i m v L,
  nth_error (a_lines a) i = Some L -> whole_line L -> line_value L 0 m = Some v -> names w ["L"; "LINE"]%string i m ->
  reports s a w v (units_of m).
Proof. exact line_object_reports. Qed.
Print Assumptions C88_line.
(** A channel of a node of a line is that of the node. *)
Theorem C88_line_node : forall s a w i k m v L,
  nth_error (a_lines a) i = Some L -> whole_line L -> k <= v_N L -> line_value L k m = Some v -> names_node w ["L"; "LINE"]%string i k m ->
  reports s a w v (units_of m).
Proof. exact line_node_reports. Qed.
Print Assumptions C88_line_node.
(** NA is the first node and NB the last. *)
Theorem C88_line_end : forall s a w i e m v L x,
  nth_error (a_lines a) i = Some L -> whole_line L -> nth_error (s_lines s) i = Some x -> li_segs x = Z.of_nat (v_N L) -> (e = "A" \/ e = "B")%string ->
  line_value L (if String.eqb e "A" then 0 else v_N L) m = Some v -> names_end w ["L"; "LINE"]%string i e m ->
  reports s a w v (units_of m).
Proof. exact line_end_reports. Qed.
Print Assumptions C88_line_end.
(** FAIRTENn is LINEnTENB and ANCHTENn is LINEnTENA. *)
Theorem C88_fairlead_anchor : forall s a i L x d,
  nth_error (a_lines a) i = Some L -> whole_line L -> nth_error (s_lines s) i = Some x -> li_segs x = Z.of_nat (v_N L) -> written d (S i) ->
  (forall w w', upper w = tx "FAIRTEN" ++ d -> upper w' = tx "LINE" ++ d ++ tx "TENB" -> exists v, reports s a w v "(N)" /\ reports s a w' v "(N)") /\
  (forall w w', upper w = tx "ANCHTEN" ++ d -> upper w' = tx "LINE" ++ d ++ tx "TENA" -> exists v, reports s a w v "(N)" /\ reports s a w' v "(N)").
Proof.
  intros s a i L x d N W X S D. split; intros w w' E E'; eexists; split.
  - exact (fairten_reports s a w i L x d N W X S D E).
  - apply (line_object_reports s a w' i TensionB _ L N W eq_refl). exists "LINE"%string, d, "TENB"%string. cbn. tauto.
  - exact (anchten_reports s a w i L d N W D E).
  - apply (line_object_reports s a w' i TensionA _ L N W eq_refl). exists "LINE"%string, d, "TENA"%string. cbn. tauto.
Qed.
Print Assumptions C88_fairlead_anchor.
Theorem C88_point : forall s a w i m v P,
  nth_error (a_points a) i = Some P -> point_value P m = Some v -> names w ["P"; "POINT"]%string i m -> reports s a w v (units_of m).
Proof. exact point_reports. Qed.
Print Assumptions C88_point.
Theorem C88_rod : forall s a w i m v D,
  nth_error (a_rods a) i = Some D -> whole_rod D -> rod_value D m = Some v -> names w ["R"; "ROD"]%string i m -> reports s a w v (units_of m).
Proof. exact rod_reports. Qed.
Print Assumptions C88_rod.
Theorem C88_rod_node : forall s a w i k m v D,
  nth_error (a_rods a) i = Some D -> whole_rod D -> k <= u_N D -> rod_node_value D k m = Some v -> names_node w ["R"; "ROD"]%string i k m ->
  reports s a w v (units_of m).
Proof. exact rod_node_reports. Qed.
Print Assumptions C88_rod_node.
(** Bodies: all but the net force. *)
Theorem C88_body_partial : forall s a w i m v B,
  nth_error (a_bodies a) i = Some B -> body_value B m = Some v -> names w ["B"; "BODY"]%string i m -> reports s a w v (units_of m).
Proof. exact body_reports. Qed.
Print Assumptions C88_body_partial.
(** The net force of a body that is not coupled is the length of its force. *)
Theorem C88_body_net_partial : forall s a w i B b F M,
  nth_error (a_bodies a) i = Some B -> z_F6 B = F -> z_Fout B = body_getFnet b F M -> b_type b <> BCoupled -> b_type b <> BCpldPin ->
  names w ["B"; "BODY"]%string i Tension -> reports s a w (norm (v6hd (z_Fout B))) "(N)".
Proof.
  intros s a w i B b F M N HF HO T1 T2 H. assert (E : z_Fout B = z_F6 B) by (rewrite HO, HF; unfold body_getFnet; destruct (b_type b); congruence).
  rewrite E. now apply (body_ten s a w i B).
Qed.
Print Assumptions C88_body_net_partial.

(** ** Examples and refutations *)
Definition ex_line := LineV 2 [V3 0 0 0; V3 1 2 3; V3 4 5 6] [V3 7 8 9; V3 1 1 1; V3 2 2 2] [V3 3 0 4; V3 0 0 0; V3 0 0 7] [V3 1 0 0; V3 1 0 0] [V3 0 0 0; V3 0 0 0].
Definition ex_body0 (b : body) (F : v6) (M : m6) := BodyV (V3 1 2 3) (V3 10 20 30) (V6 (V3 0 0 1) vzero) (b_a b) F (body_getFnet b F M).
Definition ex_lin := LineIn 1 0 100 2 [] (AtPoint 0) (AtPoint 1).
Lemma ex_whole : whole_line ex_line. Proof. repeat split; cbn; lia. Qed.
Lemma w1 : written (tx "1") 1. Proof. repeat split. discriminate. Qed.
Lemma w2 : written (tx "2") 2. Proof. repeat split. discriminate. Qed.

Example C88_case_line s bs : reports s (AllV [ex_line] [] [] bs) (tx "Line1N1pY") 2 "(m)".
Proof. apply (C88_line_node s _ _ 0 1 (Pos AY) 2%R ex_line); try reflexivity; [exact ex_whole|cbn; lia|]. exists "LINE"%string, (tx "1"), (tx "1"), "PY"%string. cbn. repeat split; auto; discriminate. Qed.
Example C88_case_end s o : reports (Sys o [] [] [] [] [] [ex_lin] [] [] 0) (AllV [ex_line] [] [] s) (tx "L1NBPX") 4 "(m)".
Proof. apply (C88_line_end _ _ _ 0 "B" (Pos AX) 4%R ex_line ex_lin); try reflexivity; [exact ex_whole|auto|]. exists "L"%string, (tx "1"), "PX"%string. cbn. repeat split; auto; discriminate. Qed.

(** The channel of the tension of a coupled body is not the length of the force of its force channels. *)
Theorem C88_body_net_refuted :
  ~ forall s a w i B b F M, nth_error (a_bodies a) i = Some B -> z_F6 B = F -> z_Fout B = body_getFnet b F M -> b_a b = z_a6 B -> names w ["B"; "BODY"]%string i Tension ->
    reports s a w (norm (v6hd (z_Fout B))) "(N)".
Proof.
  intro H.
  pose (F := V6 (V3 3 0 0) vzero). pose (M := M6 mid mzero mzero mzero). pose (b := Body BCoupled 1 0 vzero vzero (V6 vzero vzero) (V6 vzero vzero) vzero mid (V6 vzero vzero) F).
  specialize (H no_sys (AllV [] [] [] [ex_body0 b F M]) (tx "BODY1TEN") 0 (ex_body0 b F M) b F M eq_refl eq_refl eq_refl eq_refl).
  destruct H as (c & R & _ & G & _); [exists "BODY"%string, (tx "1"), "TEN"%string; cbn; repeat split; auto; discriminate|].
  destruct (body_ten no_sys (AllV [] [] [] [ex_body0 b F M]) (tx "BODY1TEN") 0 (ex_body0 b F M)) as (c' & R' & _ & G' & _); [reflexivity|exists "BODY"%string, (tx "1"), "TEN"%string; cbn; repeat split; auto; discriminate|].
  assert (c' = c) by congruence. subst c'. assert (Q : norm (v6hd (z_Fout (ex_body0 b F M))) = norm (v6hd (z_F6 (ex_body0 b F M)))) by congruence. revert Q.
  replace (v6hd (z_Fout (ex_body0 b F M))) with (V3 0 0 0) by (unfold ex_body0, body_getFnet, b, F, M; unfold v6sub, m6mulv; cbn -[Rplus Rmult Rminus Ropp]; unfold vsub, vadd, mmulv, dot; cbn -[Rplus Rmult Rminus Ropp]; f_equal; lra).
  change (v6hd (z_F6 (ex_body0 b F M))) with (V3 3 0 0). unfold norm, dot. cbn [vx vy vz].
  replace (0 * 0 + 0 * 0 + 0 * 0)%R with 0%R by lra. rewrite sqrt_0. intro Q. assert (P : (0 < sqrt (3 * 3 + 0 * 0 + 0 * 0))%R) by (apply sqrt_lt_R0; lra). lra.
Qed.
Print Assumptions C88_body_net_refuted.
(** An object or a node that does not exist is not reported: the program reads outside of its lists. *)
Theorem C88_missing_refuted :
  (forall s a w i m, names w ["B"; "BODY"]%string i m -> length (a_bodies a) <= i -> exists c, read_chan w s = Ok (Some c) /\ get_output a c = UB) /\
  (forall s a w i k L x, nth_error (a_lines a) i = Some L -> whole_line L -> v_N L < k -> names_node w ["L"; "LINE"]%string i k (Pos x) ->
    exists c, read_chan w s = Ok (Some c) /\ get_output a c = UB).
Proof. split; [exact missing_object|exact missing_node]. Qed.
Print Assumptions C88_missing_refuted.
Example C88_missing_case : exists c, read_chan (tx "LINE1N3PX") no_sys = Ok (Some c) /\ get_output (AllV [ex_line] [] [] []) c = UB.
Proof. apply (proj2 C88_missing_refuted no_sys (AllV [ex_line] [] [] []) _ 0 3 ex_line AX); [reflexivity|exact ex_whole|cbn; lia|]. exists "LINE"%string, (tx "1"), (tx "3"), "PX"%string. cbn. repeat split; auto; discriminate. Qed.
(** The names of the channels of points given for the first format make no channel. *)
Theorem C88_old_names_refuted : forall s w d x n m, In x (suffixes m) -> written d n -> upper w = tx "CON" ++ d ++ tx x -> read_chan w s = Ok None.
Proof. exact con_word. Qed.
Print Assumptions C88_old_names_refuted.
Example C88_old_names_case s : read_chan (tx "Con3vY") s = Ok None.
Proof. apply (C88_old_names_refuted s _ (tx "3") "VY" 3 (Vel AY)); [left; reflexivity|repeat split; discriminate|reflexivity]. Qed.
(** The channel of the tension at the fairlead and the function for it, MoorDyn_GetLineFairTen, differ. *)
Theorem C88_fairlead_function_refuted :
  ~ forall s a w i L x d t, nth_error (a_lines a) i = Some L -> whole_line L -> nth_error (s_lines s) i = Some x -> li_segs x = Z.of_nat (v_N L) -> written d (S i) ->
    upper w = tx "FAIRTEN" ++ d -> omap norm (ch_ten L (Z.of_nat (v_N L))) = Ok t -> reports s a w t "(N)".
Proof.
  intro H. pose (s := Sys no_options [] [] [] [] [] [ex_lin] [] [] 0). pose (a := AllV [ex_line] [] [] []).
  specialize (H s a (tx "FairTen1") 0 ex_line ex_lin (tx "1") (norm (vadd (V3 1 0 0) (V3 0 0 0))) eq_refl ex_whole eq_refl eq_refl w1 eq_refl eq_refl).
  destruct H as (c & R & _ & G & _). destruct (fairten_reports s a (tx "FairTen1") 0 ex_line ex_lin (tx "1") eq_refl ex_whole eq_refl eq_refl w1 eq_refl) as (c' & R' & _ & G' & _).
  assert (c' = c) by congruence. subst c'. assert (Q : norm (vadd (V3 1 0 0) (V3 0 0 0)) = norm (node_of (v_F ex_line) (v_N ex_line))) by congruence. revert Q. unfold node_of. cbn [nth v_F v_N ex_line]. unfold norm, dot, vadd. cbn [vx vy vz].
  replace ((1 + 0) * (1 + 0) + (0 + 0) * (0 + 0) + (0 + 0) * (0 + 0))%R with (1 * 1)%R by lra. replace (0 * 0 + 0 * 0 + 7 * 7)%R with (7 * 7)%R by lra. rewrite !sqrt_square by lra. lra.
Qed.
Print Assumptions C88_fairlead_function_refuted.
