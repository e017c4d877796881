(** Proofs about reading the input file: text before the sections, and example files. *)
From Coq Require Import String Ascii List Arith ZArith Bool Reals Lia Lra.
From Verif Require Import MErr MStr MVec MStateOps MBody MCurve MDetach MParse SParse PParse PParse2 PParse3.
From Verif Require MTime MScheme.
Import ListNotations.
Local Open Scope nat_scope.

Lemma find_header_front names : forall front t k, (forall l, In l front -> dashes l && has (upper l) names = false) -> find_header (front ++ t) names k = find_header t names (k + length front).
Proof.
  induction front as [|l front IH]; intros t k H; cbn [app find_header length]; [now rewrite Nat.add_0_r|]. rewrite (H l (or_introl eq_refl)).
  rewrite IH by (intros; apply H; now right). f_equal. lia.
Qed.
Lemma find_header_shift names : forall t k m, find_header t names (k + m) = match find_header t names k with Some i => Some (i + m) | None => None end.
Proof. induction t as [|l t IH]; intros k m; cbn [find_header]; [reflexivity|]. destruct (dashes l && has (upper l) names); [reflexivity|]. exact (IH (S k) m). Qed.
Lemma from_front keys skip front t : (forall l, In l front -> ~ is_header keys l) -> from (front ++ t) keys skip = from t keys skip.
Proof.
  intro H. unfold from, find_start. rewrite find_header_front.
  2:{ intros l I. destruct (dashes l && has (upper l) (map tx keys)) eqn:E; [|reflexivity]. apply header_iff in E. exfalso. exact (H l I E). }
  rewrite find_header_shift. destruct (find_header t (map tx keys) 0) as [i|]; [|reflexivity]. f_equal. rewrite skipn_app.
  rewrite skipn_all2 by lia. cbn [app]. f_equal. lia.
Qed.
Section Front.
Variable atof : str -> R.
Variable stof : str -> option R.
Variable stold : str -> stold_res.
Variable opened : str -> option str.
Variable basepath : str.
Variable can_create : nat -> Z -> bool.
Variable setup_log : Z -> Z.
Variable floor_setup : str -> outcome unit.
Lemma front_matter front t : (forall keys skip l, In (keys, skip) all_sections -> In l front -> ~ is_header keys l) ->
  read_file atof stof stold opened basepath can_create setup_log floor_setup (front ++ t) = read_file atof stof stold opened basepath can_create setup_log floor_setup t.
Proof.
  intro H. rewrite !read_file_run. unfold read_run.
  assert (F : forall keys skip, In (keys, skip) all_sections -> from (front ++ t) keys skip = from t keys skip) by (intros keys skip I; apply from_front; intros l Il; exact (H keys skip l I Il)).
  rewrite !(F ["OPTIONS"]%string 1), (F ["LINE DICTIONARY"; "LINE TYPES"]%string 3), (F ["ROD DICTIONARY"; "ROD TYPES"]%string 3), (F ["BODIES"; "BODY LIST"; "BODY PROPERTIES"]%string 3),
    (F ["POINTS"; "POINT LIST"; "POINT PROPERTIES"; "CONNECTION PROPERTIES"; "NODE PROPERTIES"]%string 3), (F ["RODS"; "ROD LIST"; "ROD PROPERTIES"]%string 3),
    (F ["LINES"; "LINE LIST"; "LINE PROPERTIES"]%string 3), (F ["FAILURE"]%string 3), (F ["OUTPUT"]%string 1) by (cbn [all_sections In]; repeat (first [left; reflexivity|right])).
  reflexivity.
Qed.
End Front.

(** deciding the hypotheses on example files *)
Definition closedb (t : list str) (k : list string * nat) : bool := match find_start t (fst k) (snd k) with Some i => existsb dashes (skipn i t) | None => true end.
Lemma closedb_ok t : forallb (closedb t) all_sections = true -> all_closed t.
Proof.
  intros H keys skip I i Hi. rewrite forallb_forall in H. specialize (H _ I). unfold closedb in H. cbn [fst snd] in H.
  assert (X : find_start t keys skip = Some (i + skip)) by (apply find_start_iff; now exists i). rewrite X in H. apply existsb_exists in H as (l & Il & D). apply dashes_iff in D.
  apply In_nth_error in Il as (n & Hn). exists (i + skip + n), l. split; [lia|]. split; [|exact D].
  assert (L : n < length (skipn (i + skip) t)) by (apply nth_error_Some; congruence). rewrite skipn_length in L.
  rewrite <- Hn, <- (firstn_skipn (i + skip) t) at 1. rewrite nth_error_app2 by (rewrite firstn_length; lia). f_equal. rewrite firstn_length. lia.
Qed.
Definition absentb (t : list str) (keys : list string) : bool := match find_start t keys 0 with Some _ => false | None => true end.
Lemma absentb_ok t keys : absentb t keys = true -> forall i, ~ header_at t keys i.
Proof. unfold absentb. destruct (find_start t keys 0) eqn:E; [discriminate|]. intros _. exact (proj1 (find_start_none t keys 0) E). Qed.
Definition harmlessb (l : str) : bool := match split_sep l space with _ :: n :: _ => negb (is_any n ["tScheme"; "WaveKin"; "dtWave"; "Currents"; "SeafloorFile"]%string) | _ => true end.
Lemma isOneOf_of w ws : In w ws -> isOneOf w ws = true.
Proof.
  induction ws as [|v ws IH]; [contradiction|]. cbn [isOneOf]. intros [-> |I]; [|destruct (str_eqb w v); auto].
  assert (X : str_eqb w w = true) by (clear; induction w as [|a w IHw]; [reflexivity|]; cbn [str_eqb]; rewrite Ascii.eqb_refl; exact IHw). now rewrite X.
Qed.
Lemma harmlessb_ok l : harmlessb l = true -> harmless l.
Proof. unfold harmlessb, harmless. intros H v n r E I. rewrite E in H. unfold is_any in H. rewrite (isOneOf_of _ _ I) in H. discriminate. Qed.
Definition shortb (l : str) : bool := let d := decomposeString (field l 1) in
  if is_txt (d_let1 d) "BODY" then match std_stoi (d_num1 d) with Ok id => (u32 (atoi (d_num1 d)) =? id)%Z | _ => false end else true.
Lemma shortb_ok l : shortb l = true -> short_body l.
Proof.
  unfold shortb, short_body. intros H E. rewrite E, is_txt_refl in H. destruct (std_stoi _) as [id| | |]; try discriminate. apply Z.eqb_eq in H. now exists id.
Qed.

(** files *)
Definition lines_of (l : list string) : list str := map tx l.
Definition good_file : list str := lines_of ["Moorings"; "--- LINE TYPES ---"; "Name"; "(-)"; "chain 0.1 100 1e6 -1 0 1 1 0 0";
  "--- BODIES ---"; "ID"; "(-)"; "1 Free 0 0 0 0 0 0 1 0 1 1 4|5|6 1";
  "--- POINTS ---"; "ID"; "(-)"; "1 Fixed 0 0 0 0 0 0 0"; "2 Body1 0 0 0 0 0 0 0";
  "--- LINES ---"; "ID"; "(-)"; "1 chain 1 2 100 10 -"; "--- OPTIONS ---"; "9.81 g"; "--- end ---"]%string.
(** the same sections in another order, and other text *)
Definition other_order : list str := lines_of ["A title"; "--- OPTIONS ---"; "9.81 g";
  "--- LINES of the system ---"; "Line"; "(-)"; "1 chain 1 2 100 10 -"; 
  "--- POINT LIST ---"; "ID"; "(-)"; "1 Fixed 0 0 0 0 0 0 0"; "2 Body1 0 0 0 0 0 0 0";
  "--- BODIES ---"; "ID"; "(-)"; "1 Free 0 0 0 0 0 0 1 0 1 1 4|5|6 1";
  "--- LINE DICTIONARY ---"; "Name"; "(-)"; "chain 0.1 100 1e6 -1 0 1 1 0 0"; "------"; "some other words"]%string.
(** the points in the other order, with their numbers *)
Definition swapped_file : list str := lines_of ["--- LINE TYPES ---"; "Name"; "(-)"; "chain 0.1 100 1e6 -1 0 1 1 0 0";
  "--- POINTS ---"; "ID"; "(-)"; "2 Free 0 0 0 0 0 0 0"; "1 Fixed 0 0 0 0 0 0 0";
  "--- LINES ---"; "ID"; "(-)"; "1 chain 1 2 100 10 -"; "--- end ---"]%string.
Definition short_rod_file : list str := lines_of ["--- RODS ---"; "ID"; "(-)"; "1 type Free 0 0 0"; "--- end ---"]%string.
Definition short_fail_file : list str := lines_of ["--- LINE TYPES ---"; "Name"; "(-)"; "chain 0.1 100 1e6 -1 0 1 1 0 0";
  "--- POINTS ---"; "ID"; "(-)"; "1 Free 0 0 0 0 0 0 0"; "2 Fixed 0 0 0 0 0 0 0";
  "--- LINES ---"; "ID"; "(-)"; "1 chain 1 2 100 10 -"; "--- FAILURE ---"; "ID"; "(-)"; "1 Point1 1 50"; "--- end ---"]%string.
Definition missing_line_file : list str := lines_of ["--- OUTPUTS ---"; "FairTen3"; "--- end ---"]%string.
Definition bad_option_file : list str := lines_of ["--- OPTIONS ---"; "none WaveKin"; "--- end ---"]%string.
Definition two_sections : list str := lines_of ["--- BODIES ---"; "ID"; "(-)"; "1 Free 0 0 0 0 0 0 1 0 1 1 4 1"; "--- BODIES ---"; "ID"; "(-)"; "2 Free 0 0 0 0 0 0 1 0 1 1 4 1"; "--- end ---"]%string.
Definition one_section : list str := lines_of ["--- BODIES ---"; "ID"; "(-)"; "1 Free 0 0 0 0 0 0 1 0 1 1 4 1"; "--- end ---"]%string.
Definition zero_of : str -> R := fun _ => 0%R.
Definition one_of : str -> R := fun _ => 1%R.
(** reading with all numbers zero and a file system in which everything works *)
Definition try_read (t : list str) : outcome (sys + Z) := read_file zero_of (fun _ => None) (fun _ => StNum 0%R) (fun _ => None) [] (fun _ _ => true) (fun _ => 0%Z) (fun _ => Ok tt) t.
Definition try_create (t : list str) : outcome (option sys) := create zero_of (fun _ => None) (fun _ => StNum 0%R) (fun _ => None) [] (fun _ _ => true) (fun _ => 0%Z) (fun _ => Ok tt) t.
Definition body_row_text (CdA : string) : str := tx "1 Free 0 0 0 0 0 0 1 0 1 1 " ++ tx CdA ++ tx " 1".
Lemma try_good : exists s, try_read good_file = Ok (inl s) /\ length (s_bodies s) = 1 /\ length (s_points s) = 2 /\ length (s_lines s) = 1 /\ s_nX s = 66%Z /\ numbers s = 67%Z.
Proof. unfold try_read. cbv -[Rlt_dec Ropp IZR]. eexists. split; [reflexivity|]. repeat split. Qed.
Lemma try_swapped : exists s l p, try_read swapped_file = Ok (inl s) /\ s_lines s = [l] /\ li_a l = AtPoint 0 /\ nth_error (s_points s) 0 = Some p /\ pi_number p = 2%Z.
Proof. unfold try_read. cbv -[Rlt_dec Ropp IZR]. eexists _, _, _. split; [reflexivity|]. repeat split. Qed.
Lemma try_short_rod : try_create short_rod_file = UB. Proof. reflexivity. Qed.
Lemma try_short_fail : try_create short_fail_file = UB.
Proof. unfold try_create. cbv -[Rlt_dec Ropp IZR]. reflexivity. Qed.
Lemma try_missing_line : try_create missing_line_file = UB. Proof. reflexivity. Qed.
Lemma try_bad_option : try_create bad_option_file = Throw ExStd. Proof. reflexivity. Qed.
