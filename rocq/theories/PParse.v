(** Proofs about reading the input file: sections. *)
From Coq Require Import String Ascii List Arith ZArith Bool Reals Lia.
From Verif Require Import MErr MStr MVec MStateOps MBody MCurve MDetach MParse SParse.
From Verif Require MTime MScheme.
Import ListNotations.
Local Open Scope nat_scope.

Lemma startswith_iff p : forall s, startswith s p = true <-> exists b, s = p ++ b.
Proof.
  induction p as [|x p IH]; intros s.
  - split; [intros _; now exists s|]. intros _. destruct s; reflexivity.
  - destruct s as [|c s]; [split; [discriminate|intros [b H]; discriminate]|]. change (Ascii.eqb x c && startswith s p = true <-> exists b, c :: s = (x :: p) ++ b). rewrite andb_true_iff, IH. split.
    + intros [E [b ->]]. apply Ascii.eqb_eq in E. subst. now exists b.
    + intros [b H]. injection H as -> ->. split; [apply Ascii.eqb_refl|now exists b].
Qed.
Lemma contains_iff s : forall t, contains s t = true <-> inside t s.
Proof.
  induction s as [|c s IH]; intro t; cbn [contains]; rewrite orb_true_iff, startswith_iff.
  - split; [intros [[b E]|]; [exists [], b; exact E|discriminate]|]. intros (a & b & E). left. destruct a; [|discriminate]. now exists b.
  - rewrite IH. split.
    + intros [[b E]|(a & b & E)]; [exists [], b; exact E|exists (c :: a), b; cbn; now rewrite E].
    + intros ([|x a] & b & E); [left; now exists b|right; injection E as _ E; now exists a, b].
Qed.
Lemma dashes_iff l : dashes l = true <-> dashed l. Proof. apply contains_iff. Qed.
Lemma has_iff s ts : has s ts = true <-> exists t, In t ts /\ inside t s.
Proof.
  induction ts as [|t ts IH]; cbn [has]; [split; [discriminate|intros (? & [] & _)]|]. destruct (contains s t) eqn:E.
  - split; [intros _; exists t; split; [now left|now apply contains_iff]|reflexivity].
  - rewrite IH. split; [intros (x & I & H); exists x; split; [now right|exact H]|]. intros (x & [<-|I] & H); [apply contains_iff in H; congruence|now exists x].
Qed.
Lemma header_iff keys l : dashes l && has (upper l) (map tx keys) = true <-> is_header keys l.
Proof.
  rewrite andb_true_iff, dashes_iff, has_iff. unfold is_header. split; intros [D H]; (split; [exact D|]).
  - destruct H as (t & I & H). apply in_map_iff in I as (k & <- & I). now exists k.
  - destruct H as (k & I & H). exists (tx k). split; [now apply in_map|exact H].
Qed.
Lemma find_header_some t keys : forall k i, find_header t (map tx keys) k = Some i -> exists j, i = k + j /\ header_at t keys j.
Proof.
  induction t as [|l t IH]; intros k i; cbn [find_header]; [discriminate|]. destruct (dashes l && has (upper l) (map tx keys)) eqn:E.
  - intro H. injection H as <-. exists 0. split; [lia|]. apply header_iff in E. split; [exists l; split; [reflexivity|exact E]|intros j x Hj; lia].
  - intro H. destruct (IH _ _ H) as (j & -> & (x & Hx & Hh) & Hn). exists (S j). split; [lia|]. split; [exists x; now split|].
    intros [|m] y Hm Hy; cbn in Hy; [injection Hy as <-; rewrite <- header_iff, E; discriminate|apply (Hn m y); [lia|exact Hy]].
Qed.
Lemma find_header_none t keys : forall k, find_header t (map tx keys) k = None -> forall l, In l t -> ~ is_header keys l.
Proof.
  induction t as [|x t IH]; intros k; cbn [find_header]; [intros _ l []|]. destruct (dashes x && has (upper x) (map tx keys)) eqn:E; [discriminate|].
  intros H l [<-|I]; [rewrite <- header_iff, E; discriminate|now apply (IH (S k))].
Qed.
Lemma header_unique t keys i j : header_at t keys i -> header_at t keys j -> i = j.
Proof.
  intros ((l & Hl & Il) & Ni) ((m & Hm & Im) & Nj). destruct (Nat.lt_trichotomy i j) as [H|[H|H]]; [|exact H|].
  - exfalso. exact (Nj i l H Hl Il).
  - exfalso. exact (Ni j m H Hm Im).
Qed.
Lemma find_start_iff t keys skip i : find_start t keys skip = Some i <-> exists j, header_at t keys j /\ i = j + skip.
Proof.
  unfold find_start. destruct (find_header t (map tx keys) 0) as [k|] eqn:E.
  - destruct (find_header_some _ _ _ _ E) as (j & -> & H). cbn. split; [intro X; injection X as <-; now exists j|]. intros (j' & H' & ->). now rewrite (header_unique _ _ _ _ H H').
  - split; [discriminate|]. intros (j & ((l & Hl & Il) & _) & _). exfalso. exact (find_header_none _ _ _ E l (nth_error_In _ _ Hl) Il).
Qed.
Lemma find_start_none t keys skip : find_start t keys skip = None <-> forall j, ~ header_at t keys j.
Proof.
  split.
  - intros E j H. assert (X : find_start t keys skip = Some (j + skip)) by (apply find_start_iff; now exists j). congruence.
  - intro H. destruct (find_start t keys skip) as [i|] eqn:E; [|reflexivity]. apply find_start_iff in E as (j & Hj & _). exfalso. exact (H j Hj).
Qed.

(** the loop over the rows, as a function of the lines from its start on *)
Section Run.
Context {S0 : Type} (body : str -> S0 -> outcome (S0 + Z)).
Fixpoint run (ls : list str) (s : S0) : outcome (S0 + Z) :=
  match ls with
  | [] => UB
  | l :: ls' => if dashes l then Ok (inl s) else r <- body l s ;; match r with inl s' => run ls' s' | inr e => Ok (inr e) end
  end.
Lemma skipn_nth {A} (t : list A) i l : nth_error t i = Some l -> skipn i t = l :: skipn (S i) t.
Proof. revert i. induction t as [|x t IH]; intros [|i] H; try discriminate; [injection H as ->; reflexivity|]. cbn [skipn]. rewrite (IH i H). destruct t; reflexivity. Qed.
Lemma rows_run (t : list str) get : reads t get -> forall fuel i s, length t - i < fuel ->
  (forall k, length t <= k -> get k = UB) \/ (exists j l, i <= j /\ nth_error t j = Some l /\ dashed l) ->
  rows get (length t) body fuel i s = run (skipn i t) s.
Proof.
  intro Hg. induction fuel as [|fuel IH]; intros i s Hf Hc; [lia|]. cbn [rows]. destruct (nth_error t i) as [l|] eqn:E.
  - rewrite (Hg _ _ E), (skipn_nth _ _ _ E). cbn [obind run]. destruct (dashes l) eqn:D; [reflexivity|].
    assert (L : i < length t) by (apply nth_error_Some; congruence). apply Nat.ltb_lt in L as ->. destruct (body l s) as [[s'|e]| | |]; cbn [obind]; try reflexivity.
    apply IH; [assert (i < length t) by (apply nth_error_Some; congruence); lia|]. destruct Hc as [Hc|(j & m & L & Hj & Dj)]; [now left|]. right. exists j, m. split; [|now split].
    destruct (Nat.eq_dec i j) as [<-|]; [|lia]. rewrite E in Hj. injection Hj as <-. apply dashes_iff in Dj. congruence.
  - assert (L : length t <= i) by now apply nth_error_None. destruct Hc as [Hc|(j & m & Lj & Hj & Dj)].
    + rewrite (Hc i L). now rewrite skipn_all2.
    + assert (j < length t) by (apply nth_error_Some; congruence). lia.
Qed.
Lemma run_inv (P : S0 -> Prop) : (forall l s s', P s -> body l s = Ok (inl s') -> P s') -> forall ls s s', run ls s = Ok (inl s') -> P s -> P s'.
Proof.
  intro Hb. induction ls as [|l ls IH]; intros s s'; cbn [run]; [discriminate|]. destruct (dashes l); [intro H; injection H as <-; auto|].
  destruct (body l s) as [[s1|e]| | |] eqn:E; cbn [obind]; try discriminate. intros H HP. exact (IH _ _ H (Hb _ _ _ HP E)).
Qed.
Lemma run_good (P : S0 -> Prop) (Q : str -> Prop) : (forall l s, Q l -> P s -> exists r, body l s = Ok r /\ match r with inl s' => P s' | inr e => True end) ->
  forall ls s, (forall l, In l ls -> Q l) -> (exists l, In l ls /\ dashed l) -> P s -> exists r, run ls s = Ok r /\ match r with inl s' => P s' | inr e => True end.
Proof.
  intro Hb. induction ls as [|l ls IH]; intros s HQ (x & I & D) HP; [destruct I|]. cbn [run]. destruct (dashes l) eqn:E; [now exists (inl s)|].
  destruct (Hb l s (HQ l (or_introl eq_refl)) HP) as ([s'|e] & -> & H); cbn [obind]; [|now exists (inr e)]. apply IH; auto; [intros; apply HQ; now right|].
  destruct I as [->|I]; [apply dashes_iff in D; congruence|now exists x].
Qed.
Lemma run_rows rs l rest s : dashed l -> (forall r, In r rs -> ~ dashed r) -> run (rs ++ l :: rest) s = run (rs ++ [l]) s.
Proof.
  intros D. revert s. induction rs as [|r rs IH]; intros s H; cbn [app run].
  - apply dashes_iff in D. now rewrite D.
  - destruct (dashes r); [reflexivity|]. destruct (body r s) as [[s'|e]| | |]; cbn [obind]; try reflexivity. apply IH. intros x I. apply H. now right.
Qed.
End Run.
Lemma line_at_reads t : reads t (line_at t). Proof. intros i l H. unfold line_at. now rewrite H. Qed.
Lemma line_at_out t k : length t <= k -> line_at t k = UB. Proof. intro H. apply nth_error_None in H. unfold line_at. now rewrite H. Qed.

Fixpoint wl (ls : list str) : outcome (option Z) :=
  match ls with
  | [] => UB
  | l :: ls' => if dashes l then Ok None else
    match split_sep l space with
    | value :: name :: _ => if is_txt name "writeLog" then Ok (Some (atoi value)) else wl ls'
    | _ => wl ls'
    end
  end.
Lemma find_writeLog_wl (t : list str) get : reads t get -> forall fuel i, length t - i < fuel ->
  (forall k, length t <= k -> get k = UB) \/ (exists j l, i <= j /\ nth_error t j = Some l /\ dashed l) ->
  find_writeLog get (length t) fuel i = wl (skipn i t).
Proof.
  intro Hg. induction fuel as [|fuel IH]; intros i Hf Hc; [lia|]. cbn [find_writeLog]. destruct (nth_error t i) as [l|] eqn:E.
  - rewrite (Hg _ _ E), (skipn_nth _ _ _ E). cbn [obind wl]. destruct (dashes l) eqn:D; [reflexivity|].
    assert (L : i < length t) by (apply nth_error_Some; congruence). assert (X : i <? length t = true) by now apply Nat.ltb_lt. rewrite X.
    assert (IHi : find_writeLog get (length t) fuel (S i) = wl (skipn (S i) t)).
    { apply IH; [lia|]. destruct Hc as [Hc|(j & m & Lj & Hj & Dj)]; [now left|]. right. exists j, m. split; [|now split].
      destruct (Nat.eq_dec i j) as [<-|]; [|lia]. rewrite E in Hj. injection Hj as <-. apply dashes_iff in Dj. congruence. }
    destruct (split_sep l space) as [|v [|nm ?]]; try exact IHi. destruct (is_txt nm "writeLog"); [reflexivity|exact IHi].
  - assert (L : length t <= i) by now apply nth_error_None. destruct Hc as [Hc|(j & m & Lj & Hj & Dj)].
    + rewrite (Hc i L). now rewrite skipn_all2.
    + assert (j < length t) by (apply nth_error_Some; congruence). lia.
Qed.
Lemma wl_rows rs l rest : dashed l -> (forall r, In r rs -> ~ dashed r) -> wl (rs ++ l :: rest) = wl (rs ++ [l]).
Proof.
  intros D. induction rs as [|r rs IH]; intros H; cbn [app wl].
  - apply dashes_iff in D. now rewrite D.
  - destruct (dashes r); [reflexivity|]. assert (X : wl (rs ++ l :: rest) = wl (rs ++ [l])) by (apply IH; intros x I; apply H; now right). rewrite X. reflexivity.
Qed.
Lemma wl_good ls : (exists l, In l ls /\ dashed l) -> exists w, wl ls = Ok w.
Proof.
  induction ls as [|l ls IH]; intros (x & I & D); [destruct I|]. cbn [wl]. destruct (dashes l) eqn:E; [eauto|].
  assert (X : exists w, wl ls = Ok w). { apply IH. destruct I as [->|I]; [apply dashes_iff in D; congruence|now exists x]. }
  destruct (split_sep l space) as [|v [|nm ?]]; auto. destruct (is_txt nm "writeLog"); eauto.
Qed.

(** ReadInFile as a function of the lines after each header *)
Definition from (t : list str) (keys : list string) (skip : nat) : option (list str) :=
  match find_start t keys skip with Some i => Some (skipn i t) | None => None end.
Definition sec {S0} (o : option (list str)) (body : str -> S0 -> outcome (S0 + Z)) (s : S0) : outcome (S0 + Z) :=
  match o with Some ls => run body ls s | None => Ok (inl s) end.
Section Reading.
Variable atof : str -> R.
Variable stof : str -> option R.
Variable stold : str -> stold_res.
Variable opened : str -> option str.
Variable basepath : str.
Variable can_create : nat -> Z -> bool.
Variable setup_log : Z -> Z.
Variable floor_setup : str -> outcome unit.
Notation row_option' := (row_option atof stof floor_setup).
Notation row_line_props' := (row_line_props atof stold opened basepath).
Notation row_rod_props' := (row_rod_props atof).
Notation row_body' := (row_body atof can_create).
Notation row_point' := (row_point atof).
Notation row_rod' := (row_rod atof can_create).
Notation row_line' := (row_line atof can_create).
Notation row_fail' := (row_fail atof).
Definition read_run (f : list string -> nat -> option (list str)) : outcome (sys + Z) :=
  w <- match f ["OPTIONS"]%string 1 with Some ls => wl ls | None => Ok None end ;;
  let err := match w with Some v => setup_log v | None => MOORDYN_SUCCESS end in
  if negb (err =? MOORDYN_SUCCESS)%Z then Ok (inr err) else
  rbind (sec (f ["OPTIONS"]%string 1) row_option' no_sys) (fun s =>
  rbind (sec (f ["LINE DICTIONARY"; "LINE TYPES"]%string 3) row_line_props' s) (fun s =>
  rbind (sec (f ["ROD DICTIONARY"; "ROD TYPES"]%string 3) row_rod_props' s) (fun s =>
  rbind (sec (f ["BODIES"; "BODY LIST"; "BODY PROPERTIES"]%string 3) row_body' s) (fun s =>
  rbind (sec (f ["POINTS"; "POINT LIST"; "POINT PROPERTIES"; "CONNECTION PROPERTIES"; "NODE PROPERTIES"]%string 3) row_point' s) (fun s =>
  rbind (sec (f ["RODS"; "ROD LIST"; "ROD PROPERTIES"]%string 3) row_rod' s) (fun s =>
  rbind (match f ["LINES"; "LINE LIST"; "LINE PROPERTIES"]%string 3, s_lprops s with
         | Some _, [] => Ok (inr MOORDYN_INVALID_INPUT)
         | o, _ => sec o row_line' s end) (fun s =>
  rbind (sec (f ["FAILURE"]%string 3) row_fail' s) (fun s =>
  rbind (sec (f ["OUTPUT"]%string 1) row_output s) check_rods)))))))).
Notation read_with' := (read_with atof stof stold opened basepath can_create setup_log floor_setup).
Notation read_file' := (read_file atof stof stold opened basepath can_create setup_log floor_setup).
Lemma rbind_ext {A B} (r r' : outcome (A + Z)) (f g : A -> outcome (B + Z)) : r = r' -> (forall a, f a = g a) -> rbind r f = rbind r' g.
Proof. intros <- H. unfold rbind. destruct r as [[a|e]| | |]; cbn [obind]; auto. Qed.
Definition fine (t : list str) (get : nat -> outcome str) := (forall k, length t <= k -> get k = UB) \/ all_closed t.
Lemma fine_at t get keys skip i : In (keys, skip) all_sections -> fine t get -> find_start t keys skip = Some i ->
  (forall k, length t <= k -> get k = UB) \/ (exists j l, i <= j /\ nth_error t j = Some l /\ dashed l).
Proof.
  intros I [F|F] E; [now left|right]. apply find_start_iff in E as (j & H & ->). exact (F _ _ I j H).
Qed.
Lemma section_sec {S0} (body : str -> S0 -> outcome (S0 + Z)) t get keys skip s : In (keys, skip) all_sections -> reads t get -> fine t get ->
  section get t keys skip body s = sec (from t keys skip) body s.
Proof.
  intros I Hg F. unfold section, from. destruct (find_start t keys skip) as [i|] eqn:E; [|reflexivity]. cbn [sec].
  apply rows_run; [exact Hg|lia|]. now apply (fine_at _ _ _ _ _ I F).
Qed.
Ltac insec := cbn [all_sections In]; repeat (first [left; reflexivity | right]).
Lemma read_with_run t get : reads t get -> fine t get -> read_with' get t = read_run (from t).
Proof.
  intros Hg F. unfold read_with, read_run.
  assert (W : match find_start t ["OPTIONS"%string] 1 with Some i => find_writeLog get (length t) (S (S (length t))) i | None => Ok None end
            = match from t ["OPTIONS"%string] 1 with Some ls => wl ls | None => Ok None end).
  { unfold from. destruct (find_start t ["OPTIONS"%string] 1) as [i|] eqn:E; [|reflexivity]. apply find_writeLog_wl; [exact Hg|lia|]. refine (fine_at _ _ _ _ _ _ F E). insec. }
  rewrite W. destruct (match from t ["OPTIONS"%string] 1 with Some ls => wl ls | None => Ok None end) as [w| | |]; cbn [obind]; try reflexivity.
  destruct (negb _); [reflexivity|].
  apply rbind_ext; [apply section_sec; [insec|exact Hg|exact F]|]. intro s1.
  apply rbind_ext; [apply section_sec; [insec|exact Hg|exact F]|]. intro s2.
  apply rbind_ext; [apply section_sec; [insec|exact Hg|exact F]|]. intro s3.
  apply rbind_ext; [apply section_sec; [insec|exact Hg|exact F]|]. intro s4.
  apply rbind_ext; [apply section_sec; [insec|exact Hg|exact F]|]. intro s5.
  apply rbind_ext; [apply section_sec; [insec|exact Hg|exact F]|]. intro s6.
  apply rbind_ext.
  { assert (X : section get t ["LINES"; "LINE LIST"; "LINE PROPERTIES"]%string 3 row_line' s6 = sec (from t ["LINES"; "LINE LIST"; "LINE PROPERTIES"]%string 3) row_line' s6)
      by (apply section_sec; [insec|exact Hg|exact F]).
    rewrite X. unfold from. destruct (find_start t ["LINES"; "LINE LIST"; "LINE PROPERTIES"]%string 3); [|destruct (s_lprops s6); reflexivity]. destruct (s_lprops s6); reflexivity. }
  intro s7. apply rbind_ext; [apply section_sec; [insec|exact Hg|exact F]|]. intro s8.
  apply rbind_ext; [apply section_sec; [insec|exact Hg|exact F]|]. reflexivity.
Qed.
Lemma read_file_run t : read_file' t = read_run (from t).
Proof. apply read_with_run; [apply line_at_reads|left; apply line_at_out]. Qed.
Lemma closed_inside t get : all_closed t -> reads t get -> read_with' get t = read_file' t.
Proof. intros C Hg. rewrite read_file_run. apply read_with_run; [exact Hg|now right]. Qed.

(** the options reach the end of the file *)
Lemma wl_open ls : (forall l, In l ls -> ~ dashed l) -> (forall l v n r, In l ls -> split_sep l space = v :: n :: r -> n <> tx "writeLog") -> wl ls = UB.
Proof.
  induction ls as [|l ls IH]; intros D W; [reflexivity|]. cbn [wl]. destruct (dashes l) eqn:E; [apply dashes_iff in E; exfalso; exact (D l (or_introl eq_refl) E)|].
  assert (X : wl ls = UB) by (apply IH; intros; [apply D; now right|apply (W l0 v n r); [now right|assumption]]).
  destruct (split_sep l space) as [|v [|nm r]] eqn:S; try exact X. unfold is_txt. destruct (str_eqb nm (tx "writeLog")) eqn:Q; [|exact X]. exfalso.
  apply (W l v nm r (or_introl eq_refl) S). clear - Q. revert Q. generalize (tx "writeLog"). induction nm as [|a nm IH]; intros [|b u]; cbn [str_eqb]; try discriminate; [reflexivity|].
  intro H. apply andb_true_iff in H as [E H]. apply Ascii.eqb_eq in E. subst. f_equal. now apply IH.
Qed.
Lemma open_options_ub t i : header_at t ["OPTIONS"%string] i -> (forall l, In l (skipn (i + 1) t) -> ~ dashed l) ->
  (forall l v n r, In l (skipn (i + 1) t) -> split_sep l space = v :: n :: r -> n <> tx "writeLog") -> read_file' t = UB.
Proof.
  intros H D W. rewrite read_file_run. unfold read_run. assert (E : from t ["OPTIONS"%string] 1 = Some (skipn (i + 1) t)).
  { unfold from. assert (X : find_start t ["OPTIONS"%string] 1 = Some (i + 1)) by (apply find_start_iff; now exists i). now rewrite X. }
  rewrite E, (wl_open _ D W). reflexivity.
Qed.

(** only the rows of the sections matter *)
Lemma same_rows_sec {S0} (body : str -> S0 -> outcome (S0 + Z)) t u keys skip s rs :
  rows_are t keys skip rs -> rows_are u keys skip rs -> sec (from t keys skip) body s = sec (from u keys skip) body s.
Proof.
  intros (i & l & rest & H & E & D & N) (i' & l' & rest' & H' & E' & D' & N').
  assert (F : from t keys skip = Some (rs ++ l :: rest)) by (unfold from; assert (X : find_start t keys skip = Some (i + skip)) by (apply find_start_iff; now exists i); now rewrite X, E).
  assert (F' : from u keys skip = Some (rs ++ l' :: rest')) by (unfold from; assert (X : find_start u keys skip = Some (i' + skip)) by (apply find_start_iff; now exists i'); now rewrite X, E').
  rewrite F, F'. cbn [sec]. rewrite (run_rows _ _ _ rest) by assumption. rewrite (run_rows _ _ _ rest') by assumption.
  clear - D D'. revert s. induction rs as [|r rs IH]; intro s; cbn [app run].
  - apply dashes_iff in D. apply dashes_iff in D'. now rewrite D, D'.
  - destruct (dashes r); [reflexivity|]. destruct (body r s) as [[s'|e]| | |]; cbn [obind]; auto.
Qed.
Lemma same_sec {S0} (body : str -> S0 -> outcome (S0 + Z)) t u keys skip s : same_section t u keys skip -> sec (from t keys skip) body s = sec (from u keys skip) body s.
Proof.
  intros [(rs & A & B)|[A B]]; [exact (same_rows_sec body t u keys skip s rs A B)|]. unfold from.
  apply (find_start_none _ _ skip) in A. apply (find_start_none _ _ skip) in B. now rewrite A, B.
Qed.
Lemma same_wl t u keys skip : same_section t u keys skip ->
  match from t keys skip with Some ls => wl ls | None => Ok None end = match from u keys skip with Some ls => wl ls | None => Ok None end.
Proof.
  intros [(rs & (i & l & rest & H & E & D & N) & (i' & l' & rest' & H' & E' & D' & N'))|[A B]].
  2:{ unfold from. apply (find_start_none _ _ skip) in A. apply (find_start_none _ _ skip) in B. now rewrite A, B. }
  assert (F : from t keys skip = Some (rs ++ l :: rest)) by (unfold from; assert (X : find_start t keys skip = Some (i + skip)) by (apply find_start_iff; now exists i); now rewrite X, E).
  assert (F' : from u keys skip = Some (rs ++ l' :: rest')) by (unfold from; assert (X : find_start u keys skip = Some (i' + skip)) by (apply find_start_iff; now exists i'); now rewrite X, E').
  rewrite F, F'. rewrite (wl_rows _ _ rest) by assumption. rewrite (wl_rows _ _ rest') by assumption. clear - D D'. induction rs as [|r rs IH]; cbn [app wl].
  - apply dashes_iff in D. apply dashes_iff in D'. now rewrite D, D'.
  - rewrite IH. reflexivity.
Qed.
Lemma same_from t u keys skip : same_section t u keys skip -> match from t keys skip, from u keys skip with Some _, Some _ | None, None => True | _, _ => False end.
Proof.
  intros [(rs & (i & l & rest & H & E & D & N) & (i' & l' & rest' & H' & E' & D' & N'))|[A B]]; unfold from.
  - assert (X : find_start t keys skip = Some (i + skip)) by (apply find_start_iff; now exists i). assert (Y : find_start u keys skip = Some (i' + skip)) by (apply find_start_iff; now exists i').
    rewrite X, Y. exact I.
  - apply (find_start_none _ _ skip) in A. apply (find_start_none _ _ skip) in B. rewrite A, B. exact I.
Qed.
Lemma same_sections t u : (forall keys skip, In (keys, skip) all_sections -> same_section t u keys skip) -> read_file' t = read_file' u.
Proof.
  intro H. rewrite !read_file_run. unfold read_run. rewrite (same_wl t u) by (apply H; insec).
  destruct (match from u ["OPTIONS"%string] 1 with Some ls => wl ls | None => Ok None end) as [w| | |]; cbn [obind]; try reflexivity. destruct (negb _); [reflexivity|].
  apply rbind_ext; [apply same_sec, H; insec|]. intro s1.
  apply rbind_ext; [apply same_sec, H; insec|]. intro s2.
  apply rbind_ext; [apply same_sec, H; insec|]. intro s3.
  apply rbind_ext; [apply same_sec, H; insec|]. intro s4.
  apply rbind_ext; [apply same_sec, H; insec|]. intro s5.
  apply rbind_ext; [apply same_sec, H; insec|]. intro s6.
  apply rbind_ext.
  { assert (X : same_section t u ["LINES"; "LINE LIST"; "LINE PROPERTIES"]%string 3) by (apply H; insec). pose proof (same_from _ _ _ _ X) as Y. pose proof (same_sec row_line' _ _ _ _ s6 X) as Z.
    destruct (from t ["LINES"; "LINE LIST"; "LINE PROPERTIES"]%string 3), (from u ["LINES"; "LINE LIST"; "LINE PROPERTIES"]%string 3); try contradiction; destruct (s_lprops s6); auto. }
  intro s7. apply rbind_ext; [apply same_sec, H; insec|]. intro s8. apply rbind_ext; [apply same_sec, H; insec|]. reflexivity.
Qed.
End Reading.
