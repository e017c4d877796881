(** The file of wave frequencies: proofs. *)
From Coq Require Import String Ascii List Arith Reals Lra Lia.
From Verif Require Import MErr MStr PStr MStateOps MInterp MCur MFreq SFreq.
Import ListNotations.
Open Scope R_scope.

Lemma writes_split line words : writes line words -> split line = words.
Proof. intros (_ & _ & lead & ws & W & T & -> & ->). apply split_spaces; assumption. Qed.
Lemma writes_rtrim line words : writes line words -> rtrim line = line.
Proof. intros (_ & H & _). exact H. Qed.

Section Freq.
Variable stod : str -> outcome R.
Hypothesis total : forall w, (exists x, stod w = Ok x) \/ no_number stod w.

Lemma line_ok line words k : split line = words -> describes stod words k -> spectrum_line stod line = Ok k.
Proof.
  intros E D. unfold spectrum_line. rewrite E. pose proof PI_RGT_0. destruct D as [a b c w re im A B C|a b c d w re im dir A B C D L]; cbn -[Rlt_dec]; rewrite A; cbn -[Rlt_dec]; rewrite B; cbn -[Rlt_dec]; rewrite C; cbn -[Rlt_dec].
  - destruct (Rlt_dec (2 * PI) 0); [lra|]. destruct (Rlt_dec 0 (- (2 * PI))); [lra|]. reflexivity.
  - rewrite D. cbn -[Rlt_dec]. destruct (Rlt_dec (2 * PI) dir); [lra|]. destruct (Rlt_dec dir (- (2 * PI))); [lra|]. reflexivity.
Qed.
Lemma stod_cases w : (exists x, stod w = Ok x) \/ (exists e, stod w = Throw e).
Proof. exact (total w). Qed.
Ltac ex w := let x := fresh "x" in let e := fresh "e" in let E := fresh "E" in destruct (stod_cases w) as [[x E]|[e E]]; rewrite ?E; cbn -[Rlt_dec Nat.eqb].
Lemma line_total line : (exists k, spectrum_line stod line = Ok k) \/ spectrum_line stod line = Throw ExInputFile.
Proof.
  unfold spectrum_line. destruct (split line) as [|a [|b [|c l]]]; try (right; reflexivity). cbn [length Nat.ltb Nat.leb]. cbn -[Rlt_dec Nat.eqb].
  ex a; [|right; reflexivity]. ex b; [|right; reflexivity]. ex c; [|right; reflexivity].
  destruct (Nat.eqb _ 4) eqn:N; cbn -[Rlt_dec].
  - destruct l as [|d l]; [discriminate N|]. cbn -[Rlt_dec]. ex d; [|right; reflexivity]. destruct (Rlt_dec (2 * PI) _); [right; reflexivity|]. destruct (Rlt_dec _ (- (2 * PI))); [right; reflexivity|]. left. eexists. reflexivity.
  - destruct (Rlt_dec (2 * PI) 0); [right; reflexivity|]. destruct (Rlt_dec 0 (- (2 * PI))); [right; reflexivity|]. left. eexists. reflexivity.
Qed.
Lemma line_wrong line words : split line = words -> wrong stod words -> spectrum_line stod line = Throw ExInputFile.
Proof.
  intros E W. unfold spectrum_line. rewrite E. destruct W as [l F|l i w Hi Hw [e N]|a b c d [e N]|a b c d dir D L].
  - destruct (Nat.ltb_spec (length l) 3); [reflexivity|lia].
  - destruct l as [|a [|b [|c l]]]; try reflexivity. cbn [length Nat.ltb Nat.leb]. cbn -[Rlt_dec Nat.eqb].
    destruct i as [|[|[|i]]]; [| | |lia]; cbn in Hw; injection Hw as ->.
    + rewrite N. reflexivity.
    + ex a; [|reflexivity]. rewrite N. reflexivity.
    + ex a; [|reflexivity]. ex b; [|reflexivity]. rewrite N. reflexivity.
  - cbn -[Rlt_dec]. ex a; [|reflexivity]. ex b; [|reflexivity]. ex c; [|reflexivity]. rewrite N. reflexivity.
  - cbn -[Rlt_dec]. ex a; [|reflexivity]. ex b; [|reflexivity]. ex c; [|reflexivity]. rewrite D. cbn -[Rlt_dec]. destruct (Rlt_dec (2 * PI) dir); [reflexivity|]. destruct (Rlt_dec dir (- (2 * PI))); [reflexivity|]. lra.
Qed.
Lemma each_total lines : (exists ks, oeach (spectrum_line stod) lines = Ok ks /\ length ks = length lines) \/ oeach (spectrum_line stod) lines = Throw ExInputFile.
Proof.
  induction lines as [|l lines IH]; [left; exists []; split; reflexivity|]. cbn. destruct (line_total l) as [[k ->]| ->]; cbn; [|right; reflexivity].
  destruct IH as [(ks & -> & L)| ->]; cbn; [left; eexists; split; [reflexivity|cbn; lia]|right; reflexivity].
Qed.
Lemma each_wrong lines l : In l lines -> spectrum_line stod l = Throw ExInputFile -> oeach (spectrum_line stod) lines = Throw ExInputFile.
Proof.
  intros Hi Hl. induction lines as [|x lines IH]; [contradiction|]. cbn. destruct Hi as [->|Hi]; [rewrite Hl; reflexivity|].
  destruct (line_total x) as [[k ->]| ->]; cbn; [|reflexivity]. rewrite (IH Hi). reflexivity.
Qed.
Lemma each_ok lines ks : Forall2 (fun l k => exists words, writes l words /\ describes stod words k) lines ks -> oeach (spectrum_line stod) lines = Ok ks.
Proof.
  induction 1 as [|l k lines ks (words & W & D) _ IH]; [reflexivity|]. cbn. rewrite (line_ok l words k (writes_split _ _ W) D). cbn. rewrite IH. reflexivity.
Qed.
Lemma text_lines eol lines : eol = [newline] \/ eol = [cr; newline] -> (forall l, In l lines -> exists words, writes l words) -> file_to_lines (file_of eol lines) = lines.
Proof.
  intros E W. assert (N : forall l, In l lines -> ~ In newline l) by (intros l Hl; destruct (W l Hl) as (? & H & _); exact H).
  assert (F : file_to_lines (file_of eol lines) = map rtrim lines) by (destruct E as [->| ->]; [apply file_to_lines_lf|apply file_to_lines_crlf]; exact N).
  rewrite F. rewrite <- (map_id lines) at 2. apply map_ext_in. intros l Hl. destruct (W l Hl) as (words & H). exact (writes_rtrim l words H).
Qed.
Lemma file_components eol lines ks : eol = [newline] \/ eol = [cr; newline] -> (2 <= length lines)%nat ->
  Forall2 (fun l k => exists words, writes l words /\ describes stod words k) lines ks ->
  spectrum_from_file stod (Some (file_of eol lines)) = Ok ks /\
  wave_components stod (Some (file_of eol lines)) = match ks with k :: _ => if Req_EM_T (k_omega k) 0 then Ok ks else Throw ExInvalidValue | [] => UB end.
Proof.
  intros E N F. assert (L : file_to_lines (file_of eol lines) = lines).
  { apply text_lines; [exact E|]. intros l Hl. clear N. induction F as [|x k xs ks (words & W & _) _ IH]; [contradiction|]. destruct Hl as [->|Hl]; [exists words; exact W|exact (IH Hl)]. }
  assert (S : spectrum_from_file stod (Some (file_of eol lines)) = Ok ks).
  { cbn. rewrite L. destruct lines as [|x [|y lines]]; [cbn in N; lia|cbn in N; lia|]. exact (each_ok _ _ F). }
  split; [exact S|]. unfold wave_components. rewrite S. cbn. destruct ks as [|k ks]; reflexivity.
Qed.
Lemma file_wrong eol lines l words : eol = [newline] \/ eol = [cr; newline] -> (forall l, In l lines -> exists words, writes l words) -> In l lines -> writes l words -> wrong stod words ->
  wave_components stod (Some (file_of eol lines)) = Throw ExInputFile.
Proof.
  intros E W Hi Hl Hw. unfold wave_components, spectrum_from_file. rewrite (text_lines eol lines E W). cbv zeta.
  destruct (Nat.ltb (length lines) 2); [reflexivity|]. rewrite (each_wrong lines l Hi (line_wrong l words (writes_split _ _ Hl) Hw)). reflexivity.
Qed.
Lemma file_total contents : (exists ks, wave_components stod contents = Ok ks /\ (2 <= length ks)%nat) \/ wave_components stod contents = Throw ExInputFile \/ wave_components stod contents = Throw ExInvalidValue.
Proof.
  unfold wave_components, spectrum_from_file. destruct contents as [text|]; [|right; left; reflexivity]. cbv zeta. destruct (Nat.ltb_spec (length (file_to_lines text)) 2) as [_|L]; [right; left; reflexivity|].
  destruct (each_total (file_to_lines text)) as [(ks & -> & N)| ->]; [|right; left; reflexivity]. cbn. destruct ks as [|k ks]; [cbn in N; lia|]. cbn. destruct (Req_EM_T _ 0); [left; eexists; split; [reflexivity|cbn in *; lia]|right; right; reflexivity].
Qed.
End Freq.
Lemma fifth stod line a b c d e rest w re im : writes line (a :: b :: c :: d :: e :: rest) -> stod a = Ok w -> stod b = Ok re -> stod c = Ok im -> spectrum_line stod line = Ok (Component w re im 0).
Proof.
  intros W A B C. unfold spectrum_line. rewrite (writes_split _ _ W). cbn -[Rlt_dec]. rewrite A. cbn -[Rlt_dec]. rewrite B. cbn -[Rlt_dec]. rewrite C. cbn -[Rlt_dec]. pose proof PI_RGT_0.
  destruct (Rlt_dec (2 * PI) 0); [lra|]. destruct (Rlt_dec 0 (- (2 * PI))); [lra|]. reflexivity.
Qed.
