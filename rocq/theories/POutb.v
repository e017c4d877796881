(** Proofs about the output files: who writes the heads, and the rows of many outputs. *)
From Coq Require Import String Ascii List Arith Bool Reals Lia.
From Verif Require Import MErr MStr MVec MStateOps MOut SOut POut.
Import ListNotations.
Local Open Scope nat_scope.

(** calls for an object *)
Definition is_rod (k : nat) (c : call) : bool := match c with InitRod j => j =? k | _ => false end.
Definition is_line (k : nat) (c : call) : bool := match c with InitLine j => j =? k | _ => false end.
Definition is_body (k : nat) (c : call) : bool := match c with InitBody j => j =? k | _ => false end.
Definition cnt (p : call -> bool) (cs : list call) : nat := length (filter p cs).
Lemma cnt_app p a b : cnt p (a ++ b) = cnt p a + cnt p b.
Proof. unfold cnt. now rewrite filter_app, app_length. Qed.
Lemma cnt_cons p c a : cnt p (c :: a) = (if p c then 1 else 0) + cnt p a.
Proof. unfold cnt. cbn. destruct (p c); reflexivity. Qed.
Lemma cnt_map_rod q k l : cnt (is_rod k) (map InitRod (filter q l)) = if q k then count_occ Nat.eq_dec l k else 0.
Proof.
  induction l as [|a l IH]; [cbn; now destruct (q k)|]. cbn [filter count_occ]. destruct (Nat.eq_dec a k) as [->|Hn].
  - destruct (q k) eqn:E; [|exact IH]. cbn [map]. rewrite cnt_cons. cbn [is_rod]. rewrite Nat.eqb_refl, IH. reflexivity.
  - destruct (q a); [|exact IH]. cbn [map]. rewrite cnt_cons. cbn [is_rod]. rewrite (proj2 (Nat.eqb_neq a k) Hn), IH. reflexivity.
Qed.
Lemma cnt_map_line k l : cnt (is_line k) (map InitLine l) = count_occ Nat.eq_dec l k.
Proof.
  induction l as [|a l IH]; [reflexivity|]. cbn [map count_occ]. rewrite cnt_cons, IH. cbn [is_line]. destruct (Nat.eq_dec a k) as [->|Hn]; [now rewrite Nat.eqb_refl|]. now rewrite (proj2 (Nat.eqb_neq a k) Hn).
Qed.
Lemma cnt_none p cs : (forall c, In c cs -> p c = false) -> cnt p cs = 0.
Proof. intro H. induction cs as [|c cs IH]; [reflexivity|]. rewrite cnt_cons, (H c) by now left. apply IH. intros; apply H; now right. Qed.
Lemma cnt_fixed m k att : cnt (is_rod k) (fixed_rods m att) = if rty_eqb (rtype m k) RFixed then count_occ Nat.eq_dec att k else 0.
Proof. unfold fixed_rods. apply (cnt_map_rod (fun k => rty_eqb (rtype m k) RFixed)). Qed.
Lemma seq_count k a n : count_occ Nat.eq_dec (seq a n) k = if (a <=? k) && (k <? a + n) then 1 else 0.
Proof.
  revert a; induction n as [|n IH]; intro a; cbn [seq count_occ].
  - destruct (a <=? k) eqn:E; cbn [andb]; [|reflexivity]. apply Nat.leb_le in E. now rewrite (proj2 (Nat.ltb_ge k (a + 0))) by lia.
  - rewrite IH. destruct (Nat.eq_dec a k) as [->|Hn].
    + rewrite (proj2 (Nat.leb_gt (S k) k)) by lia. rewrite Nat.leb_refl, (proj2 (Nat.ltb_lt k (k + S n))) by lia. reflexivity.
    + destruct (a <=? k) eqn:E; [apply Nat.leb_le in E; rewrite (proj2 (Nat.leb_le (S a) k)) by lia | apply Nat.leb_gt in E; rewrite (proj2 (Nat.leb_gt (S a) k)) by lia; reflexivity].
      cbn [andb]. now replace (S a + n) with (a + S n) by lia.
Qed.
Lemma rod_inits m nl k : hosted m -> k < length (m_rods m) -> cnt (is_rod k) (init_calls m nl) = 1.
Proof.
  intros HH Hk. unfold init_calls, unfree, scheme_init. rewrite !cnt_app.
  rewrite (cnt_map_rod (fun k => rty_eqb (rtype m k) RCoupled || rty_eqb (rtype m k) RCpldPin)), (cnt_map_rod (fun k => rty_eqb (rtype m k) RFree || rty_eqb (rtype m k) RPinned)), !seq_count, cnt_fixed.
  rewrite (cnt_none (is_rod k) (map InitLine _)) by (intros c Hc; apply in_map_iff in Hc as (x & <- & _); reflexivity).
  assert (H0 : (0 <=? k) && (k <? 0 + length (m_rods m)) = true) by (cbn; now apply Nat.ltb_lt). rewrite H0.
  assert (B : forall l a, cnt (is_rod k) (flat_map (fun b => if bty_eqb (fst b) BFixed then fixed_rods m (snd b) else []) l) +
      cnt (is_rod k) (flat_map (fun b => if bty_eqb (fst b) BCoupled || bty_eqb (fst b) BCpldPin then fixed_rods m (snd b) else []) l) +
      cnt (is_rod k) (concat (map (fun p => init_body m (fst p) (snd p)) (combine (seq a (length l)) l))) =
      if rty_eqb (rtype m k) RFixed then count_occ Nat.eq_dec (concat (map snd l)) k else 0).
  { induction l as [|[ty att] l IH]; intro a; [cbn; now destruct (rty_eqb (rtype m k) RFixed)|]. cbn [flat_map length seq combine map concat fst snd]. rewrite !cnt_app, count_occ_app. specialize (IH (S a)).
    unfold init_body at 1. destruct ty; cbn [bty_eqb fst snd orb]; rewrite ?cnt_app, ?cnt_fixed, ?cnt_cons; cbn [is_rod cnt filter length]; destruct (rty_eqb (rtype m k) RFixed); lia. }
  specialize (B (m_bodies m) 0). specialize (HH k Hk). destruct (rtype m k) eqn:E; cbn [rty_eqb orb] in *; [lia..|].
  specialize (HH eq_refl). rewrite count_occ_app in HH. lia.
Qed.
Lemma line_inits m nl k : k < nl -> cnt (is_line k) (init_calls m nl) = 1.
Proof.
  intro Hk. unfold init_calls, scheme_init. rewrite !cnt_app, cnt_map_line, seq_count.
  assert (F : forall att, forall c, In c (fixed_rods m att) -> is_line k c = false) by (intros att c Hc; apply in_map_iff in Hc as (x & <- & _); reflexivity).
  rewrite (cnt_none _ (unfree m)).
  2:{ unfold unfree. intros c Hc. rewrite !in_app_iff in Hc. destruct Hc as [Hc|[Hc|[Hc|Hc]]]; [eapply F, Hc| | |apply in_map_iff in Hc as (x & <- & _); reflexivity];
      apply in_flat_map in Hc as (b & _ & Hc); destruct b as [[] att]; cbn in Hc; try easy; eapply F, Hc. }
  rewrite (cnt_none _ (concat _)).
  2:{ intros c Hc. apply in_concat in Hc as (l & Hl & Hc). apply in_map_iff in Hl as (p & <- & _). unfold init_body in Hc. destruct p as [j [[] att]]; cbn in Hc; try easy.
      - apply in_app_iff in Hc as [Hc|Hc]; [eapply F, Hc|]. destruct Hc as [<-|[]]; reflexivity.
      - destruct Hc as [<-|[]]; reflexivity. }
  rewrite (cnt_none _ (map InitRod _)) by (intros c Hc; apply in_map_iff in Hc as (x & <- & _); reflexivity).
  change (0 + nl) with nl. rewrite (proj2 (Nat.ltb_lt k nl)) by exact Hk. reflexivity.
Qed.
Lemma body_inits m nl k b : nth_error (m_bodies m) k = Some b -> cnt (is_body k) (init_calls m nl) = match fst b with BFree | BCpldPin => 1 | _ => 0 end.
Proof.
  intro Hb. unfold init_calls, scheme_init. rewrite !cnt_app.
  assert (F : forall att, cnt (is_body k) (fixed_rods m att) = 0) by (intro att; apply cnt_none; intros c Hc; apply in_map_iff in Hc as (x & <- & _); reflexivity).
  assert (M : forall l, cnt (is_body k) (map InitRod l) = 0) by (intro att; apply cnt_none; intros c Hc; apply in_map_iff in Hc as (x & <- & _); reflexivity).
  rewrite M. rewrite (cnt_none _ (map InitLine _)) by (intros c Hc; apply in_map_iff in Hc as (x & <- & _); reflexivity).
  assert (U : cnt (is_body k) (unfree m) = 0).
  { apply cnt_none. unfold unfree. intros c Hc. rewrite !in_app_iff in Hc.
    assert (F' : forall att, forall c, In c (fixed_rods m att) -> is_body k c = false) by (intros att x Hx; apply in_map_iff in Hx as (y & <- & _); reflexivity).
    destruct Hc as [Hc|[Hc|[Hc|Hc]]]; [eapply F', Hc| | |apply in_map_iff in Hc as (x & <- & _); reflexivity];
      apply in_flat_map in Hc as (z & _ & Hc); destruct z as [[] att]; cbn in Hc; try easy; eapply F', Hc. }
  rewrite U. cbn [Nat.add]. rewrite !Nat.add_0_r.
  assert (B : forall l a j, nth_error l j = Some b -> cnt (is_body (a + j)) (concat (map (fun p => init_body m (fst p) (snd p)) (combine (seq a (length l)) l))) = match fst b with BFree | BCpldPin => 1 | _ => 0 end).
  { assert (F2 : forall i att, cnt (is_body i) (fixed_rods m att) = 0) by (intros i att; apply cnt_none; intros c Hc; apply in_map_iff in Hc as (x & <- & _); reflexivity).
    assert (L : forall l a i, i < a -> cnt (is_body i) (concat (map (fun p => init_body m (fst p) (snd p)) (combine (seq a (length l)) l))) = 0).
    { induction l as [|[ty att] l IH]; intros a i Hi; [reflexivity|]. cbn [length seq combine map concat fst snd]. rewrite cnt_app, IH by lia. unfold init_body. destruct ty; cbn [bty_eqb fst snd]; rewrite ?cnt_app, ?F2, ?cnt_cons; cbn [is_body]; rewrite ?(proj2 (Nat.eqb_neq a i)) by lia; reflexivity. }
    induction l as [|[ty att] l IH]; intros a j Hj; [destruct j; discriminate|]. cbn [length seq combine map concat fst snd]. rewrite cnt_app. destruct j as [|j].
    - cbn in Hj. injection Hj as <-. rewrite L by lia. rewrite !Nat.add_0_r. unfold init_body. destruct ty; cbn [bty_eqb fst snd]; rewrite ?cnt_app, ?F2, ?cnt_cons; cbn [is_body]; rewrite ?Nat.eqb_refl; reflexivity.
    - cbn in Hj. replace (a + S j) with (S a + j) by lia. rewrite (IH (S a) j Hj). unfold init_body. destruct ty; cbn [bty_eqb fst snd]; rewrite ?cnt_app, ?F2, ?cnt_cons; cbn [is_body]; rewrite ?(proj2 (Nat.eqb_neq a (S a + j))) by lia; reflexivity. }
  exact (B (m_bodies m) 0 k Hb).
Qed.

(** files after the calls *)
Lemma upd_same {A} k (g : A -> A) l : nth_error (upd k g l) k = option_map g (nth_error l k).
Proof. revert l; induction k as [|k IH]; intros [|x l]; cbn; auto. Qed.
Lemma upd_other {A} k j (g : A -> A) l : j <> k -> nth_error (upd j g l) k = nth_error l k.
Proof. revert j l; induction k as [|k IH]; intros [|j] [|x l] H; cbn; auto; try lia. Qed.
Lemma upd_length {A} k (g : A -> A) l : length (upd k g l) = length l.
Proof. revert l; induction k as [|k IH]; intros [|x l]; cbn; auto. Qed.
Lemma iter_shift {A} n (g : A -> A) x : Nat.iter n g (g x) = Nat.iter (S n) g x.
Proof. induction n as [|n IH]; [reflexivity|]. cbn [Nat.iter nat_rect] in *. unfold Nat.iter in *. cbn [nat_rect] in *. now rewrite IH. Qed.
Section F.
Variables (u : bool) (lds rds : list odef).
Let dd := Odef 0 [].
Lemma calls_rods k cs : forall f, nth_error (f_rods (fold_left (fun f c => do_call u lds rds c f) cs f)) k =
  option_map (option_map (fun r => Nat.iter (cnt (is_rod k) cs) (open_rod u (nth k rds dd)) r)) (nth_error (f_rods f) k).
Proof.
  induction cs as [|c cs IH]; intro f; cbn [fold_left]; [cbn; destruct (nth_error (f_rods f) k) as [[r|]|]; reflexivity|]. rewrite IH, cnt_cons. destruct c as [j|j|j]; cbn [do_call f_rods is_rod]; try reflexivity.
  destruct (Nat.eqb_spec j k) as [->|Hn]; [rewrite upd_same|now rewrite upd_other]. destruct (nth_error (f_rods f) k) as [[r|]|]; cbn [option_map]; try reflexivity. rewrite Nat.add_1_l. f_equal. f_equal.
  apply iter_shift.
Qed.
Lemma calls_lines k cs : forall f, nth_error (f_lines (fold_left (fun f c => do_call u lds rds c f) cs f)) k =
  option_map (option_map (fun r => Nat.iter (cnt (is_line k) cs) (fun s => s ++ with_units u (line_header (d_N (nth k lds dd)) (d_ch (nth k lds dd))) (line_units (d_N (nth k lds dd)) (d_ch (nth k lds dd)))) r)) (nth_error (f_lines f) k).
Proof.
  induction cs as [|c cs IH]; intro f; cbn [fold_left]; [cbn; destruct (nth_error (f_lines f) k) as [[r|]|]; reflexivity|]. rewrite IH, cnt_cons. destruct c as [j|j|j]; cbn [do_call f_lines is_line]; try reflexivity.
  destruct (Nat.eqb_spec j k) as [->|Hn]; [rewrite upd_same|now rewrite upd_other]. destruct (nth_error (f_lines f) k) as [[r|]|]; cbn [option_map]; try reflexivity. rewrite Nat.add_1_l. f_equal. f_equal.
  exact (iter_shift _ (fun s => s ++ with_units u (line_header (d_N (nth k lds dd)) (d_ch (nth k lds dd))) (line_units (d_N (nth k lds dd)) (d_ch (nth k lds dd)))) r).
Qed.
Lemma calls_bodies k cs : forall f, nth_error (f_bodies (fold_left (fun f c => do_call u lds rds c f) cs f)) k =
  option_map (fun r => Nat.iter (cnt (is_body k) cs) (fun s => s ++ with_units u body_header body_units) r) (nth_error (f_bodies f) k).
Proof.
  induction cs as [|c cs IH]; intro f; cbn [fold_left]; [cbn; destruct (nth_error (f_bodies f) k) as [r|]; reflexivity|]. rewrite IH, cnt_cons. destruct c as [j|j|j]; cbn [do_call f_bodies is_body]; try reflexivity.
  destruct (Nat.eqb_spec j k) as [->|Hn]; [rewrite upd_same|now rewrite upd_other]. destruct (nth_error (f_bodies f) k) as [r|]; cbn [option_map]; try reflexivity. rewrite Nat.add_1_l. f_equal.
  exact (iter_shift _ (fun s => s ++ with_units u body_header body_units) r).
Qed.
Lemma calls_main cs : forall f, f_main (fold_left (fun f c => do_call u lds rds c f) cs f) = f_main f.
Proof. induction cs as [|c cs IH]; intro f; cbn [fold_left]; [reflexivity|]. rewrite IH. now destruct c. Qed.
Variables (m : moor) (names us : list str).
Let f0 := initialized u lds rds m names us.
Lemma init_line k d : nth_error lds k = Some d -> nth_error (f_lines f0) k =
  Some (if makes_file (d_ch d) then Some (with_units u (line_header (d_N d) (d_ch d)) (line_units (d_N d) (d_ch d))) else None).
Proof.
  intro H. assert (Hk : k < length lds) by (apply nth_error_Some; congruence). unfold f0, initialized. cbn [f_lines]. rewrite calls_lines, line_inits by exact Hk. unfold created. cbn [f_lines].
  rewrite nth_error_map, H. cbn [option_map]. rewrite (nth_error_nth lds k dd H). destruct (makes_file (d_ch d)); reflexivity.
Qed.
Lemma init_rod k d : hosted m -> length (m_rods m) = length rds -> nth_error rds k = Some d -> nth_error (f_rods f0) k =
  Some (if makes_file (d_ch d) then Some (Rfile (Some true) (with_units u (rod_header (d_N d) (d_ch d)) (rod_units (d_N d) (d_ch d)))) else None).
Proof.
  intros HH HL H. assert (Hk : k < length rds) by (apply nth_error_Some; congruence). unfold f0, initialized. cbn [f_rods]. rewrite calls_rods, rod_inits by (congruence || assumption). unfold created. cbn [f_rods].
  rewrite nth_error_map, H. cbn [option_map]. rewrite (nth_error_nth rds k dd H). destruct (makes_file (d_ch d)); reflexivity.
Qed.
Lemma init_bodies k b : nth_error (m_bodies m) k = Some b -> nth_error (f_bodies f0) k = Some (match fst b with BFree | BCpldPin => with_units u body_header body_units | _ => [] end).
Proof.
  intro H. assert (Hk : k < length (m_bodies m)) by (apply nth_error_Some; congruence). unfold f0, initialized. cbn [f_bodies]. rewrite calls_bodies, (body_inits _ _ _ b H). unfold created. cbn [f_bodies].
  match goal with |- option_map _ ?x = _ => replace x with (Some (@nil ascii)) by (symmetry; exact (nth_error_repeat _ Hk)) end. destruct (fst b); reflexivity.
Qed.
Lemma init_main : f_main f0 = with_units u (main_header names) (main_units us).
Proof. unfold f0, initialized. cbn [f_main]. rewrite calls_main. reflexivity. Qed.
Lemma calls_lengths cs : forall f, let f' := fold_left (fun f c => do_call u lds rds c f) cs f in
  length (f_lines f') = length (f_lines f) /\ length (f_rods f') = length (f_rods f) /\ length (f_bodies f') = length (f_bodies f).
Proof.
  induction cs as [|c cs IH]; intro f; cbn [fold_left]; [auto|]. destruct (IH (do_call u lds rds c f)) as (-> & -> & ->). destruct c; cbn [do_call f_lines f_rods f_bodies]; rewrite ?upd_length; auto.
Qed.
Lemma init_lengths : length (f_lines f0) = length lds /\ length (f_rods f0) = length rds /\ length (f_bodies f0) = length (m_bodies m).
Proof.
  unfold f0, initialized. cbn [f_lines f_rods f_bodies]. destruct (calls_lengths (init_calls m (length lds)) (created lds rds (length (m_bodies m)))) as (-> & -> & ->).
  unfold created. cbn [f_lines f_rods f_bodies]. rewrite !map_length, repeat_length. auto.
Qed.

(** the outputs *)
Variable show : R -> str.
Let sized := fits lds rds m names.
Definition ready (f : files) : Prop := length (f_lines f) = length lds /\ length (f_rods f) = length rds /\ length (f_bodies f) = length (m_bodies m) /\
  Forall (fun o => match o with None => True | Some r => opened r = Some true end) (f_rods f).
Lemma map3_nth {A B C D} (g : A -> B -> C -> D) a : forall b c k x y z, nth_error a k = Some x -> nth_error b k = Some y -> nth_error c k = Some z -> nth_error (map3 g a b c) k = Some (g x y z).
Proof. induction a as [|a0 a IH]; intros [|b0 b] [|c0 c] [|k] x y z H1 H2 H3; cbn in *; try discriminate; [congruence|]. now apply IH. Qed.
Lemma map3_length {A B C D} (g : A -> B -> C -> D) a : forall b c, length a = length b -> length a = length c -> length (map3 g a b c) = length a.
Proof. induction a as [|a0 a IH]; intros [|b0 b] [|c0 c] H1 H2; cbn in *; try discriminate; auto. Qed.
Definition rod_after (t : R) (d : odef) (q : rsnap) (o : option rfile) : option rfile :=
  match o with None => None | Some r => Some (Rfile (Some true) (rtext r ++ rod_row show (d_N d) (d_ch d) t q)) end.
Lemma rods_ready t ds : forall qs fs, Forall (fun o => match o with None => True | Some r => opened r = Some true end) fs ->
  oseq (map3 (rod_out show u t) ds qs fs) = Ok (map3 (rod_after t) ds qs fs).
Proof.
  induction ds as [|d ds IH]; intros [|q qs] [|f fs] HF; cbn [map3 oseq]; try reflexivity. inversion HF as [|? ? Hf HF']; subst. rewrite IH by exact HF'. destruct f as [[o tx]|]; cbn in *; [subst o|]; reflexivity.
Qed.
Lemma after_ready t ds : forall qs fs, Forall (fun o => match o with None => True | Some r => opened r = Some true end) (map3 (rod_after t) ds qs fs).
Proof. induction ds as [|d ds IH]; intros [|q qs] [|f fs]; cbn [map3]; constructor; auto. now destruct f. Qed.
Lemma one_output s f xs : ready f -> sized s -> s_vals s = map Ok xs -> exists f', all_output show u lds rds s f = (f', Ok tt) /\ ready f' /\
  f_main f' = f_main f ++ fst (main_row show (s_time s) (s_vals s)) /\ f_lines f' = map3 (line_out show (s_time s)) lds (s_lines s) (f_lines f) /\
  f_rods f' = map3 (rod_after (s_time s)) rds (s_rods s) (f_rods f) /\ f_bodies f' = map (fun p => body_out show (s_time s) (fst p) (snd p)) (combine (s_bodies s) (f_bodies f)).
Proof.
  intros (R1 & R2 & R3 & R4) (S1 & S2 & S3 & S4 & S5) E. assert (M : snd (main_row show (s_time s) (s_vals s)) = Ok tt).
  { rewrite E. unfold main_row. cbn [snd]. clear. induction xs as [|x xs IH]; [reflexivity|]. exact IH. }
  unfold all_output. rewrite M, rods_ready by exact R4. eexists. split; [reflexivity|]. cbn [f_main f_lines f_rods f_bodies]. split; [|auto].
  split; [|split; [|split]]; cbn [f_lines f_rods f_bodies].
  - apply map3_length; congruence.
  - apply map3_length; congruence.
  - rewrite map_length, combine_length. lia.
  - apply after_ready.
Qed.
Lemma vals_ok s : sized s -> exists xs, s_vals s = map Ok xs /\ length xs = length names.
Proof.
  intros (_ & _ & _ & H1 & H2). rewrite <- H1. clear H1. induction H2 as [|v l (x & ->) H IH]; [exists []; auto|]. destruct IH as (xs & -> & HL). exists (x :: xs). cbn. auto.
Qed.
Lemma all_outputs ss : Forall sized ss -> forall f, ready f -> exists f', outputs show u lds rds ss f = (f', Ok tt) /\ ready f' /\
  f_main f' = f_main f ++ concat (map (fun s => fst (main_row show (s_time s) (s_vals s))) ss) /\
  (forall k d t q0, nth_error lds k = Some d -> nth_error (f_lines f) k = Some t ->
     nth_error (f_lines f') k = Some (option_map (fun x => x ++ concat (map (fun s => line_row show (d_N d) (d_ch d) (s_time s) (nth k (s_lines s) q0)) ss)) t)) /\
  (forall k d t q0, nth_error rds k = Some d -> nth_error (f_rods f) k = Some t ->
     option_map (option_map rtext) (nth_error (f_rods f') k) = Some (option_map (fun x => rtext x ++ concat (map (fun s => rod_row show (d_N d) (d_ch d) (s_time s) (nth k (s_rods s) q0)) ss)) t)) /\
  (forall k t q0, nth_error (f_bodies f) k = Some t ->
     nth_error (f_bodies f') k = Some (t ++ concat (map (fun s => body_row show (s_time s) (fst (nth k (s_bodies s) q0)) (snd (nth k (s_bodies s) q0))) ss))).
Proof.
  induction 1 as [|s ss Hs HF IH]; intros f Rf.
  - exists f. split; [reflexivity|]. split; [exact Rf|]. cbn [map concat]. rewrite app_nil_r. split; [reflexivity|]. split; [|split].
    + intros k d t q0 _ H. rewrite H. destruct t; cbn; now rewrite ?app_nil_r.
    + intros k d t q0 _ H. rewrite H. destruct t; cbn; now rewrite ?app_nil_r.
    + intros k t q0 H. now rewrite H, app_nil_r.
  - destruct (vals_ok s Hs) as (xs & Ex & _). destruct (one_output s f xs Rf Hs Ex) as (f1 & E1 & R1 & M1 & L1 & D1 & B1). destruct (IH f1 R1) as (f' & E & R' & M & L & D & B).
    exists f'. cbn [outputs]. rewrite E1. split; [exact E|]. split; [exact R'|]. destruct Hs as (S1 & S2 & S3 & _). cbn [map concat]. split; [rewrite M, M1, <- app_assoc; reflexivity|]. split; [|split].
    + intros k d t q0 Hd Ht. assert (Hk : k < length lds) by (apply nth_error_Some; congruence).
      assert (Hq : nth_error (s_lines s) k = Some (nth k (s_lines s) q0)) by (apply nth_error_nth'; congruence).
      rewrite (L k d _ q0 Hd (eq_trans (f_equal (fun l => nth_error l k) L1) (map3_nth _ _ _ _ _ _ _ _ Hd Hq Ht))). destruct t; cbn [option_map line_out]; [now rewrite <- app_assoc|reflexivity].
    + intros k d t q0 Hd Ht. assert (Hk : k < length rds) by (apply nth_error_Some; congruence).
      assert (Hq : nth_error (s_rods s) k = Some (nth k (s_rods s) q0)) by (apply nth_error_nth'; congruence).
      rewrite (D k d _ q0 Hd (eq_trans (f_equal (fun l => nth_error l k) D1) (map3_nth _ _ _ _ _ _ _ _ Hd Hq Ht))). destruct t; cbn [option_map rod_after rtext]; [now rewrite <- app_assoc|reflexivity].
    + intros k t q0 Ht. assert (Hk : k < length (f_bodies f)) by (apply nth_error_Some; congruence). destruct Rf as (_ & _ & Rb & _).
      assert (Hq : nth_error (s_bodies s) k = Some (nth k (s_bodies s) q0)) by (apply nth_error_nth'; congruence).
      assert (H1 : nth_error (f_bodies f1) k = Some (body_out show (s_time s) (nth k (s_bodies s) q0) t)).
      { rewrite B1, nth_error_map. assert (HC : nth_error (combine (s_bodies s) (f_bodies f)) k = Some (nth k (s_bodies s) q0, t)).
        { refine (eq_trans (nth_error_nth' _ (q0, [] : str) _) _); [rewrite combine_length; lia|]. rewrite combine_nth by congruence. now rewrite (nth_error_nth _ _ _ Ht). }
        rewrite HC. reflexivity. }
      rewrite (B k _ q0 H1). unfold body_out. now rewrite <- app_assoc.
Qed.
Lemma init_ready : hosted m -> length (m_rods m) = length rds -> ready f0.
Proof.
  intros HH HL. destruct init_lengths as (I1 & I2 & I3). split; [exact I1|]. split; [exact I2|]. split; [exact I3|]. apply Forall_forall. intros o Ho. apply In_nth_error in Ho as (k & Hk).
  assert (K : k < length rds) by (rewrite <- I2; apply nth_error_Some; congruence). destruct (nth_error rds k) as [d|] eqn:Ed; [|apply nth_error_None in Ed; lia].
  rewrite (init_rod k d HH HL Ed) in Hk. injection Hk as <-. now destruct (makes_file (d_ch d)).
Qed.

Lemma main_rows_all ss : (forall x, clean (show x)) -> Forall sized ss ->
  rows (concat (map (fun s => fst (main_row show (s_time s) (s_vals s))) ss)) (map (fun s => show (s_time s) :: map show (values (s_vals s))) ss).
Proof.
  intros HS HF. apply rows_concat. intros s Hs. destruct (vals_ok s (proj1 (Forall_forall _ _) HF s Hs)) as (xs & E & _). rewrite E.
  assert (V : values (map Ok xs) = xs) by (clear; induction xs as [|x xs IH]; [reflexivity|]; cbn; now f_equal). rewrite V. now apply main_row_rows.
Qed.
End F.
Lemma makes_own ch : makes_file ch = own_file ch.
Proof.
  apply eq_iff_eq_true. unfold makes_file, own_file. rewrite !existsb_exists. split.
  - intros (c & Hc & H). exists c. unfold has in H. apply existsb_exists in H as (c' & H' & E). apply Ascii.eqb_eq in E as <-. split; [exact H'|]. unfold asked. now destruct (in_dec ascii_dec c ch).
  - intros (c & Hc & H). exists c. unfold asked in H. destruct (in_dec ascii_dec c ch) as [Hi|]; [|discriminate]. split; [exact Hi|]. unfold has. apply existsb_exists. exists c. split; [exact Hc|apply Ascii.eqb_refl].
Qed.
Lemma head_rows {Q} u h us (cs : list (column Q)) : rows h [map c_name cs] -> rows us [map c_unit cs] -> rows (with_units u h us) (head u cs).
Proof. intros H1 H2. unfold with_units, head. change (map c_name cs :: (if u then [map c_unit cs] else [])) with ([map c_name cs] ++ (if u then [map c_unit cs] else [])). apply rows_app; [exact H1|]. destruct u; [exact H2|apply rows_nil]. Qed.
Section G.
Variables (show : R -> str) (u : bool) (lds rds : list odef) (m : moor) (names us : list str) (ss : list snap).
Hypotheses (ST : setting show rds m) (SZ : Forall (fits lds rds m names) ss).
Definition after_lines (f : files) : Prop := forall k d q0, nth_error lds k = Some d ->
  if own_file (d_ch d) then exists t, nth_error (f_lines f) k = Some (Some t) /\
       table t = Some (head u (cols line_groups (d_N d) (d_ch d)) ++ map (fun s => row_of show (cols line_groups (d_N d) (d_ch d)) (s_time s, nth k (s_lines s) q0)) ss)
  else nth_error (f_lines f) k = Some None.
Definition after_rods (f : files) : Prop := forall k d q0, nth_error rds k = Some d ->
  if own_file (d_ch d) then exists r, nth_error (f_rods f) k = Some (Some r) /\
       table (rtext r) = Some (head u (cols rod_groups (d_N d) (d_ch d)) ++ map (fun s => row_of show (cols rod_groups (d_N d) (d_ch d)) (s_time s, nth k (s_rods s) q0)) ss)
  else nth_error (f_rods f) k = Some None.
Definition after_bodies (f : files) : Prop := forall k b q0, nth_error (m_bodies m) k = Some b -> exists t, nth_error (f_bodies f) k = Some t /\
  table t = Some (match fst b with BFree | BCpldPin => head u body_cols | _ => [] end ++ map (fun s => row_of show body_cols (s_time s, nth k (s_bodies s) q0)) ss).
Definition after_main (f : files) : Prop := forall cn cu, Forall2 padded names cn -> Forall2 padded us cu ->
  rows (f_main f) ((ot "Time" :: cn) :: (if u then [ot "(s)" :: cu] else []) ++ map (fun s => show (s_time s) :: map show (values (s_vals s))) ss).
Lemma outputs_all : exists f, outputs show u lds rds ss (initialized u lds rds m names us) = (f, Ok tt) /\ after_lines f /\ after_rods f /\ after_bodies f /\ after_main f.
Proof.
  destruct ST as (HS & HH & HL). destruct (all_outputs u lds rds m names show ss SZ _ (init_ready u lds rds m names us HH HL)) as (f & E & _ & M & L & D & B). exists f. split; [exact E|]. split; [|split; [|split]].
  - intros k d q0 Hd. rewrite (L k d _ q0 Hd (init_line u lds rds m names us k d Hd)), <- makes_own. destruct (makes_file (d_ch d)); [|reflexivity]. eexists. split; [reflexivity|]. apply rows_table, rows_app.
    + apply head_rows; [apply line_header_rows|apply line_units_rows].
    + apply rows_concat. intros s _. now apply line_row_rows.
  - intros k d q0 Hd. specialize (D k d _ q0 Hd (init_rod u lds rds m names us k d HH HL Hd)). rewrite <- makes_own. destruct (nth_error (f_rods f) k) as [[r|]|]; cbn [option_map] in D; [| |discriminate]; destruct (makes_file (d_ch d)); cbn [option_map rtext] in D; try discriminate; [|reflexivity].
    exists r. split; [reflexivity|]. assert (D' : forall a b : str, Some (Some a) = Some (Some b) -> a = b) by (intros; congruence). rewrite (D' _ _ D). clear D D'. apply rows_table, rows_app.
    + apply head_rows; [apply rod_header_rows|apply rod_units_rows].
    + apply rows_concat. intros s _. now apply rod_row_rows.
  - intros k b q0 Hb. rewrite (B k _ q0 (init_bodies u lds rds m names us k b Hb)). eexists. split; [reflexivity|]. apply rows_table, rows_app.
    + assert (HB : rows (with_units u body_header body_units) (head u body_cols)) by (apply head_rows; [apply body_header_rows|apply body_units_rows]). destruct (fst b); try exact HB; apply rows_nil.
    + apply rows_concat. intros s _. destruct (nth k (s_bodies s) q0) as (p, a). now apply body_row_rows.
  - intros cn cu H1 H2. rewrite M, init_main. rewrite app_comm_cons. apply rows_app; [|now apply (main_rows_all lds rds m names)].
    unfold with_units. change ((ot "Time" :: cn) :: (if u then [ot "(s)" :: cu] else [])) with ([ot "Time" :: cn] ++ (if u then [ot "(s)" :: cu] else [])). apply rows_app.
    + now apply main_head_rows.
    + destruct u; [now apply main_head_rows|apply rows_nil].
Qed.
End G.
Lemma outputs_app show u lds rds a : forall b f f', outputs show u lds rds a f = (f', Ok tt) -> outputs show u lds rds (a ++ b) f = outputs show u lds rds b f'.
Proof.
  induction a as [|s a IH]; intros b f f' H; cbn [outputs app] in *; [congruence|]. destruct (all_output show u lds rds s f) as [f1 [[]|e| |]]; try discriminate. now apply IH.
Qed.
(** a row that stops before its end *)
Lemma cells_torn show xs e rest : (forall x, clean (show x)) -> exists l, main_cells show (map Ok xs ++ Throw e :: rest) = (l, Throw e) /\ ~ In "010"%char l /\ row_ok l (map show xs).
Proof.
  intro HS. induction xs as [|x xs (l & E & Hl & Hr)]; [exists []; cbn; split; [reflexivity|]; split; [easy|apply row_nil]|]. cbn [map app main_cells]. rewrite E. eexists. split; [reflexivity|].
  pose proof (row_num show HS x) as Hx. split.
  - cbn [fst]. rewrite in_app_iff. intros [H|H]; [|tauto]. exact (proj2 Hx H).
  - cbn [fst]. apply (row_app _ [show x] _ (map show xs)); assumption.
Qed.
Lemma torn_none l : l <> [] -> ~ In "010"%char l -> forall v, lines_from v l = None.
Proof.
  induction l as [|c l IH]; intros Hn Hl v; [easy|]. cbn [lines_from]. destruct (Ascii.eqb_spec c "010") as [->|]; [exfalso; apply Hl; now left|]. destruct l as [|c' l].
  - cbn. now destruct v.
  - apply IH; [easy|]. intro; apply Hl; now right.
Qed.
Lemma torn_output show u lds rds s f rs xs e rest : (forall x, clean (show x)) -> rows (f_main f) rs -> s_vals s = map Ok xs ++ Throw e :: rest ->
  exists l, all_output show u lds rds s f = (Files (f_main f ++ l) (f_lines f) (f_rods f) (f_bodies f), Throw e) /\ words l = show (s_time s) :: map show xs /\ table (f_main f ++ l) = None.
Proof.
  intros HS HR E. destruct (cells_torn show xs e rest HS) as (l & El & Hl & Hr). pose proof (row_num show HS (s_time s)) as Ht. pose proof (row_app _ _ _ _ Ht Hr) as [HW HN].
  exists (num show (s_time s) ++ l). split; [|split].
  - unfold all_output, main_row. rewrite E, El. cbn [fst snd]. reflexivity.
  - specialize (HW []). rewrite !app_nil_r in HW. exact HW.
  - rewrite HR. unfold table. rewrite torn_none; [reflexivity| |exact HN]. destruct (HS (s_time s)) as [H _]. unfold num. now destruct (show (s_time s)).
Qed.
