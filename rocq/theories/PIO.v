(** Proofs about the typed serialisation. *)
From Coq Require Import ZArith List Bool Lia.
From Verif Require Import MErr MPack PPack MIO SIO.
Import ListNotations.
Open Scope Z_scope.

(** ** Bytes *)

Lemma le_bytes_length n w : length (le_bytes n w) = n.
Proof. revert w; induction n; intros; cbn; [|rewrite IHn]; reflexivity. Qed.

Lemma le_bytes_range n w : Forall (fun b => 0 <= b < 256) (le_bytes n w).
Proof.
  revert w; induction n as [|n IH]; intros w; cbn; constructor; [|apply IH].
  apply Z.mod_pos_bound; lia.
Qed.

Lemma of_le_range l : Forall (fun b => 0 <= b < 256) l -> 0 <= of_le l < 256 ^ Z.of_nat (length l).
Proof.
  induction 1 as [|b l Hb Hl IH]; [cbn; lia|].
  cbn [of_le length]. rewrite Nat2Z.inj_succ, Z.pow_succ_r by lia. lia.
Qed.

Lemma of_le_bytes n w : 0 <= w < 256 ^ Z.of_nat n -> of_le (le_bytes n w) = w.
Proof.
  revert w; induction n as [|n IH]; intros w Hw; [cbn in *; lia|].
  cbn [le_bytes of_le]. rewrite Nat2Z.inj_succ, Z.pow_succ_r in Hw by lia.
  rewrite IH.
  - pose proof (Z.div_mod w 256 ltac:(lia)). lia.
  - split; [apply Z.div_pos; lia|]. apply Z.div_lt_upper_bound; lia.
Qed.

Lemma le_bytes_of_le l : Forall (fun b => 0 <= b < 256) l -> le_bytes (length l) (of_le l) = l.
Proof.
  induction 1 as [|b l Hb Hl IH]; [reflexivity|].
  cbn [of_le length le_bytes]. f_equal.
  - rewrite Z.mul_comm, Z.mod_add by lia. apply Z.mod_small; lia.
  - rewrite Z.mul_comm, Z.div_add by lia. rewrite Z.div_small by lia. rewrite Z.add_0_l. exact IH.
Qed.

Lemma pow256_8 : 256 ^ Z.of_nat 8 = 2 ^ 64.
Proof. reflexivity. Qed.

Lemma swap_word w : word (swap_endian w).
Proof.
  unfold word, swap_endian. rewrite <- pow256_8.
  assert (Hl : length (rev (le_bytes 8 w)) = 8%nat) by (rewrite rev_length; apply le_bytes_length).
  rewrite <- Hl. apply of_le_range. apply Forall_rev, le_bytes_range.
Qed.

Lemma swap_le_bytes w : le_bytes 8 (swap_endian w) = rev (le_bytes 8 w).
Proof.
  unfold swap_endian.
  assert (Hl : length (rev (le_bytes 8 w)) = 8%nat) by (rewrite rev_length; apply le_bytes_length).
  rewrite <- Hl at 1. apply le_bytes_of_le. apply Forall_rev, le_bytes_range.
Qed.

Lemma swap_swap w : word w -> swap_endian (swap_endian w) = w.
Proof.
  intros Hw. unfold swap_endian at 1. rewrite swap_le_bytes, rev_involutive.
  apply of_le_bytes. rewrite pow256_8. exact Hw.
Qed.

(** ** Round trip *)

Ltac proj_simpl := cbn [vx vy vz v60 v61 v62 v63 v64 v65 mr0 mr1 mr2 m60 m61 m62 m63 m64 m65
  qx qy qz qw xq_pos xq_quat].

Ltac rt_collect :=
  repeat match goal with
  | H : roundtrips _ _ _ |- _ =>
      let ws := fresh "ws" in let h1 := fresh "Hs" in let h2 := fresh "Hw" in let h3 := fresh "Hd" in
      destruct H as (ws & h1 & h2 & h3)
  end.

(** closes a goal [roundtrips (ser_cat [...]) (rbind ...) x] once the round
    trips of the fields are hypotheses *)
Ltac rt_solve :=
  rt_collect;
  match goal with |- roundtrips ?s ?d ?x => unfold roundtrips end;
  eexists; split;
  [ proj_simpl; cbn [ser_cat];
    repeat match goal with H : _ = Ok _ |- _ => rewrite H; clear H end;
    cbn [obind]; reflexivity
  | split;
    [ repeat (apply Forall_app; split; try assumption); try constructor
    | intros rest; unfold rbind, rret;
      repeat (rewrite <- ?app_assoc;
              match goal with H : forall rest, _ (?w ++ rest) = _ |- context [?w ++ _] =>
                rewrite H; cbn [obind fst snd]; clear H end);
      cbn [app]; try reflexivity ] ].

Section RT.
Variable be : bool.
Variable fuel : nat.
Hypothesis Hfuel : 1100 <= Z.of_nat fuel.

Lemma rt_u64 i : word i -> roundtrips (ser_u64 be) (de_u64 be) i.
Proof.
  intros Hi. unfold roundtrips, ser_u64, de_u64. eexists; split; [reflexivity|]. split.
  - constructor; [|constructor]. destruct be; [apply swap_word|exact Hi].
  - intros rest. cbn [app]. destruct be; [rewrite swap_swap by exact Hi|]; reflexivity.
Qed.

Lemma rt_i64 i : - 2 ^ 63 <= i < 2 ^ 63 -> roundtrips (ser_i64 be) (de_i64 be) i.
Proof.
  clear Hfuel fuel.
  intros Hi. unfold ser_i64, de_i64.
  assert (Hm : word (i mod 2 ^ 64)) by (apply Z.mod_pos_bound; lia).
  destruct (rt_u64 _ Hm) as (ws & H1 & H2 & H3).
  exists ws; split; [exact H1|]; split; [exact H2|]. intros rest.
  unfold rbind. rewrite H3. cbn [obind fst snd]. unfold rret. do 2 f_equal.
  destruct (Z.le_gt_cases 0 i).
  - rewrite Z.mod_small by lia. destruct (Z.ltb_spec i (2 ^ 63)); lia.
  - assert (Hx : i mod 2 ^ 64 = i + 2 ^ 64).
    { symmetry. apply Z.mod_unique with (q := -1); lia. }
    rewrite Hx. destruct (Z.ltb_spec (i + 2 ^ 64) (2 ^ 63)); lia.
Qed.

Lemma rt_real f : storable f -> roundtrips (ser_real be fuel) (de_real be) f.
Proof.
  intros Hf.
  assert (Hp : exists w, pack754_64 fuel f = Ok w /\ word w /\ unpack754_64 w = f).
  { destruct Hf as [->|(neg & m & e & -> & Hm & He)].
    - exists 0. repeat split; lia.
    - destruct (number_roundtrip fuel neg m e Hfuel Hm He) as (w & H1 & H2 & H3).
      exists w; repeat split; try assumption; lia. }
  destruct Hp as (w & H1 & Hw & H2).
  unfold roundtrips, ser_real, de_real. rewrite H1. cbn [obind].
  assert (Hmod : (if w <? 2 ^ 63 then w else w - 2 ^ 64) mod 2 ^ 64 = w).
  { unfold word in Hw. destruct (Z.ltb_spec w (2 ^ 63)).
    - apply Z.mod_small; lia.
    - symmetry. apply Z.mod_unique with (q := -1); lia. }
  unfold ser_i64. rewrite Hmod. destruct (rt_u64 w Hw) as (ws & G1 & G2 & G3).
  exists ws; split; [exact G1|]; split; [exact G2|]. intros rest.
  unfold rbind. rewrite G3. cbn [obind fst snd]. rewrite H2. reflexivity.
Qed.

Lemma rt_vec v : vec_ok v -> roundtrips (ser_vec be fuel) (de_vec be) v.
Proof.
  destruct v as [x y z]; intros (Hx & Hy & Hz); cbn in *.
  apply rt_real in Hx, Hy, Hz. unfold ser_vec, de_vec; cbn [vx vy vz]. rt_solve.
Qed.

Lemma rt_vec6 v : vec6_ok v -> roundtrips (ser_vec6 be fuel) (de_vec6 be) v.
Proof.
  destruct v as [a b c d e f]; intros (H1 & H2 & H3 & H4 & H5 & H6); cbn in *.
  apply rt_real in H1, H2, H3, H4, H5, H6. unfold ser_vec6, de_vec6; cbn [v60 v61 v62 v63 v64 v65].
  rt_solve.
Qed.

Lemma rt_mat m : mat_ok m -> roundtrips (ser_mat be fuel) (de_mat be) m.
Proof.
  destruct m as [x y z]; intros (Hx & Hy & Hz); cbn in *.
  apply rt_vec in Hx, Hy, Hz. unfold ser_mat, de_mat; cbn [mr0 mr1 mr2]. rt_solve.
Qed.

Lemma rt_mat6 m : mat6_ok m -> roundtrips (ser_mat6 be fuel) (de_mat6 be) m.
Proof.
  destruct m as [a b c d e f]; intros (H1 & H2 & H3 & H4 & H5 & H6); cbn in *.
  apply rt_vec6 in H1, H2, H3, H4, H5, H6. unfold ser_mat6, de_mat6; cbn [m60 m61 m62 m63 m64 m65].
  rt_solve.
Qed.

Lemma rt_quat q : quat_ok q -> roundtrips (ser_quat be fuel) (de_quat be) q.
Proof.
  destruct q as [x y z w]; intros (Hx & Hy & Hz & Hw0); cbn in *.
  apply rt_real in Hx, Hy, Hz, Hw0. unfold ser_quat, de_quat; cbn [qx qy qz qw]. rt_solve.
Qed.

Lemma rt_xyzquat x : xyzquat_ok x -> roundtrips (ser_xyzquat be fuel) (de_xyzquat be) x.
Proof.
  destruct x as [p q]; intros (Hp & Hq); cbn in *.
  apply rt_vec in Hp. apply rt_quat in Hq. unfold ser_xyzquat, de_xyzquat; cbn [xq_pos xq_quat]. rt_solve.
Qed.

Lemma rt_seq {A} (s : writer A) (d : reader A) l :
  Forall (roundtrips s d) l -> roundtrips (ser_seq s) (de_seq d (length l)) l.
Proof.
  clear Hfuel fuel.
  induction 1 as [|a l Ha Hl IH].
  - exists []; split; [reflexivity|]; split; [constructor|reflexivity].
  - unfold ser_seq in *. destruct Ha as (ws & H1 & H2 & H3). destruct IH as (ws' & G1 & G2 & G3).
    exists (ws ++ ws'). split; [|split].
    + cbn [map ser_cat]. rewrite H1. cbn [obind]. rewrite G1. reflexivity.
    + apply Forall_app; split; assumption.
    + intros rest. cbn [length de_seq]. unfold rbind. rewrite <- app_assoc, H3. cbn [obind fst snd].
      rewrite G3. reflexivity.
Qed.

Lemma rt_list {A} (s : writer A) (d : reader A) (l : list A) :
  Z.of_nat (length l) < 2 ^ 32 -> Forall (roundtrips s d) l ->
  roundtrips (ser_list be s) (de_list be d) l.
Proof.
  clear Hfuel fuel.
  intros Hl Hf. apply rt_seq in Hf.
  assert (Hn : word (Z.of_nat (length l))) by (unfold word; lia).
  apply rt_u64 in Hn. destruct Hn as (ws & H1 & H2 & H3). destruct Hf as (ws' & G1 & G2 & G3).
  exists (ws ++ ws'). split; [|split].
  - unfold ser_list. cbn [ser_cat]. rewrite H1. cbn [obind]. rewrite G1. cbn [obind].
    rewrite app_nil_r. reflexivity.
  - apply Forall_app; split; assumption.
  - intros rest. unfold de_list, rbind. rewrite <- app_assoc, H3. cbn [obind fst snd].
    destruct (Z.ltb_spec (Z.of_nat (length l)) (2 ^ 32)); [|lia].
    rewrite Nat2Z.id. apply G3.
Qed.

Lemma rt_list_ok {A} (P : A -> Prop) (s : writer A) (d : reader A) (l : list A) :
  (forall a, P a -> roundtrips s d a) -> list_ok P l -> roundtrips (ser_list be s) (de_list be d) l.
Proof.
  clear Hfuel fuel.
  intros Hp (Hl & Hf). apply rt_list; [exact Hl|]. eapply Forall_impl; [|exact Hf]. exact Hp.
Qed.
End RT.

(** Two different values never share an encoding (consequence). *)
Lemma roundtrips_inj {A} (s : writer A) (d : reader A) a b ws ra rb :
  roundtrips s d a -> roundtrips s d b -> s a = Ok ws -> s b = Ok ws -> ws ++ ra = ws ++ rb -> a = b.
Proof.
  intros (wa & Ha & _ & Hda) (wb & Hb & _ & Hdb) Ea Eb _.
  rewrite Ha in Ea. injection Ea as <-. rewrite Hb in Eb. injection Eb as ->.
  specialize (Hda []). specialize (Hdb []). rewrite Hda in Hdb. congruence.
Qed.

Lemma rt_inj {A} (s : writer A) (d : reader A) a b ws :
  roundtrips s d a -> roundtrips s d b -> s a = Ok ws -> s b = Ok ws -> a = b.
Proof. intros; eapply roundtrips_inj with (ra := []) (rb := []); eauto. Qed.

Lemma ser_u64_disk : forall i, 0 <= i < 2 ^ 64 ->
  exists wl wb, ser_u64 false i = Ok [wl] /\ ser_u64 true i = Ok [wb] /\
    le_bytes 8 wl = rev (le_bytes 8 wb).
Proof.
  intros i Hi. exists i, (swap_endian i). repeat split.
  rewrite swap_le_bytes, rev_involutive. reflexivity.
Qed.
