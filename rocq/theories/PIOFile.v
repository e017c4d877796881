(** Proofs about Save and Load. *)
From Coq Require Import ZArith List Bool Lia.
From Verif Require Import MErr MPack MIO SIO PIO MIOFile.
Import ListNotations.
Open Scope Z_scope.

Lemma firstn_exact {A} n (a b : list A) : length a = n -> firstn n (a ++ b) = a.
Proof. intros <-. rewrite firstn_app, Nat.sub_diag, firstn_all, firstn_O, app_nil_r. reflexivity. Qed.
Lemma skipn_exact {A} n (a b : list A) : length a = n -> skipn n (a ++ b) = b.
Proof. intros <-. rewrite skipn_app, Nat.sub_diag, skipn_all. reflexivity. Qed.

Lemma native_length be w : length (native_bytes be w) = 8%nat.
Proof. unfold native_bytes; destruct be; [rewrite rev_length|]; apply le_bytes_length. Qed.

Lemma of_native_bytes be w : word w -> of_native be (native_bytes be w) = w.
Proof.
  intros Hw. unfold of_native, native_bytes. destruct be; [rewrite rev_involutive|]; 
  apply of_le_bytes; rewrite pow256_8; exact Hw.
Qed.

Lemma flat_native_length be data : length (flat_map (native_bytes be) data) = (8 * length data)%nat.
Proof.
  induction data as [|w t IH]; [reflexivity|].
  cbn [flat_map]. rewrite app_length, native_length, IH. cbn [length]. lia.
Qed.

Lemma words_of_flat be data tail : Forall word data ->
  words_of be (length data) (flat_map (native_bytes be) data ++ tail) = data.
Proof.
  induction 1 as [|w t Hw Ht IH]; [reflexivity|].
  cbn [flat_map length words_of]. rewrite <- app_assoc.
  rewrite firstn_exact by apply native_length. rewrite skipn_exact by apply native_length.
  rewrite of_native_bytes by exact Hw. rewrite IH. reflexivity.
Qed.

Lemma save_length be maj min data : length (save be maj min data) = (17 + 8 * length data)%nat.
Proof.
  unfold save. rewrite !app_length, native_length, flat_native_length. reflexivity.
Qed.

Lemma words_of_length be n b : length (words_of be n b) = n.
Proof. revert b; induction n; intros; cbn; [|rewrite IHn]; reflexivity. Qed.

(** The parts of a file with at least 17 bytes, and what Load does with them. *)
Section L.
Context {St : Type}.
Variable be : bool.
Variable minv : Z * Z.
Variable alloc_ok : Z -> bool.
Variable des : St -> list Z -> St * outcome (list Z).

Definition version_ok (maj min : Z) : Prop :=
  fst minv < maj \/ (maj = fst minv /\ snd minv <= min).

Lemma version_test maj min :
  (maj <? fst minv) || ((maj =? fst minv) && (min <? snd minv)) = false <-> version_ok maj min.
Proof.
  unfold version_ok. rewrite orb_false_iff, andb_false_iff, Z.ltb_ge, Z.eqb_neq, Z.ltb_ge. lia.
Qed.

Lemma load_wellformed st maj min lenb payload :
  length lenb = 8%nat -> version_ok maj min ->
  load be minv alloc_ok des st (magic ++ [maj; min] ++ lenb ++ payload)
  = let len := of_native be lenb in
    if negb ((len * 8) mod 2 ^ 64 =? Z.of_nat (length payload) mod 2 ^ 64) then (st, Throw ExInput)
    else if negb (alloc_ok ((len * 8) mod 2 ^ 64)) then (st, Throw ExMem)
    else
      let data := words_of be (Z.to_nat ((len * 8) mod 2 ^ 64 / 8)) payload in
      match des st data with
      | (st', Ok rest) =>
          let consumed := Z.of_nat (length data) - Z.of_nat (length rest) in
          if negb ((len * 8) mod 2 ^ 64 =? (consumed * 8) mod 2 ^ 64)
          then (st', Throw ExMem) else (st', Ok tt)
      | (st', Throw e) => (st', Throw e)
      | (st', UB) => (st', UB)
      | (st', Diverges) => (st', Diverges)
      end.
Proof.
  intros Hl Hv. unfold load.
  assert (Hlen : length (magic ++ [maj; min] ++ lenb ++ payload) = (17 + length payload)%nat).
  { rewrite !app_length, Hl. reflexivity. }
  rewrite Hlen.
  destruct (Z.ltb_spec (Z.of_nat (17 + length payload)) 17); [lia|].
  change (firstn 7 (magic ++ [maj; min] ++ lenb ++ payload)) with magic.
  destruct (list_eq_dec Z.eq_dec magic magic) as [_|C]; [|congruence]. cbn [negb].
  change (nth 7 (magic ++ [maj; min] ++ lenb ++ payload) 0) with maj.
  change (nth 8 (magic ++ [maj; min] ++ lenb ++ payload) 0) with min.
  apply version_test in Hv. rewrite Hv.
  change (skipn 9 (magic ++ [maj; min] ++ lenb ++ payload)) with (lenb ++ payload).
  rewrite firstn_exact by exact Hl.
  replace (Z.of_nat (17 + length payload) - 17) with (Z.of_nat (length payload)) by lia.
  change (skipn 17 (magic ++ [maj; min] ++ lenb ++ payload)) with (skipn 8 (lenb ++ payload)).
  rewrite skipn_exact by exact Hl.
  reflexivity.
Qed.

(** Every file of at least 17 bytes is made of these parts. *)
Lemma file_parts (file : list Z) : (17 <= length file)%nat ->
  exists mg maj min lenb payload,
    file = mg ++ [maj; min] ++ lenb ++ payload /\ length mg = 7%nat /\ length lenb = 8%nat
    /\ mg = firstn 7 file /\ maj = nth 7 file 0 /\ min = nth 8 file 0
    /\ lenb = firstn 8 (skipn 9 file) /\ payload = skipn 17 file.
Proof.
  intros H.
  do 17 (destruct file as [|? file]; [cbn [length] in H; lia|]).
  do 5 eexists. repeat split; cbn [firstn skipn nth app]; try reflexivity.
Qed.

Lemma load_short st file : (length file < 17)%nat ->
  load be minv alloc_ok des st file = (st, Throw ExInputFile).
Proof.
  intros H. unfold load. destruct (Z.ltb_spec (Z.of_nat (length file)) 17); [reflexivity|lia].
Qed.

Lemma load_bad_magic st file : firstn 7 file <> magic ->
  load be minv alloc_ok des st file = (st, Throw ExInputFile).
Proof.
  intros H. unfold load. destruct (Z.of_nat (length file) <? 17); [reflexivity|].
  destruct (list_eq_dec Z.eq_dec (firstn 7 file) magic); [contradiction|reflexivity].
Qed.

Lemma load_bad_version st file :
  nth 7 file 0 < fst minv \/ (nth 7 file 0 = fst minv /\ nth 8 file 0 < snd minv) ->
  load be minv alloc_ok des st file = (st, Throw ExInputFile).
Proof.
  intros H. unfold load. destruct (Z.of_nat (length file) <? 17); [reflexivity|].
  destruct (list_eq_dec Z.eq_dec (firstn 7 file) magic); [|reflexivity]. cbn [negb].
  replace ((nth 7 file 0 <? fst minv) || (nth 7 file 0 =? fst minv) && (nth 8 file 0 <? snd minv)) with true; [reflexivity|].
  symmetry. apply orb_true_iff. destruct H as [H|[H1 H2]].
  - left. apply Z.ltb_lt; exact H.
  - right. apply andb_true_iff. split; [apply Z.eqb_eq|apply Z.ltb_lt]; assumption.
Qed.

Definition declared_bytes (file : list Z) : Z := (of_native be (firstn 8 (skipn 9 file)) * 8) mod 2 ^ 64.

Lemma load_bad_size st file :
  Z.of_nat (length file) < 2 ^ 64 ->
  declared_bytes file <> Z.of_nat (length file) - 17 ->
  exists e, load be minv alloc_ok des st file = (st, Throw e).
Proof.
  intros Hl H. unfold load.
  destruct (Z.ltb_spec (Z.of_nat (length file)) 17); [eexists; reflexivity|].
  destruct (list_eq_dec Z.eq_dec (firstn 7 file) magic); [|eexists; reflexivity]. cbn [negb].
  destruct (_ || _); [eexists; reflexivity|].
  rewrite (Z.mod_small (Z.of_nat (length file) - 17)) by lia.
  destruct (Z.eqb_spec ((of_native be (firstn 8 (skipn 9 file)) * 8) mod 2 ^ 64) (Z.of_nat (length file) - 17)) as [E|E].
  - exfalso. apply H. exact E.
  - eexists; reflexivity.
Qed.

(** If Load succeeds, all the checks hold and Deserialize used all the data. *)
Lemma load_success st file st' :
  Z.of_nat (length file) < 2 ^ 64 ->
  load be minv alloc_ok des st file = (st', Ok tt) ->
  (17 <= length file)%nat /\ firstn 7 file = magic /\
  version_ok (nth 7 file 0) (nth 8 file 0) /\
  declared_bytes file = Z.of_nat (length file) - 17 /\
  exists rest, des st (words_of be (Z.to_nat ((Z.of_nat (length file) - 17) / 8)) (skipn 17 file)) = (st', Ok rest)
    /\ (Z.of_nat (length rest) < 2 ^ 61 -> rest = []).
Proof.
  intros Hl. unfold load.
  destruct (Z.ltb_spec (Z.of_nat (length file)) 17) as [|H17]; [discriminate|].
  destruct (list_eq_dec Z.eq_dec (firstn 7 file) magic) as [Hm|]; [|discriminate]. cbn [negb].
  destruct (_ || _) eqn:Hv; [discriminate|]. apply version_test in Hv.
  rewrite (Z.mod_small (Z.of_nat (length file) - 17)) by lia.
  fold (declared_bytes file).
  destruct (Z.eqb_spec (declared_bytes file) (Z.of_nat (length file) - 17)) as [E|]; [|discriminate].
  cbn [negb]. destruct (alloc_ok (declared_bytes file)); [|discriminate]. cbn [negb].
  rewrite E.
  destruct (des st (words_of be (Z.to_nat ((Z.of_nat (length file) - 17) / 8)) (skipn 17 file))) as [s o] eqn:Hd.
  destruct o as [rest| | |]; try discriminate.
  rewrite words_of_length.
  set (k := (Z.of_nat (length file) - 17) / 8) in *.
  assert (Hk : 0 <= k < 2 ^ 61).
  { subst k. split; [apply Z.div_pos; lia|]. apply Z.div_lt_upper_bound; lia. }
  rewrite Z2Nat.id by lia.
  destruct (Z.eqb_spec (Z.of_nat (length file) - 17) (((k - Z.of_nat (length rest)) * 8) mod 2 ^ 64)) as [E2|]; [|discriminate].
  cbn [negb]. intros Heq; injection Heq as <-.
  split; [lia|]. split; [exact Hm|]. split; [exact Hv|]. split; [reflexivity|].
  exists rest. split; [reflexivity|]. intros Hr.
  assert (Hmod : (k * 8 - (k - Z.of_nat (length rest)) * 8) mod 2 ^ 64 = 0).
  { assert (Hk8 : Z.of_nat (length file) - 17 = k * 8).
    { (* the declared size is a multiple of 8 *)
      assert (H8 : (Z.of_nat (length file) - 17) mod 8 = 0).
      { rewrite <- E. unfold declared_bytes.
        rewrite <- (Znumtheory.Zmod_div_mod 8 (2 ^ 64)); [|lia|lia|exists (2 ^ 61); reflexivity].
        apply Z.mod_mul. lia. }
      pose proof (Z.div_mod (Z.of_nat (length file) - 17) 8 ltac:(lia)) as H. fold k in H. lia. }
    rewrite <- Hk8. rewrite E2 at 1. rewrite Zminus_mod, Zmod_mod, <- Zminus_mod, Z.sub_diag. reflexivity. }
  replace (k * 8 - (k - Z.of_nat (length rest)) * 8) with (Z.of_nat (length rest) * 8) in Hmod by lia.
  rewrite Z.mod_small in Hmod by lia.
  destruct rest; [reflexivity|cbn [length] in Hmod; lia].
Qed.
End L.

(** ** Round trip on the same byte order *)
Lemma load_save {St} be maj min alloc_ok (des : St -> list Z -> St * outcome (list Z)) st st' data :
  0 <= maj < 256 -> 0 <= min < 256 ->
  Forall word data -> Z.of_nat (length data) < 2 ^ 61 ->
  version_ok (min_version maj min) maj min ->
  alloc_ok (8 * Z.of_nat (length data)) = true ->
  des st data = (st', Ok []) ->
  load be (min_version maj min) alloc_ok des st (save be maj min data) = (st', Ok tt).
Proof.
  intros HM Hm Hw Hl Hv Ha Hd. unfold save. rewrite (Z.mod_small maj), (Z.mod_small min) by lia.
  rewrite load_wellformed by (try apply native_length; assumption).
  cbv zeta. rewrite of_native_bytes by (unfold word; apply Z.mod_pos_bound; lia).
  rewrite (Z.mod_small (Z.of_nat (length data)) (2 ^ 64)) by lia.
  rewrite flat_native_length.
  replace (Z.of_nat (8 * length data)) with (Z.of_nat (length data) * 8) by lia.
  rewrite (Z.mod_small (Z.of_nat (length data) * 8)) by lia.
  rewrite Z.eqb_refl. cbn [negb].
  replace (Z.of_nat (length data) * 8) with (8 * Z.of_nat (length data)) at 1 by lia. rewrite Ha. cbn [negb].
  rewrite Z.div_mul by lia. rewrite Nat2Z.id.
  rewrite <- (app_nil_r (flat_map (native_bytes be) data)) at 1. rewrite words_of_flat by exact Hw.
  rewrite Hd. cbn [length]. rewrite Z.sub_0_r. rewrite words_of_length, (Z.mod_small (Z.of_nat (length data) * 8)) by lia.
  rewrite Z.eqb_refl. reflexivity.
Qed.

(** ** Files from a machine with the other byte order *)
Lemma low_bytes_le w n : 0 <= w < 2 ^ 32 -> n = 8%nat ->
  le_bytes n w = le_bytes 4 w ++ [0; 0; 0; 0].
Proof.
  intros Hw ->. cbn [le_bytes app].
  assert (Hz : w / 256 / 256 / 256 / 256 = 0).
  { rewrite !Z.div_div by lia. apply Z.div_small. lia. }
  rewrite Hz. reflexivity.
Qed.

Lemma swap_low w : 0 <= w < 2 ^ 32 -> exists k, swap_endian w = k * 2 ^ 32.
Proof.
  intros Hw. unfold swap_endian. rewrite (low_bytes_le w 8) by (try assumption; reflexivity).
  rewrite rev_app_distr. cbn [rev app of_le].
  exists (of_le (rev (le_bytes 4 w))). lia.
Qed.

Lemma of_native_other be w : of_native (negb be) (native_bytes be w) = swap_endian w.
Proof.
  unfold of_native, native_bytes, swap_endian. destruct be; cbn [negb]; reflexivity.
Qed.

Lemma load_cross {St} be maj min minv alloc_ok (des : St -> list Z -> St * outcome (list Z)) st data :
  0 <= maj < 256 -> 0 <= min < 256 -> version_ok minv maj min ->
  0 < Z.of_nat (length data) < 2 ^ 32 ->
  load (negb be) minv alloc_ok des st (save be maj min data) = (st, Throw ExInput).
Proof.
  intros HM Hm Hv Hl. unfold save. rewrite (Z.mod_small maj), (Z.mod_small min) by lia.
  rewrite load_wellformed by (try apply native_length; assumption). cbv zeta.
  rewrite of_native_other. rewrite (Z.mod_small (Z.of_nat (length data)) (2 ^ 64)) by lia.
  rewrite flat_native_length.
  destruct (swap_low (Z.of_nat (length data)) ltac:(lia)) as (k & Hk). rewrite Hk.
  destruct (Z.eqb_spec ((k * 2 ^ 32 * 8) mod 2 ^ 64) (Z.of_nat (8 * length data) mod 2 ^ 64)) as [E|E]; [|reflexivity].
  exfalso.
  rewrite (Z.mod_small (Z.of_nat (8 * length data))) in E by lia.
  assert (Hd : (Z.of_nat (8 * length data)) mod 2 ^ 35 = 0).
  { rewrite <- E.
    rewrite <- (Znumtheory.Zmod_div_mod (2 ^ 35) (2 ^ 64)); [|lia|lia|exists (2 ^ 29); reflexivity].
    replace (k * 2 ^ 32 * 8) with (k * 2 ^ 35) by lia. apply Z.mod_mul. lia. }
  rewrite Z.mod_small in Hd by lia. lia.
Qed.

(** ** Version stamp *)
Lemma own_version maj min : 0 <= maj -> 0 <= min ->
  (version_ok (min_version maj min) maj min <-> 2 <= maj /\ 2 <= min).
Proof.
  intros HM Hm. unfold version_ok, min_version.
  destruct (Z.leb_spec 2 maj); [destruct (Z.leb_spec 2 min)|]; cbn [fst snd]; lia.
Qed.

(** ** The size check is done modulo 2^64 *)
Lemma load_wrap {St} be maj min minv alloc_ok (des : St -> list Z -> St * outcome (list Z)) st st' data :
  version_ok minv maj min -> Forall word data -> Z.of_nat (length data) < 2 ^ 61 ->
  alloc_ok (8 * Z.of_nat (length data)) = true ->
  des st data = (st', Ok []) ->
  let header_length := 2 ^ 61 + Z.of_nat (length data) in
  load be minv alloc_ok des st
    (magic ++ [maj; min] ++ native_bytes be header_length ++ flat_map (native_bytes be) data)
  = (st', Ok tt).
Proof.
  intros Hv Hw Hl Ha Hd. cbv zeta.
  rewrite load_wellformed by (try apply native_length; assumption).
  cbv zeta. rewrite of_native_bytes by (unfold word; lia).
  assert (Hs : ((2 ^ 61 + Z.of_nat (length data)) * 8) mod 2 ^ 64 = Z.of_nat (length data) * 8).
  { replace ((2 ^ 61 + Z.of_nat (length data)) * 8) with (Z.of_nat (length data) * 8 + 1 * 2 ^ 64) by lia.
    rewrite Z.mod_add by lia. apply Z.mod_small; lia. }
  rewrite Hs. rewrite flat_native_length.
  replace (Z.of_nat (8 * length data)) with (Z.of_nat (length data) * 8) by lia.
  rewrite (Z.mod_small (Z.of_nat (length data) * 8)) by lia.
  rewrite Z.eqb_refl. cbn [negb].
  replace (Z.of_nat (length data) * 8) with (8 * Z.of_nat (length data)) at 1 by lia. rewrite Ha. cbn [negb].
  rewrite Z.div_mul by lia. rewrite Nat2Z.id.
  rewrite <- (app_nil_r (flat_map (native_bytes be) data)) at 1. rewrite words_of_flat by exact Hw.
  rewrite Hd. cbn [length]. rewrite Z.sub_0_r, words_of_length, (Z.mod_small (Z.of_nat (length data) * 8)) by lia.
  rewrite Z.eqb_refl. reflexivity.
Qed.

Lemma own_version_rejected : exists maj min, 0 <= maj /\ 0 <= min /\
  forall St be alloc_ok (des : St -> list Z -> St * outcome (list Z)) st data,
  load be (min_version maj min) alloc_ok des st (save be maj min data) = (st, Throw ExInputFile).
Proof.
  exists 3, 0. split; [lia|]. split; [lia|]. intros. apply load_bad_version.
  right. split; reflexivity || (cbn; lia).
Qed.

Lemma load_header_failure {St} be minv alloc_ok
    (des : St -> list Z -> St * outcome (list Z)) st file :
  Z.of_nat (length file) < 2 ^ 64 ->
  fst (load be minv alloc_ok des st file) <> st ->
  (17 <= length file)%nat /\ firstn 7 file = magic /\
  version_ok minv (nth 7 file 0) (nth 8 file 0) /\
  declared_bytes be file = Z.of_nat (length file) - 17.
Proof.
  intros Hl. unfold load.
  destruct (Z.ltb_spec (Z.of_nat (length file)) 17) as [|H17]; [cbn; congruence|].
  destruct (list_eq_dec Z.eq_dec (firstn 7 file) magic) as [Hm|]; [|cbn; congruence]. cbn [negb].
  destruct (_ || _) eqn:Hv; [cbn; congruence|]. apply version_test in Hv.
  rewrite (Z.mod_small (Z.of_nat (length file) - 17)) by lia.
  fold (declared_bytes be file).
  destruct (Z.eqb_spec (declared_bytes be file) (Z.of_nat (length file) - 17)) as [E|]; [|cbn; congruence].
  intros _. split; [lia|]. auto.
Qed.
