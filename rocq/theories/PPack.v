(** Proofs about pack754/unpack754. *)
From Coq Require Import ZArith List Bool Lia.
From Verif Require Import MErr MPack.
Open Scope Z_scope.

(** ** Specification: IEEE-754 binary64 *)

(** A normal double: 53-bit mantissa, exponent range of binary64. *)
Definition normal_double (m e : Z) : Prop :=
  2 ^ 52 <= m < 2 ^ 53 /\ -1074 <= e <= 971.

(** Its bit pattern: sign, 11 bits of biased exponent, 52 bits of fraction. *)
Definition ieee754_word (neg : bool) (m e : Z) : Z :=
  (if neg then 2 ^ 63 else 0) + (e + 1075) * 2 ^ 52 + (m - 2 ^ 52).

(** ** Bit lemmas *)

Lemma lor_shiftl_add b a n : 0 <= n -> 0 <= a < 2 ^ n -> Z.lor (Z.shiftl b n) a = b * 2 ^ n + a.
Proof.
  intros Hn Ha. rewrite Z.shiftl_mul_pow2 by assumption.
  assert (Hland : Z.land (b * 2 ^ n) a = 0).
  { apply Z.bits_inj'. intros k Hk. rewrite Z.land_spec, Z.bits_0.
    destruct (Z.lt_ge_cases k n) as [Hkn|Hkn].
    - rewrite Z.mul_pow2_bits_low by assumption. reflexivity.
    - destruct (Z.eq_dec a 0) as [->|Hz]; [rewrite Z.bits_0; apply andb_false_r|].
      rewrite (Z.bits_above_log2 a k); [apply andb_false_r|lia|].
      apply Z.log2_lt_pow2; [lia|]. apply Z.lt_le_trans with (2 ^ n); [lia|].
      apply Z.pow_le_mono_r; lia. }
  rewrite <- Z.lxor_lor by assumption. rewrite <- Z.add_nocarry_lxor by assumption. reflexivity.
Qed.

Lemma land_ones_mod a n : 0 <= n -> Z.land a (Z.shiftl 1 n - 1) = a mod 2 ^ n.
Proof.
  intros Hn. rewrite Z.shiftl_1_l.
  replace (2 ^ n - 1) with (Z.ones n) by (rewrite Z.ones_equiv; lia).
  apply Z.land_ones. exact Hn.
Qed.

(** ** The normalisation loops on a 53-bit mantissa *)

Lemma norm_down_step fuel m e s : 2 ^ 52 <= m < 2 ^ 53 -> (Z.to_nat (e + 52) < fuel)%nat ->
  norm_down fuel (XFin (m, e)) s
  = if -52 <=? e then Some (XFin (m, -52), s + (e + 52)) else Some (XFin (m, e), s).
Proof.
  intros Hm. revert e s. induction fuel as [|f IH]; intros e s Hf; [lia|].
  cbn [norm_down x_ge2 x_half]. unfold d_leb, d_align, d_two; cbn [fst snd].
  destruct (Z.leb_spec (-52) e) as [He|He].
  - destruct (Z.eq_dec e (-52)) as [->|Hne].
    + change (Z.min 0 (-52)) with (-52).
      replace (2 * 2 ^ (0 - -52) <=? m * 2 ^ (-52 - -52)) with false
        by (symmetry; apply Z.leb_gt; cbn; cbn in Hm; lia).
      do 2 f_equal. lia.
    + replace (2 * 2 ^ (0 - Z.min 0 e) <=? m * 2 ^ (e - Z.min 0 e)) with true.
      * unfold d_half; cbn [fst snd]. rewrite IH by lia.
        destruct (Z.leb_spec (-52) (e - 1)); [|lia]. do 2 f_equal. lia.
      * symmetry. apply Z.leb_le.
        destruct (Z.le_gt_cases 0 e).
        -- rewrite Z.min_l by lia. replace (0 - 0) with 0 by lia.
           replace (e - 0) with e by lia.
           assert (1 <= 2 ^ e) by (apply (Z.pow_le_mono_r 2 0 e); lia).
           nia.
        -- rewrite Z.min_r by lia. replace (e - e) with 0 by lia.
           change (2 ^ 0) with 1. replace (0 - e) with (- e) by lia.
           assert (2 * 2 ^ (- e) = 2 ^ (1 - e)) as -> by
             (replace (1 - e) with (1 + - e) by lia; rewrite Z.pow_add_r by lia; reflexivity).
           apply Z.le_trans with (2 ^ 52); [apply Z.pow_le_mono_r; lia|lia].
  - rewrite Z.min_r by lia. replace (e - e) with 0 by lia. change (2 ^ 0) with 1.
    replace (2 * 2 ^ (0 - e) <=? m * 1) with false; [reflexivity|].
    symmetry. apply Z.leb_gt.
    assert (2 * 2 ^ (0 - e) = 2 ^ (1 - e)) as -> by
      (replace (1 - e) with (1 + (0 - e)) by lia; rewrite Z.pow_add_r by lia; reflexivity).
    assert (2 ^ 53 <= 2 ^ (1 - e)) by (apply Z.pow_le_mono_r; lia). lia.
Qed.

Lemma norm_up_step fuel m e s : 2 ^ 52 <= m < 2 ^ 53 -> e <= -52 -> (Z.to_nat (- 52 - e) < fuel)%nat ->
  norm_up fuel (XFin (m, e)) s = Some (XFin (m, -52), s + (e + 52)).
Proof.
  intros Hm. revert e s. induction fuel as [|f IH]; intros e s He Hf; [lia|].
  cbn [norm_up x_lt1 x_double]. unfold d_ltb, d_align, d_one; cbn [fst snd].
  rewrite Z.min_l by lia. replace (e - e) with 0 by lia. change (2 ^ 0) with 1.
  destruct (Z.eq_dec e (-52)) as [->|Hne].
  - replace (m * 1 <? 1 * 2 ^ (0 - -52)) with false
      by (symmetry; apply Z.ltb_ge; cbn; cbn in Hm; lia).
    do 2 f_equal. lia.
  - replace (m * 1 <? 1 * 2 ^ (0 - e)) with true.
    + unfold d_double; cbn [fst snd]. rewrite IH by lia. do 2 f_equal. lia.
    + symmetry. apply Z.ltb_lt.
      assert (2 ^ 53 <= 2 ^ (0 - e)) by (apply Z.pow_le_mono_r; lia). lia.
Qed.

Lemma d_sub_one m : d_sub (m, -52) d_one = (m - 2 ^ 52, -52).
Proof.
  unfold d_sub, d_align, d_one; cbn [fst snd]. change (Z.min (-52) 0) with (-52).
  change (2 ^ (-52 - -52)) with 1. change (2 ^ (0 - -52)) with (2 ^ 52). f_equal. lia.
Qed.

Lemma pack_finite fuel neg m e : 2 ^ 52 <= m < 2 ^ 53 ->
  (Z.to_nat (Z.abs (e + 52)) < fuel)%nat ->
  pack754_64 fuel (FFin neg m e)
  = if e + 1075 <? 0 then UB
    else Ok (Z.lor (Z.lor (Z.shiftl (if neg then 1 else 0) 63) (Z.shiftl (e + 1075) 52)) (m - 2 ^ 52)).
Proof.
  intros Hm Hf. unfold pack754_64, pack754. cbn [pack_abs].
  rewrite norm_down_step by (try assumption; lia).
  assert (Hf2 : exists x s, (if -52 <=? e then Some (XFin (m, -52), 0 + (e + 52)) else Some (XFin (m, e), 0)) = Some (XFin (m, x), s)
                        /\ x <= -52 /\ s + (x + 52) = e + 52 /\ (Z.to_nat (-52 - x) < fuel)%nat).
  { destruct (Z.leb_spec (-52) e); eexists; eexists; split; try reflexivity; lia. }
  destruct Hf2 as (x & s & -> & Hx & Hs & Hfx).
  rewrite norm_up_step by assumption. rewrite Hs.
  rewrite d_sub_one.
  replace (e + 52 + (Z.shiftl 1 (11 - 1) - 1)) with (e + 1075) by (change (Z.shiftl 1 (11 - 1)) with 1024; lia).
  destruct (e + 1075 <? 0); [reflexivity|].
  change (64 - 11 - 1) with 52. change (64 - 1) with 63.
  unfold d_mul, sig_scale; cbn [fst snd]. change (-52 + 52) with 0.
  unfold d_trunc; cbn [fst snd]. rewrite Z.leb_refl. change (2 ^ 0) with 1.
  do 2 f_equal. lia.
Qed.

Lemma pack_normal fuel neg m e : normal_double m e -> (1100 <= Z.of_nat fuel) ->
  pack754_64 fuel (FFin neg m e) = Ok (ieee754_word neg m e).
Proof.
  intros (Hm & He) Hf. rewrite pack_finite by (try assumption; lia).
  destruct (Z.ltb_spec (e + 1075) 0); [lia|]. f_equal. unfold ieee754_word.
  rewrite <- Z.lor_assoc.
  rewrite lor_shiftl_add with (b := e + 1075) by (try lia; split; lia).
  rewrite lor_shiftl_add.
  - destruct neg; lia.
  - lia.
  - split; nia.
Qed.

Lemma iter_double k m e : Nat.iter k d_double (m, e) = (m, e + Z.of_nat k).
Proof.
  induction k as [|k IH]; [cbn; f_equal; lia|].
  cbn [Nat.iter nat_rect]. fold (Nat.iter k d_double (m, e)). rewrite IH. unfold d_double; cbn [fst snd]. f_equal. lia.
Qed.
Lemma iter_half k m e : Nat.iter k d_half (m, e) = (m, e - Z.of_nat k).
Proof.
  induction k as [|k IH]; [cbn; f_equal; lia|].
  cbn [Nat.iter nat_rect]. fold (Nat.iter k d_half (m, e)). rewrite IH. unfold d_half; cbn [fst snd]. f_equal. lia.
Qed.
Lemma scale_loop_spec m e s : scale_loop (m, e) s = (m, e + s).
Proof.
  unfold scale_loop. destruct (Z.ltb_spec 0 s).
  - rewrite iter_double. f_equal. lia.
  - rewrite iter_half. f_equal. lia.
Qed.

Lemma word_fields neg m e : normal_double m e ->
  let w := ieee754_word neg m e in
  0 < w < 2 ^ 64 /\ w mod 2 ^ 52 = m - 2 ^ 52 /\ (w / 2 ^ 52) mod 2 ^ 11 = e + 1075
  /\ (w / 2 ^ 63) = (if neg then 1 else 0).
Proof.
  intros (Hm & He). cbv zeta. unfold ieee754_word.
  assert (Hw : (if neg then 2 ^ 63 else 0) + (e + 1075) * 2 ^ 52 + (m - 2 ^ 52)
               = ((if neg then 1 else 0) * 2 ^ 11 + (e + 1075)) * 2 ^ 52 + (m - 2 ^ 52))
    by (destruct neg; lia).
  assert (Hf : 0 <= m - 2 ^ 52 < 2 ^ 52) by (lia).
  repeat split.
  - destruct neg; nia.
  - destruct neg; nia.
  - rewrite Hw. rewrite Z.add_comm, Z.mod_add by (lia). apply Z.mod_small; lia.
  - rewrite Hw. rewrite Z.div_add_l by (lia).
    rewrite (Z.div_small (m - 2 ^ 52)) by lia. rewrite Z.add_0_r.
    rewrite Z.add_comm, Z.mod_add by (lia). apply Z.mod_small; lia.
  - symmetry. apply Z.div_unique with (r := (e + 1075) * 2 ^ 52 + (m - 2 ^ 52)).
    + left. nia.
    + destruct neg; lia.
Qed.

Lemma unpack_word neg m e : normal_double m e ->
  unpack754_64 (ieee754_word neg m e) = FFin neg m e.
Proof.
  intros Hn. destruct (word_fields neg m e Hn) as (Hr & Hf & He & Hs).
  unfold unpack754_64, unpack754. change (64 - 11 - 1) with 52.
  destruct (Z.eqb_spec (ieee754_word neg m e) 0) as [Hz|_]; [lia|].
  cbn [fst]. rewrite !land_ones_mod by lia. rewrite !Z.shiftr_div_pow2 by lia.
  rewrite Hf, He. rewrite scale_loop_spec. cbn [fst snd].
  change (64 - 1) with 63. rewrite Hs.
  f_equal.
  - destruct neg; reflexivity.
  - lia.
  - change (Z.shiftl 1 (11 - 1)) with 1024; lia.
Qed.

(** ** Arbitrary words with an exponent field of a normal number *)

Lemma unpack_any w : 0 <= w < 2 ^ 64 -> 1 <= (w / 2 ^ 52) mod 2 ^ 11 <= 2046 ->
  exists neg m e, normal_double m e /\ w = ieee754_word neg m e.
Proof.
  intros Hw He.
  exists (negb (w / 2 ^ 63 =? 0)), (w mod 2 ^ 52 + 2 ^ 52), ((w / 2 ^ 52) mod 2 ^ 11 - 1075).
  pose proof (Z.mod_pos_bound w (2 ^ 52) ltac:(lia)) as Hm.
  split.
  - split; [|lia]. lia.
  - unfold ieee754_word.
    pose proof (Z.div_mod w (2 ^ 52) ltac:(lia)) as H1.
    pose proof (Z.div_mod (w / 2 ^ 52) (2 ^ 11) ltac:(lia)) as H2.
    rewrite Z.div_div in H2 by (lia). change (2 ^ 52 * 2 ^ 11) with (2 ^ 63) in H2.
    assert (H3 : 0 <= w / 2 ^ 63 < 2).
    { split; [apply Z.div_pos; lia|]. apply Z.div_lt_upper_bound; lia. }
    destruct (Z.eqb_spec (w / 2 ^ 63) 0) as [Hz|Hz]; cbn [negb].
    + rewrite Hz in H2. lia.
    + assert (w / 2 ^ 63 = 1) as Hz1 by lia. rewrite Hz1 in H2.
      rewrite H2 in H1.
      change (2 ^ 63) with (2 ^ 52 * (2 ^ 11 * 1)). lia.
Qed.

Lemma word_roundtrip fuel w : 1100 <= Z.of_nat fuel -> 0 <= w < 2 ^ 64 -> 1 <= (w / 2 ^ 52) mod 2 ^ 11 <= 2046 ->
  pack754_64 fuel (unpack754_64 w) = Ok w.
Proof.
  intros Hf Hw He. destruct (unpack_any w Hw He) as (neg & m & e & Hn & ->).
  rewrite unpack_word by assumption. apply pack_normal; assumption.
Qed.

Lemma ieee_word_inj n1 m1 e1 n2 m2 e2 : normal_double m1 e1 -> normal_double m2 e2 ->
  ieee754_word n1 m1 e1 = ieee754_word n2 m2 e2 -> FFin n1 m1 e1 = FFin n2 m2 e2.
Proof.
  intros H1 H2 H. rewrite <- (unpack_word n1 m1 e1 H1), <- (unpack_word n2 m2 e2 H2), H. reflexivity.
Qed.

(** ** Special values *)

Lemma norm_down_inf fuel s : norm_down fuel XInf s = None.
Proof. revert s; induction fuel as [|f IH]; intros s; [reflexivity|]. cbn. apply IH. Qed.

Lemma pack_inf fuel neg : pack754_64 fuel (FInf neg) = Diverges.
Proof. unfold pack754_64, pack754. cbn [pack_abs]. rewrite norm_down_inf. reflexivity. Qed.

Lemma pack_nan fuel : (0 < fuel)%nat -> pack754_64 fuel FNaN = UB.
Proof. destruct fuel; [lia|reflexivity]. Qed.

Lemma pack_subnormal_min fuel neg : 1100 <= Z.of_nat fuel ->
  exists w, pack754_64 fuel (FFin neg (2 ^ 52) (-1075)) = Ok w
            /\ unpack754_64 w = if neg then FFin true (2 ^ 52) (-1075) else FZero.
Proof.
  intros Hf. rewrite pack_finite by (try (lia); lia).
  change (-1075 + 1075 <? 0) with false. cbv iota.
  eexists; split; [reflexivity|]. destruct neg; reflexivity.
Qed.

Lemma pack_subnormal_ub fuel neg m e : 2 ^ 52 <= m < 2 ^ 53 -> -1127 <= e < -1075 ->
  1100 <= Z.of_nat fuel -> pack754_64 fuel (FFin neg m e) = UB.
Proof.
  intros Hm He Hf. rewrite pack_finite by (try assumption; lia).
  destruct (Z.ltb_spec (e + 1075) 0); [reflexivity|lia].
Qed.

(** Subnormals in [2^-1023, 2^-1022): the exponent field is 0. *)
Lemma pack_subnormal_big fuel neg m : 2 ^ 52 < m < 2 ^ 53 -> 1100 <= Z.of_nat fuel ->
  exists w, pack754_64 fuel (FFin neg m (-1075)) = Ok w /\ unpack754_64 w = FFin neg m (-1075).
Proof.
  intros Hm Hf. rewrite pack_finite by (try lia).
  change (-1075 + 1075) with 0. change (0 <? 0) with false. cbv iota.
  eexists; split; [reflexivity|]. rewrite Z.shiftl_0_l, Z.lor_0_r.
  rewrite lor_shiftl_add by (lia).
  set (w := (if neg then 1 else 0) * 2 ^ 63 + (m - 2 ^ 52)).
  unfold unpack754_64, unpack754. change (64 - 11 - 1) with 52.
  destruct (Z.eqb_spec w 0) as [Hz|_]; [subst w; destruct neg; lia|].
  cbn [fst]. rewrite !land_ones_mod by lia. rewrite !Z.shiftr_div_pow2 by lia.
  rewrite scale_loop_spec. cbn [fst snd]. change (64 - 1) with 63.
  assert (Hs : w / 2 ^ 63 = if neg then 1 else 0).
  { symmetry. apply Z.div_unique with (r := m - 2 ^ 52); [left; lia|].
    subst w. destruct neg; lia. }
  assert (Hm2 : w mod 2 ^ 52 = m - 2 ^ 52).
  { subst w. replace ((if neg then 1 else 0) * 2 ^ 63) with ((if neg then 2 ^ 11 else 0) * 2 ^ 52) by (destruct neg; reflexivity).
    rewrite Z.add_comm, Z.mod_add by (lia). apply Z.mod_small. lia. }
  assert (He2 : (w / 2 ^ 52) mod 2 ^ 11 = 0).
  { subst w. replace ((if neg then 1 else 0) * 2 ^ 63) with ((if neg then 2 ^ 11 else 0) * 2 ^ 52) by (destruct neg; reflexivity).
    rewrite Z.div_add_l by (lia). rewrite Z.div_small by (lia).
    destruct neg; reflexivity. }
  rewrite Hs, Hm2, He2. f_equal.
  - destruct neg; reflexivity.
  - lia.
Qed.

(** ** Statements in the form used by TPack.v *)
Lemma pack_normal_ieee : forall fuel neg m e,
  1100 <= Z.of_nat fuel -> 2 ^ 52 <= m < 2 ^ 53 -> -1074 <= e <= 971 ->
  pack754_64 fuel (FFin neg m e)
  = Ok ((if neg then 2 ^ 63 else 0) + ((e + 52) + 1023) * 2 ^ 52 + (m - 2 ^ 52)).
Proof.
  intros fuel neg m e Hf Hm He. rewrite pack_normal by (try split; lia).
  unfold ieee754_word. f_equal. lia.
Qed.
Lemma number_roundtrip : forall fuel neg m e,
  1100 <= Z.of_nat fuel -> 2 ^ 52 <= m < 2 ^ 53 -> -1074 <= e <= 971 ->
  exists w, pack754_64 fuel (FFin neg m e) = Ok w /\ 0 <= w < 2 ^ 64
            /\ unpack754_64 w = FFin neg m e.
Proof.
  intros fuel neg m e Hf Hm He.
  assert (Hn : normal_double m e) by (split; assumption).
  exists (ieee754_word neg m e). repeat split.
  - apply pack_normal; assumption.
  - destruct (word_fields neg m e Hn) as (Hr & _). lia.
  - destruct (word_fields neg m e Hn) as (Hr & _). lia.
  - apply unpack_word; assumption.
Qed.
Lemma zero_roundtrip : forall fuel, pack754_64 fuel FZero = Ok 0 /\ unpack754_64 0 = FZero.
Proof. intros; split; reflexivity. Qed.
Lemma pack_inf' : forall neg, forall fuel, pack754_64 fuel (FInf neg) = Diverges.
Proof. intros; apply pack_inf. Qed.
Lemma pack_subnormal_big' : forall fuel neg m,
  1100 <= Z.of_nat fuel -> 2 ^ 52 < m < 2 ^ 53 ->
  exists w, pack754_64 fuel (FFin neg m (-1075)) = Ok w
            /\ unpack754_64 w = FFin neg m (-1075).
Proof. intros; apply pack_subnormal_big; assumption. Qed.
Lemma pack_subnormal_min' : forall fuel, 1100 <= Z.of_nat fuel ->
  exists w, pack754_64 fuel (FFin false (2 ^ 52) (-1075)) = Ok w /\ unpack754_64 w = FZero.
Proof. intros fuel Hf. exact (pack_subnormal_min fuel false Hf). Qed.
Lemma pack_subnormal_ub' : forall fuel neg m e,
  1100 <= Z.of_nat fuel -> 2 ^ 52 <= m < 2 ^ 53 -> -1127 <= e < -1075 ->
  pack754_64 fuel (FFin neg m e) = UB.
Proof. intros; apply pack_subnormal_ub; assumption. Qed.
