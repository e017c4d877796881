From Coq Require Import Reals List Arith Lia Lra.
From Verif Require Import MErr MInterp SInterp.
Import ListNotations.
Open Scope R_scope.

Lemma vget_nth {A} (l : list A) i d : (i < length l)%nat -> vget l i = Ok (nth i l d).
Proof. intros H. unfold vget. rewrite (nth_error_nth' l d H). reflexivity. Qed.
Lemma vget_out {A} (l : list A) i : (length l <= i)%nat -> vget l i = UB.
Proof. intros H. unfold vget. apply nth_error_None in H. rewrite H. reflexivity. Qed.
Lemma vset_ok {A} (l : list A) i a : (i < length l)%nat ->
  exists l', vset l i a = Ok l' /\ length l' = length l /\
   forall k d, nth k l' d = if (k =? i)%nat then a else nth k l d.
Proof.
  revert i. induction l as [|b l IH]; intros i H; [cbn in H; lia|].
  destruct i as [|i]; cbn in *.
  - exists (a :: l). split; [reflexivity|]. split; [reflexivity|]. intros [|k] d; reflexivity.
  - destruct (IH i ltac:(lia)) as (l' & E & L & N). rewrite E. cbn.
    exists (b :: l'). split; [reflexivity|]. split; [cbn; lia|].
    intros [|k] d; cbn; [reflexivity|apply N].
Qed.
Lemma vset_out {A} (l : list A) i a : (length l <= i)%nat -> vset l i a = UB.
Proof.
  revert i. induction l as [|b l IH]; intros i H; [reflexivity|].
  destruct i as [|i]; cbn in *; [lia|]. rewrite IH by lia. reflexivity.
Qed.

Lemma incr_le xp i j : increasing xp -> (i <= j < length xp)%nat -> nth i xp 0 <= nth j xp 0.
Proof.
  intros H Hij. destruct (Nat.eq_dec i j) as [->|]; [lra|]. left. apply H. lia.
Qed.

Lemma scan_spec xp x k : forall i,
  (1 <= i)%nat -> (i + k = length xp)%nat ->
  nth (i - 1) xp 0 < x -> x < nth (length xp - 1) xp 0 ->
  exists j, if_scan xp x i k = Ok (j, (x - nth (j - 1) xp 0) / (nth j xp 0 - nth (j - 1) xp 0))
   /\ (i <= j < length xp)%nat /\ nth (j - 1) xp 0 < x <= nth j xp 0.
Proof.
  induction k as [|k IH]; intros i Hi Hk Hl Hu.
  - exfalso. replace (length xp) with i in Hu by lia. lra.
  - cbn [if_scan]. rewrite (vget_nth _ _ 0) by lia. cbn [obind].
    destruct (Rle_dec x (nth i xp 0)) as [H|H].
    + rewrite (vget_nth _ _ 0) by lia. cbn. exists i. split; [reflexivity|]. split; [lia|lra].
    + destruct (IH (S i)) as (j & E & Hj & Hx); try lia; try lra.
      { replace (S i - 1)%nat with i by lia. lra. }
      exists j. split; [exact E|]. split; [lia|exact Hx].
Qed.

(** the hint after clamping *)
Definition hint (xp : list R) (i0 : nat) : nat := Nat.min (Nat.max i0 1) (length xp - 1).

Lemma interp_factor_cases xp i0 x : (2 <= length xp)%nat ->
  let h := hint xp i0 in
  (x <= nth (h - 1) xp 0 /\ interp_factor xp i0 x = Ok (h, 0)) \/
  (nth (h - 1) xp 0 < x /\ nth (length xp - 1) xp 0 <= x /\
     interp_factor xp i0 x = Ok ((length xp - 1)%nat, 1)) \/
  (exists j, (h <= j < length xp)%nat /\ nth (j - 1) xp 0 < x <= nth j xp 0 /\
     x < nth (length xp - 1) xp 0 /\
     interp_factor xp i0 x = Ok (j, (x - nth (j - 1) xp 0) / (nth j xp 0 - nth (j - 1) xp 0))).
Proof.
  intros Hn h. unfold interp_factor.
  destruct (Nat.eqb_spec (length xp) 1); [lia|]. destruct (Nat.eqb_spec (length xp) 0); [lia|].
  replace (if (length xp - 1 <? if (i0 =? 0)%nat then 1 else i0)%nat then (length xp - 1)%nat
           else if (i0 =? 0)%nat then 1%nat else i0) with h.
  2:{ unfold h, hint. destruct (Nat.eqb_spec i0 0); destruct (Nat.ltb_spec (length xp - 1) 1);
      destruct (Nat.ltb_spec (length xp - 1) i0); lia. }
  assert (Hh : (1 <= h <= length xp - 1)%nat) by (unfold h, hint; lia).
  rewrite (vget_nth _ _ 0) by lia. cbn [obind].
  destruct (Rle_dec x (nth (h - 1) xp 0)) as [H|H]; [left; split; [exact H|reflexivity]|right].
  rewrite (vget_nth _ _ 0) by lia. cbn [obind].
  destruct (Rge_dec x (nth (length xp - 1) xp 0)) as [H2|H2].
  - left. split; [lra|]. split; [lra|reflexivity].
  - right. destruct (scan_spec xp x (length xp - h) h) as (j & E & Hj & Hx); try lia; try lra.
    exists j. split; [exact Hj|]. split; [exact Hx|]. split; [lra|exact E].
Qed.

Lemma frac01 a b x : a < x <= b -> 0 <= (x - a) / (b - a) <= 1.
Proof.
  intros H. split.
  - apply Rle_mult_inv_pos; lra.
  - apply (Rmult_le_reg_r (b - a)); [lra|]. unfold Rdiv. rewrite Rmult_assoc, Rinv_l by lra. lra.
Qed.

Lemma interp_factor_range xp i0 x : (2 <= length xp)%nat ->
  exists j f, interp_factor xp i0 x = Ok (j, f) /\ (1 <= j < length xp)%nat /\ 0 <= f <= 1.
Proof.
  intros Hn. destruct (interp_factor_cases xp i0 x Hn) as [(H & E)|[(H & H2 & E)|(j & Hj & Hx & Hl & E)]].
  - exists (hint xp i0), 0. split; [exact E|]. split; [unfold hint; lia|lra].
  - exists (length xp - 1)%nat, 1. split; [exact E|]. split; [lia|lra].
  - eexists j, _. split; [exact E|]. split; [unfold hint in *; lia|]. apply frac01; lra.
Qed.

Lemma interp_factor_segment xp x : increasing xp -> (2 <= length xp)%nat ->
  exists j f, interp_factor xp 1 x = Ok (j, f) /\ (1 <= j < length xp)%nat /\ 0 <= f <= 1 /\
   (nth 0 xp 0 <= x <= nth (length xp - 1) xp 0 ->
      nth (j - 1) xp 0 <= x <= nth j xp 0 /\ x = nth (j - 1) xp 0 + f * (nth j xp 0 - nth (j - 1) xp 0)) /\
   (x <= nth 0 xp 0 -> j = 1%nat /\ f = 0) /\
   (nth (length xp - 1) xp 0 <= x -> j = (length xp - 1)%nat /\ f = 1).
Proof.
  intros Hi Hn.
  assert (H01 : nth 0 xp 0 < nth (length xp - 1) xp 0) by (apply Hi; lia).
  assert (Eh : hint xp 1 = 1%nat) by (unfold hint; lia).
  destruct (interp_factor_cases xp 1 x Hn) as [(H & E)|[(H & H2 & E)|(j & Hj & Hx & Hl & E)]]; rewrite ?Eh in *.
  - exists 1%nat, 0. split; [exact E|]. split; [lia|]. split; [lra|].
    cbn [Nat.sub] in *. assert (nth 0 xp 0 < nth 1 xp 0) by (apply Hi; lia).
    repeat split; intros; try lra; try lia.
  - exists (length xp - 1)%nat, 1. split; [exact E|]. split; [lia|]. split; [lra|].
    assert (nth (length xp - 1 - 1) xp 0 < nth (length xp - 1) xp 0) by (apply Hi; lia).
    cbn [Nat.sub] in H. repeat split; intros; try lra; try lia.
  - exists j. eexists. split; [exact E|]. split; [lia|].
    split; [apply frac01; lra|].
    assert (nth 0 xp 0 <= nth (j - 1) xp 0) by (apply incr_le; [assumption|lia]).
    repeat split; intros; try lra; try lia. field. lra.
Qed.

Lemma pick_ok yp j f : (1 <= j < length yp)%nat ->
  pick yp j f = Ok (nth (j - 1) yp 0 + f * (nth j yp 0 - nth (j - 1) yp 0)).
Proof.
  intros H. destruct j as [|j]; [lia|]. unfold pick.
  rewrite (vget_nth yp j 0), (vget_nth yp (S j) 0) by lia. cbn [obind].
  replace (S j - 1)%nat with j by lia. reflexivity.
Qed.

(** uniqueness of the specified value *)
Lemma find_segment xp x : increasing xp -> (2 <= length xp)%nat ->
  nth 0 xp 0 <= x <= nth (length xp - 1) xp 0 ->
  exists k, (S k < length xp)%nat /\ nth k xp 0 <= x <= nth (S k) xp 0.
Proof.
  intros Hi Hn Hx. destruct (interp_factor_segment xp x Hi Hn) as (j & f & _ & Hj & _ & Hs & _).
  destruct (Hs Hx) as [H _]. exists (j - 1)%nat. split; [lia|]. replace (S (j - 1)) with j by lia. exact H.
Qed.

Lemma lin_interp_unique xp yp x y y' : increasing xp -> xp <> [] ->
  lin_interp xp yp x y -> lin_interp xp yp x y' -> y = y'.
Proof.
  intros Hi Hne (A1 & A2 & A3) (B1 & B2 & B3).
  destruct (Rle_dec x (nth 0 xp 0)) as [H|H]; [rewrite A1, B1 by assumption; reflexivity|].
  destruct (Rle_dec (nth (length xp - 1) xp 0) x) as [H'|H']; [rewrite A2, B2 by assumption; reflexivity|].
  assert (2 <= length xp)%nat.
  { destruct xp as [|a [|b l]]; [congruence| |cbn; lia]. cbn in *. lra. }
  destruct (find_segment xp x) as (k & Hk & Hx); try assumption; [lra|].
  specialize (A3 k Hk Hx). specialize (B3 k Hk Hx).
  assert (nth k xp 0 < nth (S k) xp 0) by (apply Hi; lia).
  apply (Rmult_eq_reg_r (nth (S k) xp 0 - nth k xp 0)); lra.
Qed.

(** a segment [m-1,m] with x = convex combination determines the spec *)
Lemma lin_interp_intro xp yp x j f : increasing xp -> (1 <= j < length xp)%nat -> 0 <= f <= 1 ->
  (x <= nth 0 xp 0 /\ j = 1%nat /\ f = 0) \/
  (nth (length xp - 1) xp 0 <= x /\ j = (length xp - 1)%nat /\ f = 1) \/
  (x = nth (j - 1) xp 0 + f * (nth j xp 0 - nth (j - 1) xp 0)) ->
  lin_interp xp yp x (nth (j - 1) yp 0 + f * (nth j yp 0 - nth (j - 1) yp 0)).
Proof.
  intros Hi Hj Hf H.
  assert (Hlt : nth (j - 1) xp 0 < nth j xp 0) by (apply Hi; lia).
  assert (H01 : nth 0 xp 0 < nth (length xp - 1) xp 0) by (apply Hi; lia).
  destruct H as [(Hx & -> & ->)|[(Hx & -> & ->)|Hx]].
  - cbn [Nat.sub] in *. split; [intros; ring|]. split; [intros; lra|].
    intros k Hk Hkx. destruct k as [|k].
    + replace x with (nth 0 xp 0) by lra. ring.
    + exfalso. assert (nth 0 xp 0 < nth (S k) xp 0) by (apply Hi; lia). lra.
  - split; [intros; lra|]. split; [intros; ring|].
    intros k Hk Hkx. destruct (Nat.eq_dec (S k) (length xp - 1)) as [E|E].
    + rewrite <- E in *. replace (S k - 1)%nat with k by lia.
      replace x with (nth (S k) xp 0) by lra. ring.
    + exfalso. assert (nth (S k) xp 0 < nth (length xp - 1) xp 0) by (apply Hi; lia). lra.
  - assert (Hin : nth (j - 1) xp 0 <= x <= nth j xp 0).
    { assert (0 <= f * (nth j xp 0 - nth (j - 1) xp 0) <= 1 * (nth j xp 0 - nth (j - 1) xp 0)).
      { split; [apply Rmult_le_pos; lra|apply Rmult_le_compat_r; lra]. } lra. }
    set (a := nth (j - 1) xp 0) in *. set (b := nth j xp 0) in *.
    assert (Hf0 : x = a -> f = 0).
    { intros ->. assert (f * (b - a) = 0) by lra. destruct (Rmult_integral _ _ H); lra. }
    assert (Hf1 : x = b -> f = 1).
    { intros E. assert ((f - 1) * (b - a) = 0) by lra. destruct (Rmult_integral _ _ H); lra. }
    split; [|split].
    + intros H. assert (Hle : nth 0 xp 0 <= a) by (unfold a; apply incr_le; [assumption|lia]).
      destruct (Nat.eq_dec j 1) as [->|Hj1].
      * cbn [Nat.sub] in *. unfold a in *. rewrite Hf0 by lra. ring.
      * exfalso. assert (nth 0 xp 0 < a) by (unfold a; apply Hi; lia). lra.
    + intros H. destruct (Nat.eq_dec j (length xp - 1)) as [E|E].
      * subst j. unfold b in *. rewrite Hf1 by lra. ring.
      * exfalso. assert (b < nth (length xp - 1) xp 0) by (unfold b; apply Hi; lia). lra.
    + intros k Hk Hkx. destruct (lt_eq_lt_dec (S k) j) as [[L|E]|G].
      * (* the segment lies before: x is its right end and the left end of j *)
        assert (nth (S k) xp 0 <= a) by (unfold a; apply incr_le; [assumption|lia]).
        assert (Hxa : x = a) by lra. rewrite (Hf0 Hxa).
        assert (ES : S k = (j - 1)%nat).
        { destruct (Nat.eq_dec (S k) (j - 1)) as [|N]; [assumption|].
          exfalso. assert (nth (S k) xp 0 < a) by (unfold a; apply Hi; lia). lra. }
        unfold a in *. rewrite Hxa. rewrite <- ES. ring.
      * assert (Ek : (j - 1)%nat = k) by lia. unfold a, b in Hx. rewrite Ek in Hx. rewrite Ek.
        rewrite <- E in Hx. rewrite <- E. rewrite Hx. ring.
      * assert (b <= nth k xp 0) by (unfold b; apply incr_le; [assumption|lia]).
        assert (Hxb : x = b) by lra. rewrite (Hf1 Hxb).
        assert (ES : k = j).
        { destruct (Nat.eq_dec k j) as [|N]; [assumption|].
          exfalso. assert (b < nth k xp 0) by (unfold b; apply Hi; lia). lra. }
        subst k. unfold b in *. rewrite Hxb. ring.
Qed.

Definition admissible (xp : list R) (i0 : nat) (x : R) : Prop :=
  (i0 <= 1)%nat \/ (nth (Nat.min i0 (length xp - 1) - 1) xp 0 <= x).

Lemma interp_from_hint xp yp i0 x : increasing xp -> (2 <= length xp)%nat -> length yp = length xp ->
  admissible xp i0 x ->
  exists j f y, interp_factor xp i0 x = Ok (j, f) /\ (1 <= j < length xp)%nat /\
    pick yp j f = Ok y /\ lin_interp xp yp x y /\
    nth (j - 1) xp 0 <= Rmax x (nth 0 xp 0).
Proof.
  intros Hi Hn Hl Ha.
  assert (Hh : (1 <= hint xp i0 <= length xp - 1)%nat) by (unfold hint; lia).
  pose proof (Rmax_l x (nth 0 xp 0)) as M1. pose proof (Rmax_r x (nth 0 xp 0)) as M2.
  destruct (interp_factor_cases xp i0 x Hn) as [(H & E)|[(H & H2 & E)|(j & Hj & Hx & Hlt & E)]].
  - exists (hint xp i0), 0. eexists. split; [exact E|]. split; [lia|].
    split; [apply pick_ok; lia|]. split; [|].
    + apply lin_interp_intro; [assumption|lia|lra|].
      destruct Ha as [Ha|Ha].
      * assert (hint xp i0 = 1%nat) as Eh by (unfold hint; lia). rewrite Eh in *.
        left. cbn [Nat.sub] in H. split; [exact H|]. split; reflexivity.
      * destruct (le_lt_dec i0 1) as [L|L].
        -- assert (hint xp i0 = 1%nat) as Eh by (unfold hint; lia). rewrite Eh in *.
           left. cbn [Nat.sub] in H. split; [exact H|]. split; reflexivity.
        -- right; right. replace (Nat.min i0 (length xp - 1)) with (hint xp i0) in Ha by (unfold hint; lia). lra.
    + destruct Ha as [Ha|Ha].
      * assert (hint xp i0 = 1%nat) as Eh by (unfold hint; lia). rewrite Eh. exact M2.
      * destruct (le_lt_dec i0 1) as [L|L].
        -- assert (hint xp i0 = 1%nat) as Eh by (unfold hint; lia). rewrite Eh. exact M2.
        -- replace (Nat.min i0 (length xp - 1)) with (hint xp i0) in Ha by (unfold hint; lia). lra.
  - exists (length xp - 1)%nat, 1. eexists. split; [exact E|]. split; [lia|].
    split; [apply pick_ok; lia|]. split.
    + apply lin_interp_intro; [assumption|lia|lra|]. right; left. split; [exact H2|]. split; reflexivity.
    + assert (nth (length xp - 1 - 1) xp 0 <= nth (length xp - 1) xp 0) by (apply incr_le; [assumption|lia]). lra.
  - exists j. do 2 eexists. split; [exact E|]. split; [lia|].
    split; [apply pick_ok; lia|]. split; [|lra].
    apply lin_interp_intro; [assumption|lia|apply frac01; lra|].
    right; right. field. lra.
Qed.

Lemma interp_spec xp yp x : increasing xp -> xp <> [] -> length yp = length xp ->
  exists y, interp xp yp x = Ok y /\ lin_interp xp yp x y.
Proof.
  intros Hi Hne Hl. unfold interp.
  destruct yp as [|a [|b yp]].
  - destruct xp; [congruence|discriminate].
  - exists a. split; [reflexivity|]. destruct xp as [|c [|d xp]]; try discriminate.
    split; [reflexivity|]. split; [reflexivity|]. cbn. intros; lia.
  - destruct (interp_from_hint xp (a :: b :: yp) 1 x) as (j & f & y & E & Hj & Ep & Hs & _);
      try assumption; [cbn in *; lia|left; lia|].
    exists y. split; [|exact Hs]. rewrite E. cbn [obind fst snd]. exact Ep.
Qed.

Lemma interp_node xp yp k : increasing xp -> length yp = length xp -> (k < length xp)%nat ->
  interp xp yp (nth k xp 0) = Ok (nth k yp 0).
Proof.
  intros Hi Hl Hk.
  assert (Hne : xp <> []) by (destruct xp; [cbn in Hk; lia|discriminate]).
  destruct (interp_spec xp yp (nth k xp 0) Hi Hne Hl) as (y & E & H1 & H2 & H3).
  rewrite E. f_equal. destruct k as [|k]; [apply H1; lra|].
  assert (nth k xp 0 < nth (S k) xp 0) by (apply Hi; lia).
  specialize (H3 k Hk ltac:(lra)).
  apply (Rmult_eq_reg_r (nth (S k) xp 0 - nth k xp 0)); lra.
Qed.

Lemma lin_between xp yp x y k : increasing xp -> lin_interp xp yp x y ->
  (S k < length xp)%nat -> nth k xp 0 <= x <= nth (S k) xp 0 ->
  Rmin (nth k yp 0) (nth (S k) yp 0) <= y <= Rmax (nth k yp 0) (nth (S k) yp 0).
Proof.
  intros Hi (_ & _ & H3) Hk Hx. specialize (H3 k Hk Hx).
  assert (Hlt : nth k xp 0 < nth (S k) xp 0) by (apply Hi; lia).
  set (a := nth k xp 0) in *. set (b := nth (S k) xp 0) in *.
  set (c := nth k yp 0) in *. set (d := nth (S k) yp 0) in *.
  assert (Hy : y = c + (x - a) / (b - a) * (d - c)).
  { apply (Rmult_eq_reg_r (b - a)); [|lra].
    replace ((c + (x - a) / (b - a) * (d - c)) * (b - a)) with (c * (b - a) + (x - a) * (d - c)) by (field; lra). lra. }
  destruct (Req_dec x a) as [->|Hxa].
  - replace ((a - a) / (b - a)) with 0 in Hy by (field; lra). unfold Rmin, Rmax. destruct (Rle_dec c d); lra.
  - destruct (frac01 a b x ltac:(lra)) as [F0 F1]. set (f := (x - a) / (b - a)) in *. clearbody f.
    unfold Rmin, Rmax. destruct (Rle_dec c d).
    + assert (0 <= f * (d - c) <= 1 * (d - c)) by (split; [apply Rmult_le_pos; lra|apply Rmult_le_compat_r; lra]). lra.
    + assert (0 <= f * (c - d) <= 1 * (c - d)) by (split; [apply Rmult_le_pos; lra|apply Rmult_le_compat_r; lra]).
      assert (f * (d - c) = - (f * (c - d))) by ring. lra.
Qed.

Lemma interp_bounds xp yp x lo hi : increasing xp -> xp <> [] -> length yp = length xp ->
  Forall (within lo hi) yp -> exists y, interp xp yp x = Ok y /\ lo <= y <= hi.
Proof.
  intros Hi Hne Hl HF. destruct (interp_spec xp yp x Hi Hne Hl) as (y & E & Hs).
  exists y. split; [exact E|].
  assert (Hn : forall k, (k < length xp)%nat -> lo <= nth k yp 0 <= hi).
  { intros k Hk. apply (proj1 (Forall_forall _ _) HF). apply nth_In. lia. }
  assert (H0 : (0 < length xp)%nat) by (destruct xp; [congruence|cbn; lia]).
  destruct (Rle_dec x (nth 0 xp 0)) as [H|H].
  { destruct Hs as (-> & _); [apply Hn; lia|assumption]. }
  destruct (Rle_dec (nth (length xp - 1) xp 0) x) as [H'|H'].
  { destruct Hs as (_ & -> & _); [apply Hn; lia|assumption]. }
  assert (2 <= length xp)%nat.
  { destruct xp as [|a [|b l]]; [congruence| |cbn; lia]. cbn in *. lra. }
  destruct (find_segment xp x) as (k & Hk & Hx); try assumption; [lra|].
  pose proof (lin_between xp yp x y k Hi Hs Hk Hx) as Hb.
  pose proof (Hn k ltac:(lia)). pose proof (Hn (S k) ltac:(lia)).
  unfold Rmin, Rmax in Hb. destruct (Rle_dec (nth k yp 0) (nth (S k) yp 0)); lra.
Qed.

(** batched version *)
Lemma batch_loop xp yp : increasing xp -> (2 <= length xp)%nat -> length yp = length xp ->
  forall xs y i j,
  nondecreasing xs -> (i + length xs <= length y)%nat ->
  (forall x, In x xs -> admissible xp j x) ->
  exists y', interp_loop xp yp xs y i j = Ok y' /\ length y' = length y /\
   (forall k, (k < length xs)%nat -> lin_interp xp yp (nth k xs 0) (nth (i + k) y' 0)) /\
   (forall k, (k < i \/ i + length xs <= k)%nat -> nth k y' 0 = nth k y 0).
Proof.
  intros Hi Hn Hl. induction xs as [|x xs IH]; intros y i j Hnd Hlen Hadm.
  - exists y. split; [reflexivity|]. split; [reflexivity|]. split; [intros k Hk; cbn in Hk; lia|reflexivity].
  - cbn [interp_loop].
    destruct (interp_from_hint xp yp j x Hi Hn Hl) as (j' & f & v & E & Hj & Ep & Hs & Hmx).
    { apply Hadm. left; reflexivity. }
    rewrite E. cbn [obind fst snd]. rewrite Ep. cbn [obind].
    destruct (vset_ok y i v) as (y1 & Ey & Ly & Ny); [cbn in Hlen; lia|]. rewrite Ey. cbn [obind].
    destruct (IH y1 (S i) j') as (y' & E' & L' & A' & B').
    + intros a b Hab. apply (Hnd (S a) (S b)). cbn; lia.
    + cbn in Hlen. lia.
    + intros z Hz. destruct (In_nth _ _ 0 Hz) as (k & Hk & Ek).
      assert (Hxz : x <= z). { rewrite <- Ek. apply (Hnd 0%nat (S k)). cbn. lia. }
      destruct (le_lt_dec j' 1) as [L|L]; [left; exact L|right].
      replace (Nat.min j' (length xp - 1)) with j' by lia.
      assert (nth 0 xp 0 < nth (j' - 1) xp 0) by (apply Hi; lia).
      unfold Rmax in Hmx. destruct (Rle_dec x (nth 0 xp 0)); lra.
    + exists y'. split; [exact E'|]. split; [lia|]. split.
      * intros [|k] Hk.
        -- rewrite Nat.add_0_r. rewrite B' by lia. rewrite Ny, Nat.eqb_refl. exact Hs.
        -- cbn [nth]. replace (i + S k)%nat with (S i + k)%nat by lia. apply A'. cbn in Hk. lia.
      * intros k Hk. cbn [length] in Hk. rewrite B' by lia. rewrite Ny. destruct (Nat.eqb_spec k i); [lia|reflexivity].
Qed.

Lemma batch_spec xp yp xs y : increasing xp -> (2 <= length xp)%nat -> length yp = length xp ->
  nondecreasing xs -> (length xs <= length y)%nat ->
  exists y', interp_batch xp yp xs y = Ok y' /\ length y' = length y /\
   forall k, (k < length xs)%nat -> lin_interp xp yp (nth k xs 0) (nth k y' 0).
Proof.
  intros Hi Hn Hl Hnd Hlen. unfold interp_batch.
  destruct (batch_loop xp yp Hi Hn Hl xs y 0 1 Hnd ltac:(lia)) as (y' & E & L & A & _).
  { intros; left; lia. }
  exists y'. split; [|split; [exact L|exact A]].
  destruct yp as [|a [|b yp]]; [cbn in *; lia|cbn in *; lia|exact E].
Qed.

(** refutations *)
Ltac dec := repeat match goal with
  | |- context [Rle_dec ?a ?b] => destruct (Rle_dec a b); try lra
  | |- context [Rge_dec ?a ?b] => destruct (Rge_dec a b); try lra
  end.

Lemma batch_order_matters : exists xp yp xs y',
  increasing xp /\ length yp = length xp /\
  interp_batch xp yp xs [0; 0] = Ok y' /\ ~ lin_interp xp yp (nth 1 xs 0) (nth 1 y' 0).
Proof.
  exists [0; 1; 2; 3], [0; 1; 2; 3], [5/2; 1/2], [5/2; 2].
  split; [|split; [reflexivity|split]].
  - intros i j H. cbn in H. do 4 (destruct i as [|i]; [do 4 (destruct j as [|j]; [cbn; lia || lra|]); lia|]). lia.
  - unfold interp_batch, interp_loop, interp_factor. cbn. dec. cbn. dec. cbn.
    f_equal. f_equal; [field|]. f_equal; field.
  - intros (_ & _ & H). specialize (H 0%nat). cbn in H.
    specialize (H ltac:(lia) ltac:(lra)). lra.
Qed.

Lemma batch_single_value : exists xs y,
  interp_batch [0] [7] xs [0; 0] = Ok y /\ length xs = 2%nat /\ nth 1 y 0 <> 7.
Proof. exists [1; 2], [7; 0]. cbn. split; [reflexivity|split; [reflexivity|lra]]. Qed.

(** grids *)
Lemma mix_bounds f a b lo hi : 0 <= f <= 1 -> lo <= a <= hi -> lo <= b <= hi -> lo <= mix f a b <= hi.
Proof.
  intros Hf Ha Hb. unfold mix. split.
  - assert (0 <= (a - lo) * (1 - f)) by (apply Rmult_le_pos; lra).
    assert (0 <= (b - lo) * f) by (apply Rmult_le_pos; lra). nra.
  - assert (0 <= (hi - a) * (1 - f)) by (apply Rmult_le_pos; lra).
    assert (0 <= (hi - b) * f) by (apply Rmult_le_pos; lra). nra.
Qed.
