(** The state arithmetic acts on the parts of a system one by one. *)
From Coq Require Import Reals List Arith ZArith Bool Lra Lia Permutation.
From Verif Require Import MErr MVec MStateOps MMat MInterp MLine MRod MBody MScheme MSys SPart PPart.
From Verif Require MStep MNodes.
Import ListNotations.
Open Scope R_scope.

Lemma nth_some {A} (l : list A) i : (i < length l)%nat -> exists x, nth_error l i = Some x.
Proof. intro H. destruct (nth_error l i) eqn:E; [eauto|]. apply nth_error_None in E. lia. Qed.
Lemma some_lt {A} (l : list A) i x : nth_error l i = Some x -> (i < length l)%nat.
Proof. intro H. apply nth_error_Some. congruence. Qed.
Lemma zipw_nth {A B C} (f : A -> B -> outcome C) l m r : zipw f l m = Ok r -> (length l <= length m)%nat /\ length r = length l /\
  forall i a b, nth_error l i = Some a -> nth_error m i = Some b -> exists c, f a b = Ok c /\ nth_error r i = Some c.
Proof.
  revert m r. induction l as [|a l IH]; intros m r H.
  - cbn in H. injection H as <-. repeat split; [cbn; lia|]. intros [|i]; discriminate.
  - destruct m as [|b m]; cbn [zipw] in H; [discriminate|]. destruct (f a b) as [c| | |] eqn:E; cbn in H; try discriminate. destruct (zipw f l m) as [r1| | |] eqn:E1; cbn in H; try discriminate. injection H as <-. destruct (IH m r1 E1) as (L1 & L2 & N). cbn. split; [lia|]. split; [lia|].
    intros [|i] x y Hx Hy; cbn in Hx, Hy; [injection Hx as <-; injection Hy as <-; eauto|]. cbn. eauto.
Qed.
Lemma zipw_ok {A B C} (f : A -> B -> outcome C) l m : length l = length m -> (forall i a b, nth_error l i = Some a -> nth_error m i = Some b -> exists c, f a b = Ok c) -> exists r, zipw f l m = Ok r.
Proof.
  revert m. induction l as [|a l IH]; intros [|b m] HL H; cbn in HL; try lia; [eexists; reflexivity|]. cbn [zipw]. destruct (H 0%nat a b eq_refl eq_refl) as (c & ->). destruct (IH m ltac:(lia)) as (r & ->); [intros i; exact (H (S i))|]. cbn. eauto.
Qed.
Lemma zipw_part {A B C} (f : A -> B -> outcome C) no l l' m m' : length l = length m -> found no l l' -> found no m m' -> orel (fun r r' => found no r r' /\ length r = length l) (zipw f l m) (zipw f l' m').
Proof.
  intros HL H1 H2 r' E. destruct (zipw_nth f l' m' r' E) as (_ & _ & N). destruct (zipw_ok f l m HL) as (r & ER).
  { intros i a b Ha Hb. destruct (N _ a b (H1 i a Ha) (H2 i b Hb)) as (c & Hc & _). eauto. }
  exists r. split; [exact ER|]. destruct (zipw_nth f l m r ER) as (L1 & L2 & N1). split; [|exact L2]. intros i c Hc. destruct (nth_some l i) as (a & Ha); [rewrite <- L2; eapply some_lt; eassumption|]. destruct (nth_some m i) as (b & Hb); [rewrite <- HL, <- L2; eapply some_lt; eassumption|].
  destruct (N1 i a b Ha Hb) as (c1 & F1 & N2). destruct (N _ a b (H1 i a Ha) (H2 i b Hb)) as (c2 & F2 & N3). congruence.
Qed.
Lemma czip_part {A B C} (f : A -> B -> outcome C) no l l' m m' : length l = length m -> found no l l' -> found no m m' -> orel (fun r r' => found no r r' /\ length r = length l) (czip f l m) (czip f l' m').
Proof. intros HL H1 H2. unfold czip. rewrite (proj2 (Nat.eqb_eq _ _) HL). cbn [negb]. destruct (negb _); [intros r E; discriminate|]. now apply zipw_part. Qed.
Lemma omap_nth {A B} (f : A -> outcome B) l r : omap f l = Ok r -> length r = length l /\ forall i a, nth_error l i = Some a -> exists b, f a = Ok b /\ nth_error r i = Some b.
Proof.
  revert r. induction l as [|a l IH]; intros r H; cbn [omap] in H; [injection H as <-; split; [reflexivity|intros [|i]; discriminate]|].
  destruct (f a) as [c| | |] eqn:E; cbn in H; try discriminate. destruct (omap f l) as [r1| | |] eqn:E1; cbn in H; try discriminate. injection H as <-. destruct (IH r1 eq_refl) as (L & N). cbn. split; [lia|]. intros [|i] x Hx; cbn in Hx; [injection Hx as <-; eauto|]. cbn. eauto.
Qed.
Lemma omap_ok {A B} (f : A -> outcome B) l : (forall a, In a l -> exists b, f a = Ok b) -> exists r, omap f l = Ok r.
Proof. induction l as [|a l IH]; intro H; cbn [omap]; [eauto|]. destruct (H a (or_introl eq_refl)) as (b & ->). destruct IH as (r & ->); [intros; apply H; now right|]. cbn. eauto. Qed.
Lemma omap_part {A B} (f : A -> outcome B) no l l' : found no l l' -> orel (fun r r' => found no r r' /\ length r = length l) (omap f l) (omap f l').
Proof.
  intros H r' E. destruct (omap_nth f l' r' E) as (_ & N). destruct (omap_ok f l) as (r & ER). { intros a Ha. apply In_nth_error in Ha. destruct Ha as (i & Hi). destruct (N _ a (H i a Hi)) as (b & Hb & _). eauto. }
  exists r. split; [exact ER|]. destruct (omap_nth f l r ER) as (L & N1). split; [|exact L]. intros i b Hb. destruct (nth_some l i) as (a & Ha); [rewrite <- L; eapply some_lt; eassumption|]. destruct (N1 i a Ha) as (b1 & F1 & X1). destruct (N _ a (H i a Ha)) as (b2 & F2 & X2). congruence.
Qed.
Lemma map_part {A B} (f : A -> B) no l l' : found no l l' -> found no (map f l) (map f l').
Proof. intros H i x Hx. rewrite nth_error_map in Hx |- *. destruct (nth_error l i) as [a|] eqn:E; cbn in Hx; [|discriminate]. rewrite (H i a E). exact Hx. Qed.

Section O.
Variable q : numbering.
Variables nl np : nat.
Notation RS := (part_state q nl np). Notation RD := (part_deriv q nl np).
Ltac opn H := destruct H as (?A & ?B & ?C & ?D & ?E & ?F).
Ltac two op1 op2 := eapply orel_bind; [op1; [congruence|eassumption|eassumption]|]; cbv beta; intros ?l ?l' (?H1 & ?H2); eapply orel_bind; [op2; [congruence|eassumption|eassumption]|]; cbv beta; intros ?p ?p' (?H3 & ?H4).
Ltac rest := let y := fresh in let E := fresh in intros y E; repeat match type of E with context [obind ?o _] => destruct o; cbn [obind] in E; try discriminate end; injection E as <-; eexists; split; [reflexivity|]; repeat split; cbn; auto; congruence.
Lemma Padd x x' z z' : RS x x' -> RS z z' -> orel RS (madd_s x z) (madd_s x' z').
Proof. intros HX HZ. opn HX. opn HZ. unfold madd_s. rewrite A, B, A0, B0. two ltac:(apply czip_part) ltac:(apply czip_part). cbn [czip length Nat.eqb negb zipw obind]. rest. Qed.
Lemma Psub x x' z z' : RS x x' -> RS z z' -> orel RS (msub_s x z) (msub_s x' z').
Proof. intros HX HZ. opn HX. opn HZ. unfold msub_s. rewrite A, B, A0, B0. two ltac:(apply czip_part) ltac:(apply czip_part). cbn [czip length Nat.eqb negb zipw obind]. rest. Qed.
Lemma Pmix x x' z z' f : RS x x' -> RS z z' -> orel RS (mmix_s x z f) (mmix_s x' z' f).
Proof. intros HX HZ. opn HX. opn HZ. unfold mmix_s. rewrite A, B, A0, B0. two ltac:(apply zipw_part) ltac:(apply zipw_part). cbn [zipw obind]. rest. Qed.
Lemma Pdadd x x' z z' : RD x x' -> RD z z' -> orel RD (madd_d x z) (madd_d x' z').
Proof. intros HX HZ. opn HX. opn HZ. unfold madd_d. rewrite A, B, A0, B0. two ltac:(apply czip_part) ltac:(apply czip_part). cbn [czip length Nat.eqb negb zipw obind]. rest. Qed.
Lemma Pdsub x x' z z' : RD x x' -> RD z z' -> orel RD (msub_d x z) (msub_d x' z').
Proof. intros HX HZ. opn HX. opn HZ. unfold msub_d. rewrite A, B, A0, B0. two ltac:(apply czip_part) ltac:(apply czip_part). cbn [czip length Nat.eqb negb zipw obind]. rest. Qed.
Lemma Pdmix x x' z z' f : RD x x' -> RD z z' -> orel RD (mmix_d x z f) (mmix_d x' z' f).
Proof. intros HX HZ. opn HX. opn HZ. unfold mmix_d. rewrite A, B, A0, B0. two ltac:(apply zipw_part) ltac:(apply zipw_part). cbn [zipw obind]. rest. Qed.
Lemma Pnm x x' z z' a b c : RD x x' -> RD z z' -> orel RD (mnewmark_d x z a b c) (mnewmark_d x' z' a b c).
Proof. intros HX HZ. opn HX. opn HZ. unfold mnewmark_d. rewrite A, B, A0, B0. two ltac:(apply czip_part) ltac:(apply czip_part). cbn [czip length Nat.eqb negb zipw obind]. rest. Qed.
Lemma Pwi x x' z z' a b : RD x x' -> RD z z' -> orel RD (mwilson_d x z a b) (mwilson_d x' z' a b).
Proof. intros HX HZ. opn HX. opn HZ. unfold mwilson_d. rewrite A, B, A0, B0. two ltac:(apply czip_part) ltac:(apply czip_part). cbn [czip length Nat.eqb negb zipw obind]. rest. Qed.
Lemma Pscale d d' k : RD d d' -> orel RS (mscale_d d k) (mscale_d d' k).
Proof.
  intros HX. opn HX. unfold mscale_d. rewrite A, B. eapply orel_bind; [apply omap_part; eassumption|]. cbv beta. intros l l' (H1 & H2). cbn [map]. apply orel_ok. repeat split; cbn; auto; [congruence|now rewrite map_length|now apply map_part].
Qed.
End O.
