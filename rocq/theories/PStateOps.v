(** Proofs about state arithmetic. *)
From Coq Require Import Reals List Arith Bool Lra Lia.
From Verif Require Import MErr MVec MStateOps SStateOps.
Import ListNotations.
Open Scope R_scope.

Lemma each_app op a b c d : length a = length b -> each op (a ++ c) (b ++ d) = each op a b ++ each op c d.
Proof.
  revert b; induction a as [|x a IH]; intros [|y b] H; try discriminate; [reflexivity|].
  injection H as H. cbn. unfold each in IH |- *. now rewrite IH.
Qed.
Lemma each_length op a b : length a = length b -> length (each op a b) = length a.
Proof. intro H. unfold each. rewrite map_length, combine_length. lia. Qed.

(** generic loops *)
Lemma zipw_spec {A B C} (f : A -> B -> outcome C) (P : A -> B -> C -> Prop) a b :
  Forall2 (fun x y => exists z, f x y = Ok z /\ P x y z) a b ->
  exists c, zipw f a b = Ok c /\ length c = length a /\
    Forall2 (fun xy z => P (fst xy) (snd xy) z) (combine a b) c.
Proof.
  induction 1 as [|x y a b (z & Hz & HP) _ (c & Hc & Hl & HF)]; [exists []; repeat split; constructor|].
  exists (z :: c). cbn. rewrite Hz. cbn. rewrite Hc. cbn. split; [reflexivity|].
  split; [now f_equal|]. constructor; [exact HP|exact HF].
Qed.
Lemma zipw_ok2 {A B C} (f : A -> B -> C) a b : length a = length b ->
  zipw (ok2 f) a b = Ok (map (fun p => f (fst p) (snd p)) (combine a b)).
Proof.
  revert b; induction a as [|x a IH]; intros [|y b] H; try discriminate; [reflexivity|].
  injection H as H. cbn. now rewrite (IH b H).
Qed.
Lemma take_all {A} n (l : list A) : length l = n -> take n l = Ok l.
Proof. intros <-. unfold take. rewrite Nat.ltb_irrefl. now rewrite firstn_all. Qed.

Lemma flat_each {A B C} (gA : A -> list R) (gB : B -> list R) (gC : C -> list R) op a b c :
  length a = length b ->
  Forall2 (fun xy z => gC z = each op (gA (fst xy)) (gB (snd xy)) /\ length (gA (fst xy)) = length (gB (snd xy))) (combine a b) c ->
  flat_map gC c = each op (flat_map gA a) (flat_map gB b) /\ length (flat_map gA a) = length (flat_map gB b).
Proof.
  revert b c; induction a as [|x a IH]; intros [|y b] c H F; try discriminate.
  - inversion F; subst. now split.
  - injection H as H. cbn in F. inversion F as [|? z ? c' [E L] F']; subst.
    destruct (IH b c' H F') as [E' L']. cbn [fst snd] in E, L. split.
    + cbn [flat_map]. rewrite each_app by exact L. now rewrite E, E'.
    + cbn [flat_map]. rewrite !app_length. lia.
Qed.

(** each operation on one object *)
Definition comp {A B C} (gA : A -> list R) (gB : B -> list R) (gC : C -> list R) op (f : A -> B -> outcome C) x y :=
  exists z, f x y = Ok z /\ gC z = each op (gA x) (gB y) /\ length (gA x) = length (gB y).

Lemma padd_comp x y : comp flat_point flat_point flat_point Rplus (ok2 padd) x y.
Proof. eexists; repeat split. Qed.
Lemma psub_comp x y : comp flat_point flat_point flat_point Rminus (ok2 psub) x y.
Proof. eexists; repeat split. Qed.
Lemma radd_comp x y : comp flat_rigid flat_rigid flat_rigid Rplus (ok2 radd) x y.
Proof. eexists; repeat split. Qed.
Lemma rsub_comp x y : comp flat_rigid flat_rigid flat_rigid Rplus (ok2 rsub) x y.
Proof. eexists; repeat split. Qed.
Lemma dpadd_comp x y : comp flat_dpoint flat_dpoint flat_dpoint Rplus (ok2 dpadd) x y.
Proof. eexists; repeat split. Qed.
Lemma dpsub_comp x y : comp flat_dpoint flat_dpoint flat_dpoint Rminus (ok2 dpsub) x y.
Proof. eexists; repeat split. Qed.
Lemma dradd_comp x y : comp flat_drigid flat_drigid flat_drigid Rplus (ok2 dradd) x y.
Proof. eexists; repeat split. Qed.
Lemma drsub_comp x y : comp flat_drigid flat_drigid flat_drigid Rminus (ok2 drsub) x y.
Proof. eexists; repeat split. Qed.
Definition rmx (f a b : R) := (1 - f) * a + f * b.
Lemma pmix_comp f x y : comp flat_point flat_point flat_point (rmx f) (ok2 (fun a b => pmix a b f)) x y.
Proof. eexists; repeat split. Qed.
Lemma rmix_comp f x y : comp flat_rigid flat_rigid flat_rigid (rmx f) (ok2 (fun a b => rmix a b f)) x y.
Proof. eexists; repeat split. Qed.
Lemma dpmix_comp f x y : comp flat_dpoint flat_dpoint flat_dpoint (rmx f) (ok2 (fun a b => dpmix a b f)) x y.
Proof. eexists; repeat split. Qed.
Lemma drmix_comp f x y : comp flat_drigid flat_drigid flat_drigid (rmx f) (ok2 (fun a b => drmix a b f)) x y.
Proof. eexists; repeat split. Qed.

Lemma flat3_each f op (a b : list v3) : (forall u w, l3 (f u w) = each op (l3 u) (l3 w)) -> length a = length b ->
  flat_map l3 (map (fun p => f (fst p) (snd p)) (combine a b)) = each op (flat_map l3 a) (flat_map l3 b) /\
  length (flat_map l3 a) = length (flat_map l3 b).
Proof.
  intros Hf H. revert b H; induction a as [|x a IH]; intros [|y b] H; try discriminate; [now split|].
  injection H as H. destruct (IH b H) as [E L]. split.
  - cbn [combine map flat_map fst snd]. rewrite Hf, E, each_app by reflexivity. reflexivity.
  - cbn [flat_map]. rewrite !app_length, L. reflexivity.
Qed.

Lemma lop_comp f op (x y : lst) : (forall u w, l3 (f u w) = each op (l3 u) (l3 w)) ->
  length (pos x) = length (pos y) -> length (vel x) = length (pos x) -> length (vel y) = length (pos y) ->
  exists z, lop f x y = Ok z /\ flat_line z = each op (flat_line x) (flat_line y) /\
    length (flat_line x) = length (flat_line y) /\ length (pos z) = length (pos x) /\ length (vel z) = length (pos z).
Proof.
  intros Hf Hp Hx Hy. unfold lop.
  replace (length (pos x) =? length (pos y))%nat with true by (symmetry; now apply Nat.eqb_eq).
  replace (length (vel x) =? length (vel y))%nat with true by (symmetry; apply Nat.eqb_eq; lia).
  cbn [negb orb]. rewrite zipw_ok2 by exact Hp. cbn [obind]. rewrite !take_all by lia. cbn [obind].
  rewrite zipw_ok2 by lia. cbn [obind]. eexists; split; [reflexivity|].
  unfold flat_line; cbn [pos vel].
  destruct (flat3_each f op (pos x) (pos y) Hf Hp) as [E1 L1].
  destruct (flat3_each f op (vel x) (vel y) Hf) as [E2 L2]; [lia|].
  rewrite E1, E2, each_app by exact L1. rewrite !app_length, !map_length, !combine_length. repeat split; lia.
Qed.
Lemma lop_mismatch f (x y : lst) : length (pos x) <> length (pos y) -> lop f x y = Throw ExInvalidValue.
Proof. intro H. unfold lop. apply Nat.eqb_neq in H. now rewrite H. Qed.
Lemma dlop_comp f op (x y : dlst) : (forall u w, l3 (f u w) = each op (l3 u) (l3 w)) ->
  length (dvel x) = length (dvel y) -> length (dacc x) = length (dvel x) -> length (dacc y) = length (dvel y) ->
  exists z, dlop f x y = Ok z /\ flat_dline z = each op (flat_dline x) (flat_dline y) /\
    length (flat_dline x) = length (flat_dline y) /\ length (dvel z) = length (dvel x) /\ length (dacc z) = length (dvel z).
Proof.
  intros Hf Hp Hx Hy. unfold dlop.
  replace (length (dvel x) =? length (dvel y))%nat with true by (symmetry; now apply Nat.eqb_eq).
  replace (length (dacc x) =? length (dacc y))%nat with true by (symmetry; apply Nat.eqb_eq; lia).
  cbn [negb orb]. rewrite zipw_ok2 by exact Hp. cbn [obind]. rewrite !take_all by lia. cbn [obind].
  rewrite zipw_ok2 by lia. cbn [obind]. eexists; split; [reflexivity|].
  unfold flat_dline; cbn [dvel dacc].
  destruct (flat3_each f op (dvel x) (dvel y) Hf Hp) as [E1 L1].
  destruct (flat3_each f op (dacc x) (dacc y) Hf) as [E2 L2]; [lia|].
  rewrite E1, E2, each_app by exact L1. rewrite !app_length, !map_length, !combine_length. repeat split; lia.
Qed.
Lemma dlop_mismatch f (x y : dlst) : length (dvel x) <> length (dvel y) -> dlop f x y = Throw ExInvalidValue.
Proof. intro H. unfold dlop. apply Nat.eqb_neq in H. now rewrite H. Qed.
Lemma lmix_comp f (x y : lst) :
  length (pos x) = length (pos y) -> length (vel x) = length (pos x) -> length (vel y) = length (pos y) ->
  exists z, lmix x y f = Ok z /\ flat_line z = each (rmx f) (flat_line x) (flat_line y) /\
    length (flat_line x) = length (flat_line y) /\ length (pos z) = length (pos x) /\ length (vel z) = length (pos z).
Proof.
  intros Hp Hx Hy. unfold lmix.
  assert (Hf : forall u w, l3 (mixv f u w) = each (rmx f) (l3 u) (l3 w)) by reflexivity.
  rewrite zipw_ok2 by exact Hp. cbn [obind]. rewrite !take_all by lia. cbn [obind].
  rewrite zipw_ok2 by lia. cbn [obind]. eexists; split; [reflexivity|].
  rewrite skipn_all2 by lia. rewrite app_nil_r.
  unfold flat_line; cbn [pos vel].
  destruct (flat3_each _ _ (pos x) (pos y) Hf Hp) as [E1 L1].
  destruct (flat3_each _ _ (vel x) (vel y) Hf) as [E2 L2]; [lia|].
  rewrite E1, E2, each_app by exact L1. rewrite !app_length, !map_length, !combine_length. repeat split; lia.
Qed.
Lemma dlmix_comp f (x y : dlst) :
  length (dvel x) = length (dvel y) -> length (dacc x) = length (dvel x) -> length (dacc y) = length (dvel y) ->
  exists z, dlmix x y f = Ok z /\ flat_dline z = each (rmx f) (flat_dline x) (flat_dline y) /\
    length (flat_dline x) = length (flat_dline y) /\ length (dvel z) = length (dvel x) /\ length (dacc z) = length (dvel z).
Proof.
  intros Hp Hx Hy. unfold dlmix.
  assert (Hf : forall u w, l3 (mixv f u w) = each (rmx f) (l3 u) (l3 w)) by reflexivity.
  rewrite zipw_ok2 by exact Hp. cbn [obind]. rewrite !take_all by lia. cbn [obind].
  rewrite zipw_ok2 by lia. cbn [obind]. eexists; split; [reflexivity|].
  rewrite skipn_all2 by lia. rewrite app_nil_r.
  unfold flat_dline; cbn [dvel dacc].
  destruct (flat3_each _ _ (dvel x) (dvel y) Hf Hp) as [E1 L1].
  destruct (flat3_each _ _ (dacc x) (dacc y) Hf) as [E2 L2]; [lia|].
  rewrite E1, E2, each_app by exact L1. rewrite !app_length, !map_length, !combine_length. repeat split; lia.
Qed.

(** lists of fixed-size objects *)
Lemma zip_fixed {A} (g : A -> list R) op f (a b : list A) :
  (forall x y, comp g g g op f x y) -> length a = length b ->
  exists c, zipw f a b = Ok c /\ length c = length a /\ flat_map g c = each op (flat_map g a) (flat_map g b) /\
    length (flat_map g a) = length (flat_map g b).
Proof.
  intros Hf Hl.
  destruct (zipw_spec f (fun x y z => g z = each op (g x) (g y) /\ length (g x) = length (g y)) a b) as (c & Hc & Hlc & HF).
  - revert b Hl; induction a as [|x a IH]; intros [|y b] H; try discriminate; constructor; [|apply IH; now injection H].
    destruct (Hf x y) as (z & ? & ? & ?). now exists z.
  - exists c. destruct (flat_each g g g op a b c Hl HF). now repeat split.
Qed.
(** lists of lines *)
Lemma zip_lines {A} (g : A -> list R) (n n' : A -> nat) op (f : A -> A -> outcome A) (a b : list A) :
  (forall x y, n x = n y -> n' x = n x -> n' y = n y -> exists z, f x y = Ok z /\ g z = each op (g x) (g y) /\
     length (g x) = length (g y) /\ n z = n x /\ n' z = n z) ->
  map n a = map n b -> Forall (fun x => n' x = n x) a -> Forall (fun x => n' x = n x) b ->
  exists c, zipw f a b = Ok c /\ map n c = map n a /\ Forall (fun x => n' x = n x) c /\
    flat_map g c = each op (flat_map g a) (flat_map g b) /\ length (flat_map g a) = length (flat_map g b).
Proof.
  intros Hf. revert b; induction a as [|x a IH]; intros [|y b] H Ha Hb; try discriminate.
  - exists []. repeat split. constructor.
  - injection H as Hn H. inversion Ha; inversion Hb; subst.
    destruct (Hf x y) as (z & Hz & Hg & Hl & Hnz & Hnz'); try assumption.
    destruct (IH b H) as (c & Hc & Hm & HF & Hfl & Hll); try assumption.
    exists (z :: c). cbn [zipw]. rewrite Hz. cbn [obind]. rewrite Hc. cbn [obind map flat_map]. split; [reflexivity|].
    split; [now rewrite Hnz, Hm|]. split; [now constructor|]. rewrite each_app by exact Hl.
    rewrite Hg, Hfl, !app_length. split; [reflexivity|lia].
Qed.
Lemma zip_lines_throw {A} (n n' : A -> nat) (f : A -> A -> outcome A) (a b : list A) :
  (forall x y, n x = n y -> n' x = n x -> n' y = n y -> exists z, f x y = Ok z) ->
  (forall x y, n x <> n y -> f x y = Throw ExInvalidValue) ->
  length a = length b -> map n a <> map n b -> Forall (fun x => n' x = n x) a -> Forall (fun x => n' x = n x) b ->
  zipw f a b = Throw ExInvalidValue.
Proof.
  intros Hok Hno. revert b; induction a as [|x a IH]; intros [|y b] Hl H Ha Hb; try discriminate; [now elim H|].
  injection Hl as Hl. inversion Ha; inversion Hb; subst. cbn.
  destruct (Nat.eq_dec (n x) (n y)) as [E|E].
  - destruct (Hok x y) as [z Hz]; try assumption. rewrite Hz. cbn. rewrite IH; try assumption; [reflexivity|].
    intro E'. apply H. cbn. now rewrite E, E'.
  - now rewrite Hno.
Qed.

Lemma czip_len {A B C} (f : A -> B -> outcome C) a b : length a = length b -> czip f a b = zipw f a b.
Proof. intro H. unfold czip. now rewrite H, Nat.eqb_refl. Qed.
Lemma czip_ne {A B C} (f : A -> B -> outcome C) a b : length a <> length b -> czip f a b = Throw ExInvalidValue.
Proof. intro H. unfold czip. apply Nat.eqb_neq in H. now rewrite H. Qed.
Lemma map_len {A B} (f : A -> B) a b : map f a = map f b -> length a = length b.
Proof. intro H. rewrite <- (map_length f a), H. apply map_length. Qed.

Lemma quad {A B C D} (a a' : A) (b b' : B) (c c' : C) (d d' : D) : a = a' -> b = b' -> c = c' -> d = d' -> (a, b, c, d) = (a', b', c', d').
Proof. congruence. Qed.

(** whole states *)
Lemma madd_s_ok a b : regular a -> regular b -> shape a = shape b ->
  exists c, madd_s a b = Ok c /\ flat c = each Rplus (flat a) (flat b) /\ shape c = shape a /\ regular c /\ length (flat a) = length (flat b).
Proof.
  intros Ra Rb Hs. unfold shape in Hs. injection Hs as H1 H2 H3 H4. unfold madd_s.
  rewrite czip_len by (eapply map_len; eassumption).
  destruct (zip_lines flat_line (fun l => length (pos l)) (fun l => length (vel l)) Rplus ladd (s_lines a) (s_lines b)) as (l & El & Ml & Fl & Gl & Ll); try assumption.
  { intros; apply lop_comp; auto. }
  rewrite El. cbn [obind]. rewrite !czip_len by assumption.
  destruct (zip_fixed flat_point Rplus (ok2 padd) (s_points a) (s_points b) padd_comp H2) as (p & Ep & Np & Gp & Lp).
  destruct (zip_fixed flat_rigid Rplus (ok2 radd) (s_rods a) (s_rods b) radd_comp H3) as (r & Er & Nr & Gr & Lr).
  destruct (zip_fixed flat_rigid Rplus (ok2 radd) (s_bodies a) (s_bodies b) radd_comp H4) as (q & Eq & Nq & Gq & Lq).
  rewrite Ep, Er, Eq. cbn [obind]. eexists; split; [reflexivity|]. unfold flat, shape, regular; cbn [s_lines s_points s_rods s_bodies].
  rewrite Gl, Gp, Gr, Gq, !each_app by assumption. rewrite !app_length. repeat split; try assumption; try (apply quad; assumption); lia.
Qed.
Lemma madd_s_throw a b : regular a -> regular b -> shape a <> shape b -> madd_s a b = Throw ExInvalidValue.
Proof.
  intros Ra Rb Hs. unfold madd_s.
  destruct (Nat.eq_dec (length (s_lines a)) (length (s_lines b))) as [E|E]; [|now rewrite czip_ne].
  rewrite czip_len by exact E.
  destruct (list_eq_dec Nat.eq_dec (map (fun l => length (pos l)) (s_lines a)) (map (fun l => length (pos l)) (s_lines b))) as [E1|E1].
  2:{ unfold ladd. rewrite (zip_lines_throw (fun l => length (pos l)) (fun l => length (vel l)) (lop vadd)); try assumption; [reflexivity| |].
      - intros x y ? ? ?. destruct (lop_comp vadd Rplus x y) as (z & Hz & _); auto. now exists z.
      - intros; now apply lop_mismatch. }
  destruct (zip_lines flat_line (fun l => length (pos l)) (fun l => length (vel l)) Rplus ladd (s_lines a) (s_lines b)) as (l & El & _); try assumption.
  { intros; apply lop_comp; auto. }
  rewrite El. cbn [obind].
  destruct (Nat.eq_dec (length (s_points a)) (length (s_points b))) as [E2|E2]; [|now rewrite czip_ne].
  rewrite czip_len by exact E2. rewrite zipw_ok2 by exact E2. cbn [obind].
  destruct (Nat.eq_dec (length (s_rods a)) (length (s_rods b))) as [E3|E3]; [|now rewrite czip_ne].
  rewrite czip_len by exact E3. rewrite zipw_ok2 by exact E3. cbn [obind].
  destruct (Nat.eq_dec (length (s_bodies a)) (length (s_bodies b))) as [E4|E4]; [|now rewrite czip_ne].
  elim Hs. unfold shape. now rewrite E1, E2, E3, E4.
Qed.
(** difference: lines and points subtract, rods and bodies add *)
Lemma msub_s_ok a b : regular a -> regular b -> shape a = shape b ->
  exists c, msub_s a b = Ok c /\ shape c = shape a /\ regular c /\
    flat_map flat_line (s_lines c) = each Rminus (flat_map flat_line (s_lines a)) (flat_map flat_line (s_lines b)) /\
    flat_map flat_point (s_points c) = each Rminus (flat_map flat_point (s_points a)) (flat_map flat_point (s_points b)) /\
    flat_map flat_rigid (s_rods c) = each Rplus (flat_map flat_rigid (s_rods a)) (flat_map flat_rigid (s_rods b)) /\
    flat_map flat_rigid (s_bodies c) = each Rplus (flat_map flat_rigid (s_bodies a)) (flat_map flat_rigid (s_bodies b)) /\
    length (flat_map flat_line (s_lines a)) = length (flat_map flat_line (s_lines b)) /\
    length (flat_map flat_point (s_points a)) = length (flat_map flat_point (s_points b)).
Proof.
  intros Ra Rb Hs. unfold shape in Hs. injection Hs as H1 H2 H3 H4. unfold msub_s.
  rewrite czip_len by (eapply map_len; eassumption).
  destruct (zip_lines flat_line (fun l => length (pos l)) (fun l => length (vel l)) Rminus lsub (s_lines a) (s_lines b)) as (l & El & Ml & Fl & Gl & Ll); try assumption.
  { intros; apply lop_comp; auto. }
  rewrite El. cbn [obind]. rewrite !czip_len by assumption.
  destruct (zip_fixed flat_point Rminus (ok2 psub) (s_points a) (s_points b) psub_comp H2) as (p & Ep & Np & Gp & Lp).
  destruct (zip_fixed flat_rigid Rplus (ok2 rsub) (s_rods a) (s_rods b) rsub_comp H3) as (r & Er & Nr & Gr & Lr).
  destruct (zip_fixed flat_rigid Rplus (ok2 rsub) (s_bodies a) (s_bodies b) rsub_comp H4) as (q & Eq & Nq & Gq & Lq).
  rewrite Ep, Er, Eq. cbn [obind]. eexists; split; [reflexivity|]. unfold shape, regular; cbn [s_lines s_points s_rods s_bodies].
  repeat split; try assumption; apply quad; assumption.
Qed.
Lemma msub_s_throw a b : regular a -> regular b -> shape a <> shape b -> msub_s a b = Throw ExInvalidValue.
Proof.
  intros Ra Rb Hs. unfold msub_s.
  destruct (Nat.eq_dec (length (s_lines a)) (length (s_lines b))) as [E|E]; [|now rewrite czip_ne].
  rewrite czip_len by exact E.
  destruct (list_eq_dec Nat.eq_dec (map (fun l => length (pos l)) (s_lines a)) (map (fun l => length (pos l)) (s_lines b))) as [E1|E1].
  2:{ unfold lsub. rewrite (zip_lines_throw (fun l => length (pos l)) (fun l => length (vel l)) (lop vsub)); try assumption; [reflexivity| |].
      - intros x y ? ? ?. destruct (lop_comp vsub Rminus x y) as (z & Hz & _); auto. now exists z.
      - intros; now apply lop_mismatch. }
  destruct (zip_lines flat_line (fun l => length (pos l)) (fun l => length (vel l)) Rminus lsub (s_lines a) (s_lines b)) as (l & El & _); try assumption.
  { intros; apply lop_comp; auto. }
  rewrite El. cbn [obind].
  destruct (Nat.eq_dec (length (s_points a)) (length (s_points b))) as [E2|E2]; [|now rewrite czip_ne].
  rewrite czip_len by exact E2. rewrite zipw_ok2 by exact E2. cbn [obind].
  destruct (Nat.eq_dec (length (s_rods a)) (length (s_rods b))) as [E3|E3]; [|now rewrite czip_ne].
  rewrite czip_len by exact E3. rewrite zipw_ok2 by exact E3. cbn [obind].
  destruct (Nat.eq_dec (length (s_bodies a)) (length (s_bodies b))) as [E4|E4]; [|now rewrite czip_ne].
  elim Hs. unfold shape. now rewrite E1, E2, E3, E4.
Qed.
(** derivatives *)
Lemma mop_d_ok (fv : v3 -> v3 -> v3) fp fr op (m : mdst -> mdst -> outcome mdst) a b :
  (forall u w, l3 (fv u w) = each op (l3 u) (l3 w)) ->
  (forall x y, comp flat_dpoint flat_dpoint flat_dpoint op (ok2 fp) x y) ->
  (forall x y, comp flat_drigid flat_drigid flat_drigid op (ok2 fr) x y) ->
  (forall a b, m a b = (l <- czip (dlop fv) (d_lines a) (d_lines b) ;; p <- czip (ok2 fp) (d_points a) (d_points b) ;;
     r <- czip (ok2 fr) (d_rods a) (d_rods b) ;; q <- czip (ok2 fr) (d_bodies a) (d_bodies b) ;; Ok (Md l p r q))) ->
  regulard a -> regulard b ->
  (shaped a = shaped b -> exists c, m a b = Ok c /\ flatd c = each op (flatd a) (flatd b) /\ shaped c = shaped a /\ regulard c /\ length (flatd a) = length (flatd b)) /\
  (shaped a <> shaped b -> m a b = Throw ExInvalidValue).
Proof.
  intros Hv Hp Hr Hm Ra Rb. rewrite Hm. split; intro Hs.
  - unfold shaped in Hs. injection Hs as H1 H2 H3 H4.
    rewrite czip_len by (eapply map_len; eassumption).
    destruct (zip_lines flat_dline (fun l => length (dvel l)) (fun l => length (dacc l)) op (dlop fv) (d_lines a) (d_lines b)) as (l & El & Ml & Fl & Gl & Ll); try assumption.
    { intros; apply dlop_comp; auto. }
    rewrite El. cbn [obind]. rewrite !czip_len by assumption.
    destruct (zip_fixed flat_dpoint op (ok2 fp) (d_points a) (d_points b) Hp H2) as (p & Ep & Np & Gp & Lp).
    destruct (zip_fixed flat_drigid op (ok2 fr) (d_rods a) (d_rods b) Hr H3) as (r & Er & Nr & Gr & Lr).
    destruct (zip_fixed flat_drigid op (ok2 fr) (d_bodies a) (d_bodies b) Hr H4) as (q & Eq & Nq & Gq & Lq).
    rewrite Ep, Er, Eq. cbn [obind]. eexists; split; [reflexivity|]. unfold flatd, shaped, regulard; cbn [d_lines d_points d_rods d_bodies].
    rewrite Gl, Gp, Gr, Gq, !each_app by assumption. rewrite !app_length. repeat split; try assumption; try (apply quad; assumption); lia.
  - destruct (Nat.eq_dec (length (d_lines a)) (length (d_lines b))) as [E|E]; [|now rewrite czip_ne].
    rewrite czip_len by exact E.
    destruct (list_eq_dec Nat.eq_dec (map (fun l => length (dvel l)) (d_lines a)) (map (fun l => length (dvel l)) (d_lines b))) as [E1|E1].
    2:{ rewrite (zip_lines_throw (fun l => length (dvel l)) (fun l => length (dacc l)) (dlop fv)); try assumption; [reflexivity| |].
        - intros x y ? ? ?. destruct (dlop_comp fv op x y) as (z & Hz & _); auto. now exists z.
        - intros; now apply dlop_mismatch. }
    destruct (zip_lines flat_dline (fun l => length (dvel l)) (fun l => length (dacc l)) op (dlop fv) (d_lines a) (d_lines b)) as (l & El & _); try assumption.
    { intros; apply dlop_comp; auto. }
    rewrite El. cbn [obind].
    destruct (Nat.eq_dec (length (d_points a)) (length (d_points b))) as [E2|E2]; [|now rewrite czip_ne].
    rewrite czip_len by exact E2. rewrite zipw_ok2 by exact E2. cbn [obind].
    destruct (Nat.eq_dec (length (d_rods a)) (length (d_rods b))) as [E3|E3]; [|now rewrite czip_ne].
    rewrite czip_len by exact E3. rewrite zipw_ok2 by exact E3. cbn [obind].
    destruct (Nat.eq_dec (length (d_bodies a)) (length (d_bodies b))) as [E4|E4]; [|now rewrite czip_ne].
    elim Hs. unfold shaped. now rewrite E1, E2, E3, E4.
Qed.
Lemma madd_d_spec a b : regulard a -> regulard b ->
  (shaped a = shaped b -> exists c, madd_d a b = Ok c /\ flatd c = each Rplus (flatd a) (flatd b) /\ shaped c = shaped a /\ regulard c /\ length (flatd a) = length (flatd b)) /\
  (shaped a <> shaped b -> madd_d a b = Throw ExInvalidValue).
Proof. apply (mop_d_ok vadd dpadd dradd); try reflexivity; [apply dpadd_comp|apply dradd_comp]. Qed.
Lemma msub_d_spec a b : regulard a -> regulard b ->
  (shaped a = shaped b -> exists c, msub_d a b = Ok c /\ flatd c = each Rminus (flatd a) (flatd b) /\ shaped c = shaped a /\ regulard c /\ length (flatd a) = length (flatd b)) /\
  (shaped a <> shaped b -> msub_d a b = Throw ExInvalidValue).
Proof. apply (mop_d_ok vsub dpsub drsub); try reflexivity; [apply dpsub_comp|apply drsub_comp]. Qed.

Lemma flat_scale3 k l : flat_map l3 (map (vscale k) l) = map (Rmult k) (flat_map l3 l).
Proof. induction l as [|x l IH]; [reflexivity|]. cbn [map flat_map]. now rewrite IH, map_app. Qed.
Lemma mscale_d_ok d k : regulard d -> exists c, mscale_d d k = Ok c /\ flat c = map (Rmult k) (flatd d) /\ shape c = shaped d /\ regular c.
Proof.
  intro Rd. unfold mscale_d.
  assert (H : exists l, omap (fun x => lscale x k) (d_lines d) = Ok l /\ flat_map flat_line l = map (Rmult k) (flat_map flat_dline (d_lines d)) /\
     map (fun l => length (pos l)) l = map (fun l => length (dvel l)) (d_lines d) /\ Forall (fun l : lst => length (vel l) = length (pos l)) l).
  { unfold regulard in Rd. induction Rd as [|x ls Hx _ (l & El & Fl & Ml & Rl)]; [exists []; repeat split; constructor|].
    cbn. unfold lscale at 1. rewrite take_all by exact Hx. cbn. rewrite El. cbn. eexists; split; [reflexivity|].
    cbn. rewrite Fl, Ml, map_app. unfold flat_line, flat_dline; cbn [pos vel]. rewrite !map_app, !flat_scale3, !map_length.
    repeat split. constructor; [cbn; now rewrite !map_length|exact Rl]. }
  destruct H as (l & El & Fl & Ml & Rl). rewrite El. cbn [obind]. eexists; split; [reflexivity|].
  unfold flat, flatd, shape, shaped, regular; cbn. rewrite Fl, Ml, !map_app, !map_length.
  split; [|now split].
  assert (HP : forall l, flat_map flat_point (map (fun x => pscale x k) l) = map (Rmult k) (flat_map flat_dpoint l)).
  { induction l0 as [|x l0 IH]; [reflexivity|]. cbn [map flat_map]. now rewrite IH, map_app. }
  assert (HR : forall l, flat_map flat_rigid (map (fun x => rscale x k) l) = map (Rmult k) (flat_map flat_drigid l)).
  { induction l0 as [|x l0 IH]; [reflexivity|]. cbn [map flat_map]. now rewrite IH, map_app. }
  now rewrite HP, !HR.
Qed.
(** relaxation *)
Lemma mmix_s_ok a b f : regular a -> regular b -> shape a = shape b ->
  exists c, mmix_s a b f = Ok c /\ flat c = each (rmx f) (flat a) (flat b) /\ shape c = shape a /\ regular c.
Proof.
  intros Ra Rb Hs. unfold shape in Hs. injection Hs as H1 H2 H3 H4. unfold mmix_s.
  destruct (zip_lines flat_line (fun l => length (pos l)) (fun l => length (vel l)) (rmx f) (fun x y => lmix x y f) (s_lines a) (s_lines b)) as (l & El & Ml & Fl & Gl & Ll); try assumption.
  { intros; apply lmix_comp; auto. }
  rewrite El. cbn [obind].
  destruct (zip_fixed flat_point (rmx f) _ (s_points a) (s_points b) (pmix_comp f) H2) as (p & Ep & Np & Gp & Lp).
  destruct (zip_fixed flat_rigid (rmx f) _ (s_rods a) (s_rods b) (rmix_comp f) H3) as (r & Er & Nr & Gr & Lr).
  destruct (zip_fixed flat_rigid (rmx f) _ (s_bodies a) (s_bodies b) (rmix_comp f) H4) as (q & Eq & Nq & Gq & Lq).
  rewrite Ep, Er, Eq. cbn [obind]. eexists; split; [reflexivity|]. unfold flat, shape, regular; cbn [s_lines s_points s_rods s_bodies].
  rewrite Gl, Gp, Gr, Gq, !each_app by assumption. repeat split; try assumption; apply quad; assumption.
Qed.
Lemma mmix_d_ok a b f : regulard a -> regulard b -> shaped a = shaped b ->
  exists c, mmix_d a b f = Ok c /\ flatd c = each (rmx f) (flatd a) (flatd b) /\ shaped c = shaped a /\ regulard c /\ length (flatd a) = length (flatd b).
Proof.
  intros Ra Rb Hs. unfold shaped in Hs. injection Hs as H1 H2 H3 H4. unfold mmix_d.
  destruct (zip_lines flat_dline (fun l => length (dvel l)) (fun l => length (dacc l)) (rmx f) (fun x y => dlmix x y f) (d_lines a) (d_lines b)) as (l & El & Ml & Fl & Gl & Ll); try assumption.
  { intros; apply dlmix_comp; auto. }
  rewrite El. cbn [obind].
  destruct (zip_fixed flat_dpoint (rmx f) _ (d_points a) (d_points b) (dpmix_comp f) H2) as (p & Ep & Np & Gp & Lp).
  destruct (zip_fixed flat_drigid (rmx f) _ (d_rods a) (d_rods b) (drmix_comp f) H3) as (r & Er & Nr & Gr & Lr).
  destruct (zip_fixed flat_drigid (rmx f) _ (d_bodies a) (d_bodies b) (drmix_comp f) H4) as (q & Eq & Nq & Gq & Lq).
  rewrite Ep, Er, Eq. cbn [obind]. eexists; split; [reflexivity|]. unfold flatd, shaped, regulard; cbn [d_lines d_points d_rods d_bodies].
  rewrite Gl, Gp, Gr, Gq, !each_app by assumption. rewrite !app_length. repeat split; try assumption; try (apply quad; assumption); lia.
Qed.

(** shape and numbers determine the state *)
Lemma l3_inj a b : l3 a = l3 b -> a = b.
Proof. destruct a, b. unfold l3. cbn. intro H. injection H. now intros -> -> ->. Qed.
Lemma app_inj_len {A} (a b c d : list A) : length a = length c -> a ++ b = c ++ d -> a = c /\ b = d.
Proof.
  revert c; induction a as [|x a IH]; intros [|y c] Hl H; try discriminate; [now split|].
  injection Hl as Hl. cbn in H. injection H as -> H. destruct (IH c Hl H) as [-> ->]. now split.
Qed.
Lemma flat_map_inj {A} (g : A -> list R) (n : A -> nat) (P : A -> Prop) a b :
  (forall x y, P x -> P y -> n x = n y -> length (g x) = length (g y) /\ (g x = g y -> x = y)) ->
  Forall P a -> Forall P b -> map n a = map n b ->
  length (flat_map g a) = length (flat_map g b) /\ (flat_map g a = flat_map g b -> a = b).
Proof.
  intros Hg Ha; revert b; induction Ha as [|x a Px _ IH]; intros [|y b] Hb Hm; try discriminate; [now split|].
  inversion Hb; subst. injection Hm as Hn Hm. destruct (Hg x y Px) as [L1 I1]; try assumption.
  destruct (IH b) as [L2 I2]; try assumption. split.
  - cbn. rewrite !app_length. lia.
  - cbn. intro E. destruct (app_inj_len _ _ _ _ L1 E) as [E1 E2]. now rewrite I1, I2.
Qed.
Lemma flat3_inj a b : length a = length b -> length (flat_map l3 a) = length (flat_map l3 b) /\ (flat_map l3 a = flat_map l3 b -> a = b).
Proof.
  intro H. apply (flat_map_inj l3 (fun _ => O) (fun _ => True)).
  - intros x y _ _ _. split; [reflexivity|apply l3_inj].
  - now apply Forall_forall.
  - now apply Forall_forall.
  - revert b H; induction a as [|x a IH]; intros [|y b] H; try discriminate; [reflexivity|]. cbn. f_equal. apply IH. now injection H.
Qed.
Lemma flat_inj a b : regular a -> regular b -> shape a = shape b -> flat a = flat b -> a = b.
Proof.
  intros Ra Rb Hs. unfold shape in Hs. injection Hs as H1 H2 H3 H4. unfold flat.
  assert (same : forall T (u w : list T), length u = length w -> map (fun _ => O) u = map (fun _ => O) w).
  { intros T; induction u as [|x u IH]; intros [|y w] H; try discriminate; [reflexivity|]. cbn. f_equal. apply IH. now injection H. }
  assert (HR : forall x y : rst, flat_rigid x = flat_rigid y -> x = y).
  { intros [[[? ? ?] [? ? ? ?]] [[? ? ?] [? ? ?]]] [[[? ? ?] [? ? ? ?]] [[? ? ?] [? ? ?]]].
    unfold flat_rigid, lq, l6, l3; cbn. intro E. injection E. intros. now subst. }
  assert (HP : forall x y : pst, flat_point x = flat_point y -> x = y).
  { intros [[? ? ?] [? ? ?]] [[? ? ?] [? ? ?]]. unfold flat_point, l3; cbn. intro E. injection E. intros. now subst. }
  destruct (flat_map_inj flat_line (fun l => length (pos l)) (fun l => length (vel l) = length (pos l)) (s_lines a) (s_lines b)) as [L1 I1]; try assumption.
  { intros x y Px Py Hn. unfold flat_line. destruct (flat3_inj (pos x) (pos y) Hn) as [A1 B1].
    destruct (flat3_inj (vel x) (vel y)) as [A2 B2]; [lia|]. split; [rewrite !app_length; lia|].
    intro E. destruct (app_inj_len _ _ _ _ A1 E) as [E1 E2]. destruct x, y; cbn in *. now rewrite (B1 E1), (B2 E2). }
  destruct (flat_map_inj flat_point (fun _ => O) (fun _ => True) (s_points a) (s_points b)) as [L2 I2]; try (apply Forall_forall; auto); auto.
  destruct (flat_map_inj flat_rigid (fun _ => O) (fun _ => True) (s_rods a) (s_rods b)) as [L3 I3]; try (apply Forall_forall; auto); auto.
  destruct (flat_map_inj flat_rigid (fun _ => O) (fun _ => True) (s_bodies a) (s_bodies b)) as [L4 I4]; try (apply Forall_forall; auto); auto.
  intro E. destruct (app_inj_len _ _ _ _ L1 E) as [E1 E']. destruct (app_inj_len _ _ _ _ L2 E') as [E2 E''].
  destruct (app_inj_len _ _ _ _ L3 E'') as [E3 E4]. destruct a, b; cbn in *. now rewrite (I1 E1), (I2 E2), (I3 E3), (I4 E4).
Qed.

Lemma each_add_sub a b : length a = length b -> each Rminus (each Rplus a b) b = a.
Proof.
  revert b; induction a as [|x a IH]; intros [|y b] H; try discriminate; [reflexivity|]. injection H as H.
  unfold each in *. cbn. rewrite (IH b H). f_equal. ring.
Qed.
Lemma each_sub_self a : each Rminus a a = repeat 0 (length a).
Proof. induction a as [|x a IH]; [reflexivity|]. unfold each in *. cbn. rewrite IH. f_equal. ring. Qed.
Lemma each_length' op a b : length (each op a b) = Nat.min (length a) (length b).
Proof. unfold each. now rewrite map_length, combine_length. Qed.

Lemma sub_partial a b : regular a -> regular b -> s_rods a = [] -> s_bodies a = [] -> shape a = shape b ->
  exists c, msub_s a b = Ok c /\ flat c = each Rminus (flat a) (flat b) /\ shape c = shape a /\ regular c.
Proof.
  intros Ra Rb Hr Hq Hs. destruct (msub_s_ok a b Ra Rb Hs) as (c & Ec & Sc & Rc & G1 & G2 & G3 & G4 & L1 & L2).
  exists c. split; [exact Ec|]. split; [|now split].
  unfold shape in Hs. injection Hs as _ _ K3 K4. rewrite Hr in K3. rewrite Hq in K4.
  destruct (s_rods b) eqn:Br; [|discriminate]. destruct (s_bodies b) eqn:Bb; [|discriminate].
  rewrite Hr in G3. rewrite Hq in G4. unfold flat. rewrite Hr, Hq, Br, Bb, G1, G2, G3, G4. cbn [flat_map]. rewrite !each_app by assumption. reflexivity.
Qed.
Lemma add_sub_cancel a b : regular a -> regular b -> s_rods a = [] -> s_bodies a = [] -> shape a = shape b ->
  exists c, madd_s a b = Ok c /\ msub_s c b = Ok a.
Proof.
  intros Ra Rb Hr Hq Hs. destruct (madd_s_ok a b Ra Rb Hs) as (c & Ec & Fc & Sc & Rc & Ln). exists c. split; [exact Ec|].
  assert (Hcr : s_rods c = [] /\ s_bodies c = []).
  { unfold shape in Sc. injection Sc as _ _ K3 K4. rewrite Hr in K3. rewrite Hq in K4.
    destruct (s_rods c); [|discriminate]. destruct (s_bodies c); [|discriminate]. now split. }
  destruct (sub_partial c b) as (d & Ed & Fd & Sd & Rd); try tauto; [congruence|].
  rewrite Ed. f_equal. apply flat_inj; try assumption; [congruence|].
  rewrite Fd, Fc. now apply each_add_sub.
Qed.
Lemma sub_self a : regular a -> s_rods a = [] -> s_bodies a = [] ->
  exists c, msub_s a a = Ok c /\ shape c = shape a /\ Forall (eq 0) (flat c).
Proof.
  intros Ra Hr Hq. destruct (sub_partial a a Ra Ra Hr Hq eq_refl) as (c & Ec & Fc & Sc & _). exists c.
  split; [exact Ec|]. split; [exact Sc|]. rewrite Fc, each_sub_self. apply Forall_forall. intros x Hx.
  symmetry. now apply repeat_spec in Hx.
Qed.
Definition body1 : mst := Ms [] [] [] [St (XQ (V3 1 2 3) qident) (V6 (V3 1 0 0) vzero)].
Lemma sub_rigid_refuted : exists a c, regular a /\ msub_s a a = Ok c /\ madd_s a a = Ok c /\ nth 0 (flat c) 0 = 2.
Proof.
  exists body1. eexists. split; [constructor|]. split; [reflexivity|]. split; [reflexivity|]. cbn. lra.
Qed.
(** Mix does not check: a state with fewer objects is read out of range *)
Lemma mix_ub : exists a b f, regular a /\ regular b /\ shape a <> shape b /\ mmix_s a b f = UB.
Proof. exists body1, (Ms [] [] [] []), 0. split; [constructor|]. split; [constructor|]. split; [discriminate|reflexivity]. Qed.
