(** Proofs for MMat.v *)
From Coq Require Import Reals List Lra Lia Psatz.
From Verif Require Import MErr MVec MStateOps MMat SMat.
Import ListNotations.
Open Scope R_scope.

Ltac dv := repeat match goal with
  | x : v3 |- _ => destruct x
  | x : m3 |- _ => destruct x
  | x : v6 |- _ => destruct x
  | x : m6 |- _ => destruct x
  end.
Ltac ex := cbv beta iota zeta delta [energy3 energy6 velocity_at twist_at rotate_twist v6dot m6mulv translateMass translateMass6
  rotateMass rotateMass6 madd mscale mmul mmulv mtr getH vadd vsub vscale vopp cross dot m6tran m6add
  mid mzero vzero m6zero vx vy vz mr0 mr1 mr2 v6hd v6tl m6tl m6tr m6bl m6br fst snd] in *.

Lemma v3eq : forall a b : v3, vx a = vx b -> vy a = vy b -> vz a = vz b -> a = b.
Proof. intros [] []; cbn; intros; subst; reflexivity. Qed.
Lemma m3eq : forall a b : m3, mr0 a = mr0 b -> mr1 a = mr1 b -> mr2 a = mr2 b -> a = b.
Proof. intros [] []; cbn; intros; subst; reflexivity. Qed.
Lemma m6eq : forall a b : m6, m6tl a = m6tl b -> m6tr a = m6tr b -> m6bl a = m6bl b -> m6br a = m6br b -> a = b.
Proof. intros [] []; cbn; intros; subst; reflexivity. Qed.
Ltac split_mat := repeat (first [apply m6eq | apply m3eq | apply v3eq]).

(* ----- algebra of 3x3 matrices ----- *)
Lemma mmulv_mmul : forall A B v, mmulv (mmul A B) v = mmulv A (mmulv B v).
Proof. intros. dv. ex. apply v3eq; cbn; ring. Qed.
Lemma mmul_assoc : forall A B C, mmul (mmul A B) C = mmul A (mmul B C).
Proof. intros. dv. ex. split_mat; cbn; ring. Qed.
Lemma mtr_mmul : forall A B, mtr (mmul A B) = mmul (mtr B) (mtr A).
Proof. intros. dv. ex. split_mat; cbn; ring. Qed.
Lemma mtr_mtr : forall A, mtr (mtr A) = A.
Proof. intros. dv. reflexivity. Qed.
Lemma mmul_id_l : forall A, mmul mid A = A.
Proof. intros. dv. unfold mid. ex. split_mat; cbn; ring. Qed.
Lemma mmul_id_r : forall A, mmul A mid = A.
Proof. intros. dv. unfold mid. ex. split_mat; cbn; ring. Qed.
Lemma mmulv_id : forall v, mmulv mid v = v.
Proof. intros. dv. unfold mid. ex. apply v3eq; cbn; ring. Qed.
Lemma dot_mtr : forall A a b, dot a (mmulv A b) = dot (mmulv (mtr A) a) b.
Proof. intros. dv. ex. ring. Qed.
Lemma dot_comm : forall a b, dot a b = dot b a.
Proof. intros. dv. ex. ring. Qed.
Lemma orth_dot : forall Q a b, orthogonal Q -> dot (mmulv Q a) (mmulv Q b) = dot a b.
Proof.
  intros Q a b [H _]. rewrite dot_mtr, <- mmulv_mmul. rewrite H, mmulv_id. reflexivity.
Qed.
Lemma orth_cancel : forall Q v, orthogonal Q -> mmulv (mtr Q) (mmulv Q v) = v.
Proof. intros Q v [H _]. rewrite <- mmulv_mmul, H. apply mmulv_id. Qed.
Lemma orth_tr : forall Q, orthogonal Q -> orthogonal (mtr Q).
Proof. intros Q [A B]. split; rewrite mtr_mtr; assumption. Qed.

(* ----- C32 ----- *)
Lemma translate3_energy : forall M r t, symmetric3 M ->
  energy6 (translateMass r M) t = energy3 M (velocity_at r t).
Proof.
  intros M r t HS. unfold symmetric3 in HS. dv. ex. inversion HS; subst. field.
Qed.
Lemma translate3_sym : forall M r, symmetric3 M -> symmetric6 (translateMass r M).
Proof.
  intros M r HS. unfold symmetric3, symmetric6 in *. dv. ex. inversion HS; subst.
  unfold m6tran. split_mat; cbn; ring.
Qed.
Lemma translate6_energy : forall M r t, symmetric6 M ->
  energy6 (translateMass6 r M) t = energy6 M (twist_at r t).
Proof.
  intros M r t HS. unfold symmetric6, m6tran in HS. dv. ex. inversion HS; subst. field.
Qed.
Lemma translate6_sym : forall M r, symmetric6 M -> symmetric6 (translateMass6 r M).
Proof.
  intros M r HS. unfold symmetric6, m6tran in *. dv. ex. inversion HS; subst.
  split_mat; cbn; ring.
Qed.
Lemma translate6_zero : forall M, symmetric6 M -> translateMass6 vzero M = M.
Proof.
  intros M HS. unfold symmetric6, m6tran, vzero in *. dv. ex. inversion HS; subst.
  split_mat; cbn; ring.
Qed.
Lemma translate6_add : forall M r s, symmetric6 M ->
  translateMass6 r (translateMass6 s M) = translateMass6 (vadd r s) M.
Proof.
  intros M r s HS. unfold symmetric6, m6tran, vzero in *. dv. ex. inversion HS; subst.
  split_mat; cbn; ring.
Qed.
Lemma translate3_as_6 : forall M r, translateMass r M = translateMass6 r (M6 M mzero mzero mzero).
Proof.
  intros. unfold mzero, vzero. dv. ex. split_mat; cbn; ring.
Qed.
Lemma translate3_then_6 : forall M r s, symmetric3 M ->
  translateMass6 r (translateMass s M) = translateMass (vadd r s) M.
Proof.
  intros M r s H. rewrite !translate3_as_6. apply translate6_add.
  unfold symmetric6, m6tran, symmetric3 in *. cbn. rewrite H. reflexivity.
Qed.
(* particles *)
Lemma energy6_add : forall A B t, energy6 (m6add A B) t = energy6 A t + energy6 B t.
Proof. intros. unfold m6add. dv. ex. field. Qed.
Lemma energy6_zero : forall t, energy6 m6zero t = 0.
Proof. intros. unfold m6zero, mzero, vzero. dv. ex. field. Qed.
Lemma mscale_sym : forall m, symmetric3 (mscale m mid).
Proof. intros. unfold symmetric3, mid. ex. reflexivity. Qed.
Lemma particles_ok : forall ps t,
  energy6 (fold_right (fun p M => m6add (translateMass (snd p) (mscale (fst p) mid)) M) m6zero ps) t
  = particles_energy ps t.
Proof.
  induction ps as [|[m r] ps IH]; intros t; cbn [fold_right].
  - apply energy6_zero.
  - unfold particles_energy in *. cbn [fold_right]. rewrite energy6_add, IH. f_equal.
    rewrite translate3_energy by apply mscale_sym. cbn [fst snd].
    unfold energy3. generalize (velocity_at r t). intros v. unfold mid. dv. ex. field.
Qed.
Lemma translate6_nonneg : forall M r, symmetric6 M ->
  (forall t, 0 <= energy6 M t) -> forall t, 0 <= energy6 (translateMass6 r M) t.
Proof. intros. rewrite translate6_energy by assumption. auto. Qed.

(* ----- C33 ----- *)
Lemma rotate3_energy : forall Q M v, orthogonal Q -> energy3 (rotateMass Q M) (mmulv Q v) = energy3 M v.
Proof.
  intros Q M v H. unfold energy3, rotateMass.
  rewrite !mmulv_mmul, orth_cancel, orth_dot by assumption. reflexivity.
Qed.
Lemma rotate6_energy : forall Q M t, orthogonal Q -> symmetric6 M ->
  energy6 (rotateMass6 Q M) (rotate_twist Q t) = energy6 M t.
Proof.
  intros Q M [v w] HO HS.
  assert (Hlr : m6tr M = mtr (m6bl M)).
  { unfold symmetric6, m6tran in HS. destruct M as [a b c d]; cbn in *. inversion HS.
    rewrite ?H0, ?H1, ?H2. congruence. }
  unfold energy6, rotate_twist, rotateMass6, rotateMass, v6dot, m6mulv. cbn [m6tl m6tr m6bl m6br v6hd v6tl].
  rewrite !mtr_mmul, !mtr_mtr. rewrite <- !mmul_assoc. rewrite !mmulv_mmul, !orth_cancel by assumption.
  rewrite Hlr.
  assert (Hd : forall a b, vadd (mmulv Q a) (mmulv Q b) = mmulv Q (vadd a b))
    by (intros; dv; ex; apply v3eq; cbn; ring).
  rewrite !Hd, !orth_dot by assumption. reflexivity.
Qed.
Lemma rotate6_sym : forall Q M, symmetric6 M -> symmetric6 (rotateMass6 Q M).
Proof.
  intros Q M HS. unfold symmetric6, m6tran, rotateMass6, rotateMass in *. cbn [m6tl m6tr m6bl m6br] in *.
  destruct M as [a b c d]; cbn [m6tl m6tr m6bl m6br] in *. inversion HS. rewrite !mtr_mtr, !mtr_mmul, !mtr_mtr.
  rewrite ?H0, ?H1, ?H2, ?H3. f_equal.
  all: first [reflexivity | apply mmul_assoc | symmetry; apply mmul_assoc | idtac].
Qed.
Lemma rotate3_back : forall Q M, orthogonal Q -> rotateMass (mtr Q) (rotateMass Q M) = M.
Proof.
  intros Q M [H _]. unfold rotateMass. rewrite mtr_mtr.
  rewrite !mmul_assoc, H, mmul_id_r. rewrite <- mmul_assoc, H. apply mmul_id_l.
Qed.
Lemma rotate6_back : forall Q M, orthogonal Q -> symmetric6 M -> rotateMass6 (mtr Q) (rotateMass6 Q M) = M.
Proof.
  intros Q M HO HS. unfold rotateMass6. cbn [m6tl m6tr m6bl m6br].
  rewrite !rotate3_back by assumption.
  unfold symmetric6, m6tran in HS. destruct M as [a b c d]; cbn in *. inversion HS.
  apply m6eq; cbn; congruence.
Qed.

(* ----- C34 ----- *)
Lemma rigid_positions : forall Q r rd a b, orthogonal Q ->
  dist3 (fst (transformKinematics a Q r rd)) (fst (transformKinematics b Q r rd)) = dist3 a b.
Proof.
  intros Q r rd a b H. unfold dist3, transformKinematics, norm. cbn [fst].
  replace (vsub (vadd (mmulv Q a) r) (vadd (mmulv Q b) r)) with (mmulv Q (vsub a b))
    by (dv; ex; apply v3eq; cbn; ring).
  rewrite orth_dot by assumption. reflexivity.
Qed.
Lemma rigid_velocities : forall Q r rd a b,
  dot (vsub (snd (transformKinematics a Q r rd)) (snd (transformKinematics b Q r rd)))
      (vsub (fst (transformKinematics a Q r rd)) (fst (transformKinematics b Q r rd))) = 0.
Proof.
  intros. unfold transformKinematics. cbn [fst snd].
  generalize (mmulv Q a) (mmulv Q b). intros x y. dv. ex. ring.
Qed.
Lemma rigid_origin : forall Q r rd, transformKinematics vzero Q r rd = (r, v6hd rd).
Proof.
  intros. unfold transformKinematics, vzero. dv. ex. f_equal; apply v3eq; cbn; ring.
Qed.
(* the velocity is the rate of change of the position: second order remainder *)
Lemma getH_cross : forall r a, mmulv (getH r) a = cross a r.
Proof. intros. dv. ex. apply v3eq; cbn; ring. Qed.

(* ----- C36 ----- *)
Lemma api_rows : forall M a i j, (i < 3)%nat -> getM_api M a i j = m6get M i j.
Proof.
  intros. unfold getM_api, mat62array. destruct (Nat.ltb_spec i 3); [reflexivity | lia].
Qed.
Lemma api_lost : forall M a i j, (3 <= i)%nat -> getM_api M a i j = a i j.
Proof.
  intros. unfold getM_api, mat62array. destruct (Nat.ltb_spec i 3); [lia | reflexivity].
Qed.
