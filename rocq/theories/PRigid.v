(** Proofs about the velocity of the points of a moving body. *)
From Coq Require Import Reals List Lra.
From Verif Require Import MErr MVec MStateOps MMat SMat PMat.
Import ListNotations.
Open Scope R_scope.

(** the velocity of a point of a body that turns and moves is the rate of its position *)
Lemma lin3_deriv (a b c : R) f g h t f' g' h' : derivable_pt_lim f t f' -> derivable_pt_lim g t g' -> derivable_pt_lim h t h' ->
  derivable_pt_lim (fun s => f s * a + g s * b + h s * c) t (f' * a + g' * b + h' * c).
Proof.
  intros F G H. assert (L : forall k l l' , derivable_pt_lim l t l' -> derivable_pt_lim (fun s => l s * k) t (l' * k)).
  { intros k l l' D. replace (l' * k) with (l' * k + l t * 0) by ring. exact (derivable_pt_lim_mult l (fun _ => k) t _ _ D (derivable_pt_lim_const k t)). }
  exact (derivable_pt_lim_plus _ _ t _ _ (derivable_pt_lim_plus _ _ t _ _ (L a _ _ F) (L b _ _ G)) (L c _ _ H)).
Qed.
Lemma eq_deriv f g t v w : derivable_pt_lim f t v -> (forall s, f s = g s) -> v = w -> derivable_pt_lim g t w.
Proof. intros D E <-. intros eps He. destruct (D eps He) as [d Hd]. exists d. intros h. rewrite <- !E. apply Hd. Qed.
Lemma rigid_velocity : forall Q r t w v a,
  moving (fun s => mmulv (Q s) (V3 1 0 0)) t (cross w (mmulv (Q t) (V3 1 0 0))) ->
  moving (fun s => mmulv (Q s) (V3 0 1 0)) t (cross w (mmulv (Q t) (V3 0 1 0))) ->
  moving (fun s => mmulv (Q s) (V3 0 0 1)) t (cross w (mmulv (Q t) (V3 0 0 1))) ->
  moving r t v ->
  moving (fun s => fst (transformKinematics a (Q s) (r s) (V6 v w))) t (snd (transformKinematics a (Q t) (r t) (V6 v w))).
Proof.
  intros Q r t w v a (X1 & X2 & X3) (Y1 & Y2 & Y3) (Z1 & Z2 & Z3) (R1 & R2 & R3). unfold transformKinematics. cbn [fst snd v6hd v6tl].
  repeat split.
  - refine (eq_deriv _ _ _ _ _ (derivable_pt_lim_plus _ _ t _ _ (lin3_deriv (vx a) (vy a) (vz a) _ _ _ t _ _ _ X1 Y1 Z1) R1) _ _).
    + intros s. unfold plus_fct, mmulv, vadd, dot. cbn. ring.
    + unfold mmulv, vadd, cross, dot. cbn. ring.
  - refine (eq_deriv _ _ _ _ _ (derivable_pt_lim_plus _ _ t _ _ (lin3_deriv (vx a) (vy a) (vz a) _ _ _ t _ _ _ X2 Y2 Z2) R2) _ _).
    + intros s. unfold plus_fct, mmulv, vadd, dot. cbn. ring.
    + unfold mmulv, vadd, cross, dot. cbn. ring.
  - refine (eq_deriv _ _ _ _ _ (derivable_pt_lim_plus _ _ t _ _ (lin3_deriv (vx a) (vy a) (vz a) _ _ _ t _ _ _ X3 Y3 Z3) R3) _ _).
    + intros s. unfold plus_fct, mmulv, vadd, dot. cbn. ring.
    + unfold mmulv, vadd, cross, dot. cbn. ring.
Qed.
(** a body turning about the vertical axis *)
Lemma turning_z (w t : R) (e : v3) : moving (fun s => mmulv (RotZ (w * s)) e) t (cross (V3 0 0 w) (mmulv (RotZ (w * t)) e)).
Proof.
  assert (L : derivable_pt_lim (fun s => w * s) t w).
  { refine (eq_deriv _ _ _ _ _ (derivable_pt_lim_scal id w t 1 (derivable_pt_lim_id t)) _ _); [reflexivity|ring]. }
  pose proof (derivable_pt_lim_comp _ _ _ _ _ L (derivable_pt_lim_cos (w * t))) as C. pose proof (derivable_pt_lim_comp _ _ _ _ _ L (derivable_pt_lim_sin (w * t))) as S.
  repeat split.
  - refine (eq_deriv _ _ _ _ _ (lin3_deriv (vx e) (- vy e) 0 _ _ _ t _ _ _ C S (derivable_pt_lim_const 0 t)) _ _).
    + intro s. unfold comp, fct_cte, mmulv, RotZ, dot. cbn. ring.
    + unfold mmulv, RotZ, cross, dot. cbn. ring.
  - refine (eq_deriv _ _ _ _ _ (lin3_deriv (vy e) (vx e) 0 _ _ _ t _ _ _ C S (derivable_pt_lim_const 0 t)) _ _).
    + intro s. unfold comp, fct_cte, mmulv, RotZ, dot. cbn. ring.
    + unfold mmulv, RotZ, cross, dot. cbn. ring.
  - refine (eq_deriv _ _ _ _ _ (derivable_pt_lim_const (vz e) t) _ _).
    + intro s. unfold fct_cte, mmulv, RotZ, dot. cbn. ring.
    + unfold mmulv, RotZ, cross, dot. cbn. ring.
Qed.
