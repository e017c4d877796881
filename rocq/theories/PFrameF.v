(** The state arithmetic commutes with isometries of the horizontal plane. *)
From Coq Require Import Reals List Arith ZArith Bool Lra Lia.
From Verif Require Import MErr MVec MStateOps MMat MInterp MLine MRod MBody MScheme MSys SMat SLine SFrame PMat PLine PFrame PSymm.
Import ListNotations.
Open Scope R_scope.

Definition lift {A B} (h : A -> B) (o : outcome A) : outcome B := match o with Ok x => Ok (h x) | Throw e => Throw e | UB => UB | Diverges => Diverges end.
Lemma lift_orel {A B} (h : A -> B) a b : b = lift h a -> orel (fun x y => y = h x) a b.
Proof. intros ->. destruct a; cbn; auto. Qed.
Lemma lift_bind {A A' B B'} (h : A -> A') (q : B -> B') a k k' : (forall x, k' (h x) = lift q (k x)) -> obind (lift h a) k' = lift q (obind a k).
Proof. intro H. destruct a; cbn; auto. Qed.
Lemma zipw_lift {A A' B B' C C'} (f : A -> B -> outcome C) (f' : A' -> B' -> outcome C') h1 h2 h3 : (forall a b, f' (h1 a) (h2 b) = lift h3 (f a b)) ->
  forall l m, zipw f' (map h1 l) (map h2 m) = lift (map h3) (zipw f l m).
Proof.
  intro H. induction l as [|a l IH]; intros [|b m]; cbn [zipw map]; try reflexivity. rewrite H, IH. destruct (f a b); cbn; try reflexivity. destruct (zipw f l m); reflexivity.
Qed.
Lemma zipok_lift {A A' B B' C C'} (f : A -> B -> C) (f' : A' -> B' -> C') h1 h2 h3 : (forall a b, f' (h1 a) (h2 b) = h3 (f a b)) ->
  forall l m, zipw (ok2 f') (map h1 l) (map h2 m) = lift (map h3) (zipw (ok2 f) l m).
Proof. intro H. apply zipw_lift. intros a b. unfold ok2. cbn. now rewrite H. Qed.
Lemma czip_lift {A A' B B' C C'} (f : A -> B -> outcome C) (f' : A' -> B' -> outcome C') h1 h2 h3 : (forall a b, f' (h1 a) (h2 b) = lift h3 (f a b)) ->
  forall l m, czip f' (map h1 l) (map h2 m) = lift (map h3) (czip f l m).
Proof. intros H l m. unfold czip. rewrite !map_length. destruct (negb _); [reflexivity|]. now apply zipw_lift. Qed.
Lemma take_lift {A B} (h : A -> B) n l : take n (map h l) = lift (map h) (take n l).
Proof. unfold take. rewrite map_length. destruct (_ <? _)%nat; cbn; [reflexivity|]. now rewrite firstn_map. Qed.
Lemma omap_lift {A A' B B'} (f : A -> outcome B) (f' : A' -> outcome B') h q : (forall a, f' (h a) = lift q (f a)) -> forall l, omap f' (map h l) = lift (map q) (omap f l).
Proof. intro H. induction l as [|a l IH]; cbn [omap map]; [reflexivity|]. rewrite H, IH. destruct (f a); cbn; try reflexivity. destruct (omap f l); reflexivity. Qed.
Lemma map_combine {A B C D} (h : A -> C) (q : B -> D) l m : combine (map h l) (map q m) = map (fun p => (h (fst p), q (snd p))) (combine l m).
Proof. revert m. induction l as [|a l IH]; intros [|b m]; cbn; try reflexivity. now rewrite IH. Qed.

Section O.
Variable g : plane.
Hypothesis HG : isometry g.
Notation T := (turn g). Notation P := (place g).
Lemma t_add a b : vadd (T a) (T b) = T (vadd a b). Proof. unfold turn, vadd; cbn. f_equal; ring. Qed.
Lemma t_sub a b : vsub (T a) (T b) = T (vsub a b). Proof. unfold turn, vsub; cbn. f_equal; ring. Qed.
Lemma t_scale k a : vscale k (T a) = T (vscale k a). Proof. unfold turn, vscale; cbn. f_equal; ring. Qed.
Lemma t_zero : T vzero = vzero. Proof. unfold turn, vzero; cbn. f_equal; ring. Qed.
Lemma p_add a b : vadd (P a) (T b) = P (vadd a b). Proof. unfold place, turn, vadd; cbn. f_equal; ring. Qed.
Lemma p_sub a b : vsub (P a) (T b) = P (vsub a b). Proof. unfold place, turn, vadd, vsub; cbn. f_equal; ring. Qed.
Lemma p_mix f a b : mixv f (P a) (P b) = P (mixv f a b). Proof. unfold mixv, place, turn, vadd, vscale; cbn. f_equal; ring. Qed.
Lemma t_mix f a b : mixv f (T a) (T b) = T (mixv f a b). Proof. unfold mixv. now rewrite !t_scale, t_add. Qed.
Lemma t_norm a : norm (T a) = norm a.
Proof. destruct HG as (H1 & H2). unfold norm. f_equal. unfold dot, turn; cbn. assert (HD : g_d g * g_d g = 1) by (destruct H2 as [-> | ->]; ring). replace (_ + _) with ((g_c g * g_c g + g_s g * g_s g) * (vx a * vx a) + (g_d g * g_d g) * (g_c g * g_c g + g_s g * g_s g) * (vy a * vy a) + vz a * vz a) by ring. rewrite H1, HD. ring. Qed.
Notation hS := (fun s : lst => St (map P (pos s)) (map T (vel s))).
Notation hZ := (fun s : lst => St (map T (pos s)) (map T (vel s))).
Notation hD := (fun s : dlst => Dr (map T (dvel s)) (map T (dacc s))).
Notation pS := (fun s : pst => St (P (pos s)) (T (vel s))).
Notation pZ := (fun s : pst => St (T (pos s)) (T (vel s))).
Notation pD := (fun s : dpst => Dr (T (dvel s)) (T (dacc s))).
(** increments *)
Definition moved_incr (z z' : mst) : Prop := s_rods z = [] /\ s_bodies z = [] /\ z' = Ms (map hZ (s_lines z)) (map pZ (s_points z)) [] [].
Lemma lop_lift f f0 (H1 : forall a b, f (P a) (T b) = P (f a b)) (H2 : forall a b, f (T a) (T b) = T (f a b)) a b : f0 = f -> lop f (hS a) (hZ b) = lift hS (lop f0 a b).
Proof.
  intros ->. unfold lop. cbn [pos vel]. rewrite !map_length. destruct (orb _ _); [reflexivity|]. rewrite (zipok_lift f f P T P H1). apply (lift_bind (map P) hS). intro p.
  rewrite take_lift. apply (lift_bind (map T) hS). intro va. rewrite take_lift. apply (lift_bind (map T) hS). intro vb. rewrite (zipok_lift f f T T T H2). apply (lift_bind (map T) hS). reflexivity.
Qed.
Lemma lmix_lift a b f : lmix (hS a) (hS b) f = lift hS (lmix a b f).
Proof.
  unfold lmix. cbn [pos vel]. rewrite map_length. rewrite (zipok_lift (mixv f) (mixv f) P P P (p_mix f)). apply (lift_bind (map P) hS). intro p. rewrite take_lift. apply (lift_bind (map T) hS). intro va.
  rewrite (zipok_lift (mixv f) (mixv f) T T T (t_mix f)). apply (lift_bind (map T) hS). intro v. cbn. now rewrite map_app, skipn_map.
Qed.
Lemma lscale_lift d k : lscale (hD d) k = lift hZ (lscale d k).
Proof. unfold lscale. cbn [dvel dacc]. rewrite map_length, take_lift. apply (lift_bind (map T) hZ). intro a. cbn. now rewrite !map_map, (map_ext _ _ (t_scale k)), (map_ext _ _ (t_scale k)). Qed.
Lemma dlop_lift f (H2 : forall a b, f (T a) (T b) = T (f a b)) a b : dlop f (hD a) (hD b) = lift hD (dlop f a b).
Proof.
  unfold dlop. cbn [dvel dacc]. rewrite !map_length. destruct (orb _ _); [reflexivity|]. rewrite (zipok_lift f f T T T H2). apply (lift_bind (map T) hD). intro p.
  rewrite take_lift. apply (lift_bind (map T) hD). intro va. rewrite take_lift. apply (lift_bind (map T) hD). intro vb. rewrite (zipok_lift f f T T T H2). apply (lift_bind (map T) hD). reflexivity.
Qed.
Lemma dlmix_lift a b f : dlmix (hD a) (hD b) f = lift hD (dlmix a b f).
Proof.
  unfold dlmix. cbn [dvel dacc]. rewrite map_length. rewrite (zipok_lift (mixv f) (mixv f) T T T (t_mix f)). apply (lift_bind (map T) hD). intro p. rewrite take_lift. apply (lift_bind (map T) hD). intro va.
  rewrite (zipok_lift (mixv f) (mixv f) T T T (t_mix f)). apply (lift_bind (map T) hD). intro v. cbn. now rewrite map_app, skipn_map.
Qed.
Lemma t_nmk k a b : nmk3 k (T a) (T b) = T (nmk3 k a b). Proof. unfold nmk3. now rewrite !t_scale, t_add. Qed.
Lemma t_nmkb k a b : nmkb3 k (T a) (T b) = T (nmkb3 k a b). Proof. unfold nmkb3. now rewrite !t_scale, t_add. Qed.
Lemma t_wil k a b : wil3 k (T a) (T b) = T (wil3 k a b). Proof. unfold wil3. now rewrite !t_scale, t_add. Qed.
Lemma t_axpy k a b : vadd (T a) (vscale k (T b)) = T (vadd a (vscale k b)). Proof. now rewrite t_scale, t_add. Qed.
Lemma comb_map (F : v3 -> v3 -> v3) (HF : forall a b, F (T a) (T b) = T (F a b)) l m : map (fun xy => F (fst xy) (snd xy)) (combine (map T l) (map T m)) = map T (map (fun xy => F (fst xy) (snd xy)) (combine l m)).
Proof. rewrite map_combine, !map_map. apply map_ext. intros [a b]. cbn. apply HF. Qed.
Lemma lnm_lift a b dt x be : lnewmark (hD a) (hD b) dt x be = lift hD (lnewmark a b dt x be).
Proof.
  unfold lnewmark. cbn [dvel dacc]. rewrite map_length, take_lift. apply (lift_bind (map T) hD). intro aa. rewrite take_lift. apply (lift_bind (map T) hD). intro ab.
  rewrite (comb_map (nmkb3 be) (t_nmkb be)). rewrite (zipok_lift (fun v y => vadd v (vscale dt y)) (fun v y => vadd v (vscale dt y)) T T T (t_axpy dt)). apply (lift_bind (map T) hD). intro p.
  rewrite (zipok_lift (nmk3 x) (nmk3 x) T T T (t_nmk x)). apply (lift_bind (map T) hD). reflexivity.
Qed.
Lemma lwi_lift a b tau dt : lwilson (hD a) (hD b) tau dt = lift hD (lwilson a b tau dt).
Proof.
  unfold lwilson. cbv zeta. cbn [dvel dacc]. rewrite map_length, take_lift. apply (lift_bind (map T) hD). intro aa. rewrite take_lift. apply (lift_bind (map T) hD). intro ab.
  rewrite (comb_map (wil3 (1 / 3 * (tau / dt))) (t_wil _)). rewrite (zipok_lift (fun v y => vadd v (vscale (0.5 * dt) y)) (fun v y => vadd v (vscale (0.5 * dt) y)) T T T (t_axpy _)). apply (lift_bind (map T) hD). intro p.
  rewrite (zipok_lift (wil3 (0.5 * (tau / dt))) (wil3 (0.5 * (tau / dt))) T T T (t_wil _)). apply (lift_bind (map T) hD). reflexivity.
Qed.
Lemma fold_norm l x : fold_left (fun s y => s + norm y) (map T l) x = fold_left (fun s y => s + norm y) l x.
Proof. revert x. induction l as [|a l IH]; intro x; cbn; [reflexivity|]. now rewrite t_norm, IH. Qed.
Lemma lstat_lift d dt : lstat (hD d) dt = lift (fun p => (fst p, hD (snd p))) (lstat d dt).
Proof.
  unfold lstat. cbv zeta. cbn [dvel dacc]. rewrite map_length, take_lift. apply (lift_bind (map T)). intro a. cbn. rewrite fold_norm, map_app, skipn_map, !map_map, (map_ext _ _ (t_scale _)). do 4 f_equal.
  clear. induction (length (dvel d)) as [|n IH]; cbn; [reflexivity|]. now rewrite t_zero, <- IH.
Qed.

Notation RS := (moved_state g). Notation RZ := moved_incr. Notation RD := (moved_deriv g).
Ltac opn H := destruct H as (?Q1 & ?Q2 & ->).
Ltac nils := match goal with |- context [Ms _ _ ?a ?b] => idtac | _ => idtac end.
Lemma Hadd x x' z z' : RS x x' -> RZ z z' -> orel RS (madd_s x z) (madd_s x' z').
Proof.
  intros HX HZ. opn HX. opn HZ. unfold madd_s. cbn [s_lines s_points s_rods s_bodies]. rewrite Q1, Q2, Q0, Q3.
  rewrite (czip_lift ladd ladd hS hZ hS) by (intros ? ?; now apply (lop_lift vadd vadd p_add t_add)). rewrite (czip_lift (ok2 padd) (ok2 padd) pS pZ pS) by (intros ? ?; unfold ok2, padd; cbn; now rewrite p_add, t_add).
  destruct (czip ladd _ _); cbn; auto. destruct (czip (ok2 padd) _ _); cbn; auto. repeat split.
Qed.
Lemma Hsub x x' z z' : RS x x' -> RZ z z' -> orel RS (msub_s x z) (msub_s x' z').
Proof.
  intros HX HZ. opn HX. opn HZ. unfold msub_s. cbn [s_lines s_points s_rods s_bodies]. rewrite Q1, Q2, Q0, Q3.
  rewrite (czip_lift lsub lsub hS hZ hS) by (intros ? ?; now apply (lop_lift vsub vsub p_sub t_sub)). rewrite (czip_lift (ok2 psub) (ok2 psub) pS pZ pS) by (intros ? ?; unfold ok2, psub; cbn; now rewrite p_sub, t_sub).
  destruct (czip lsub _ _); cbn; auto. destruct (czip (ok2 psub) _ _); cbn; auto. repeat split.
Qed.
Lemma Hmix x x' y y' f : RS x x' -> RS y y' -> orel RS (mmix_s x y f) (mmix_s x' y' f).
Proof.
  intros HX HZ. opn HX. opn HZ. unfold mmix_s. cbn [s_lines s_points s_rods s_bodies]. rewrite Q1, Q2. cbn [zipw].
  rewrite (zipw_lift (fun x y => lmix x y f) (fun x y => lmix x y f) hS hS hS) by (intros ? ?; apply lmix_lift). rewrite (zipok_lift (fun x y => pmix x y f) (fun x y => pmix x y f) pS pS pS) by (intros ? ?; unfold pmix; cbn; now rewrite p_mix, t_mix).
  destruct (zipw _ (s_lines x) _); cbn; auto. destruct (zipw _ (s_points x) _); cbn; auto. repeat split.
Qed.
Lemma Hscale d d' k : RD d d' -> orel RZ (mscale_d d k) (mscale_d d' k).
Proof.
  intros HX. opn HX. unfold mscale_d. cbn [d_lines d_points d_rods d_bodies]. rewrite Q1, Q2. rewrite (omap_lift (fun x => lscale x k) (fun x => lscale x k) hD hZ) by (intros ?; apply lscale_lift).
  destruct (omap _ _) as [lz| | |]; cbn; auto. repeat split. cbn. f_equal. rewrite !map_map. apply map_ext. intro dd. unfold pscale; cbn. now rewrite !t_scale.
Qed.
Lemma Hdadd x x' z z' : RD x x' -> RD z z' -> orel RD (madd_d x z) (madd_d x' z').
Proof.
  intros HX HZ. opn HX. opn HZ. unfold madd_d. cbn [d_lines d_points d_rods d_bodies]. rewrite Q1, Q2, Q0, Q3.
  rewrite (czip_lift (dlop vadd) (dlop vadd) hD hD hD) by (intros ? ?; now apply (dlop_lift vadd t_add)). rewrite (czip_lift (ok2 dpadd) (ok2 dpadd) pD pD pD) by (intros ? ?; unfold ok2, dpadd; cbn; now rewrite !t_add).
  destruct (czip _ (d_lines x) _); cbn; auto. destruct (czip _ (d_points x) _); cbn; auto. repeat split.
Qed.
Lemma Hdsub x x' z z' : RD x x' -> RD z z' -> orel RD (msub_d x z) (msub_d x' z').
Proof.
  intros HX HZ. opn HX. opn HZ. unfold msub_d. cbn [d_lines d_points d_rods d_bodies]. rewrite Q1, Q2, Q0, Q3.
  rewrite (czip_lift (dlop vsub) (dlop vsub) hD hD hD) by (intros ? ?; now apply (dlop_lift vsub t_sub)). rewrite (czip_lift (ok2 dpsub) (ok2 dpsub) pD pD pD) by (intros ? ?; unfold ok2, dpsub; cbn; now rewrite !t_sub).
  destruct (czip _ (d_lines x) _); cbn; auto. destruct (czip _ (d_points x) _); cbn; auto. repeat split.
Qed.
Lemma Hdmix x x' z z' f : RD x x' -> RD z z' -> orel RD (mmix_d x z f) (mmix_d x' z' f).
Proof.
  intros HX HZ. opn HX. opn HZ. unfold mmix_d. cbn [d_lines d_points d_rods d_bodies]. rewrite Q1, Q2. cbn [zipw].
  rewrite (zipw_lift (fun x y => dlmix x y f) (fun x y => dlmix x y f) hD hD hD) by (intros ? ?; apply dlmix_lift). rewrite (zipok_lift (fun x y => dpmix x y f) (fun x y => dpmix x y f) pD pD pD) by (intros ? ?; unfold dpmix; cbn; now rewrite !t_mix).
  destruct (zipw _ (d_lines x) _); cbn; auto. destruct (zipw _ (d_points x) _); cbn; auto. repeat split.
Qed.
Lemma Hnm x x' z z' a b c : RD x x' -> RD z z' -> orel RD (mnewmark_d x z a b c) (mnewmark_d x' z' a b c).
Proof.
  intros HX HZ. opn HX. opn HZ. unfold mnewmark_d. cbn [d_lines d_points d_rods d_bodies]. rewrite Q1, Q2, Q0, Q3.
  rewrite (czip_lift (fun x y => lnewmark x y a b c) (fun x y => lnewmark x y a b c) hD hD hD) by (intros ? ?; apply lnm_lift). rewrite (czip_lift (ok2 (fun x y => pnewmark x y a b c)) (ok2 (fun x y => pnewmark x y a b c)) pD pD pD) by (intros ? ?; unfold ok2, pnewmark; cbn; now rewrite t_nmk, t_nmkb, t_axpy).
  destruct (czip _ (d_lines x) _); cbn; auto. destruct (czip _ (d_points x) _); cbn; auto. repeat split.
Qed.
Lemma Hwi x x' z z' a b : RD x x' -> RD z z' -> orel RD (mwilson_d x z a b) (mwilson_d x' z' a b).
Proof.
  intros HX HZ. opn HX. opn HZ. unfold mwilson_d. cbn [d_lines d_points d_rods d_bodies]. rewrite Q1, Q2, Q0, Q3.
  rewrite (czip_lift (fun x y => lwilson x y a b) (fun x y => lwilson x y a b) hD hD hD) by (intros ? ?; apply lwi_lift). rewrite (czip_lift (ok2 (fun x y => pwilson x y a b)) (ok2 (fun x y => pwilson x y a b)) pD pD pD) by (intros ? ?; unfold ok2, pwilson; cbn; now rewrite !t_wil, t_axpy).
  destruct (czip _ (d_lines x) _); cbn; auto. destruct (czip _ (d_points x) _); cbn; auto. repeat split.
Qed.
Lemma Hst x x' k : RD x x' -> orel (fun p p' => fst p = fst p' /\ RD (snd p) (snd p')) (mstat_d x k) (mstat_d x' k).
Proof.
  intros HX. opn HX. unfold mstat_d. cbn [d_lines d_points d_rods d_bodies]. rewrite Q1, Q2. rewrite (omap_lift (fun x => lstat x k) (fun x => lstat x k) hD (fun p => (fst p, hD (snd p)))) by (intros ?; apply lstat_lift).
  destruct (omap _ _) as [l| | |]; cbn; auto. repeat split; cbn.
  - rewrite !map_map. cbn. f_equal. f_equal. f_equal. apply map_ext. intro. now rewrite t_norm.
  - rewrite !map_map. cbn. f_equal. apply map_ext. intro d. unfold pstat. cbn. now rewrite t_scale, t_zero.
Qed.
End O.
