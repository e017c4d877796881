(** State variables of the integrator and their arithmetic: source/State.hpp,
    source/State.cpp. Numbers are exact reals. A size mismatch detected by the code is
    [Throw ExInvalidValue]; an index outside of a vector is [UB]. *)
From Coq Require Import Reals List Arith Bool.
From Verif Require Import MErr MVec.
Import ListNotations.
Open Scope R_scope.

Notation "x <- e ;; k" := (obind e (fun x => k)) (at level 61, e at next level, right associativity).

(** StateVar<T, V>, State.hpp l.49-100 *)
Record stv (A B : Type) := St { pos : A; vel : B }.
Arguments St {A B} pos vel. Arguments pos {A B} s. Arguments vel {A B} s.
(** StateVarDeriv<T, V>, State.hpp l.107-229 *)
Record drv (A B : Type) := Dr { dvel : A; dacc : B }.
Arguments Dr {A B} dvel dacc. Arguments dvel {A B} d. Arguments dacc {A B} d.

(** PointState, LineState, RodState, BodyState and their derivatives, State.hpp *)
Definition pst := stv v3 v3.
Definition lst := stv (list v3) (list v3).
Definition rst := stv xyzquat v6.
Definition dpst := drv v3 v3.
Definition dlst := drv (list v3) (list v3).
Definition drst := drv xyzquat v6.

(** for (i = 0; i < a.size(); i++) out.push_back(f(a[i], b[i])) *)
Fixpoint zipw {A B C} (f : A -> B -> outcome C) (a : list A) (b : list B) : outcome (list C) :=
  match a, b with
  | [], _ => Ok []
  | _ :: _, [] => UB
  | x :: a', y :: b' => c <- f x y ;; r <- zipw f a' b' ;; Ok (c :: r)
  end.
(** the n first entries of a vector read one by one with operator[] *)
Definition take {A} (n : nat) (l : list A) : outcome (list A) :=
  if (length l <? n)%nat then UB else Ok (firstn n l).
Definition ok2 {A B C} (f : A -> B -> C) (a : A) (b : B) : outcome C := Ok (f a b).

(** StateVar<vec>::operator+ l.83-91 and operator- l.141-149 *)
Definition padd (a b : pst) : pst := St (vadd (pos a) (pos b)) (vadd (vel a) (vel b)).
Definition psub (a b : pst) : pst := St (vsub (pos a) (pos b)) (vsub (vel a) (vel b)).
(** StateVar<vec>::Mix l.179-185 *)
Definition mixv (f : R) (a b : v3) := vadd (vscale (1 - f) a) (vscale f b).
Definition pmix (a b : pst) (f : R) : pst := St (mixv f (pos a) (pos b)) (mixv f (vel a) (vel b)).
(** StateVar<XYZQuat, vec6>::operator+ l.103-111 *)
Definition radd (a b : rst) : rst := St (xqadd (pos a) (pos b)) (v6add (vel a) (vel b)).
(** StateVar<XYZQuat, vec6>::operator- l.113-121: the text of the body is
    "pos + rhs.pos" and "vel + rhs.vel" *)
Definition rsub (a b : rst) : rst := St (xqadd (pos a) (pos b)) (v6add (vel a) (vel b)).
(** StateVar<XYZQuat, vec6>::Mix l.195-201 *)
Definition rmix (a b : rst) (f : R) : rst :=
  St (xqadd (xqscale (1 - f) (pos a)) (xqscale f (pos b))) (v6add (v6scale (1 - f) (vel a)) (v6scale f (vel b))).
(** StateVar<vector<vec>>::operator+ l.123-139 and operator- l.161-177: only the
    first pos.size() entries of vel are visited *)
Definition lop (f : v3 -> v3 -> v3) (a b : lst) : outcome lst :=
  if negb (length (pos a) =? length (pos b))%nat || negb (length (vel a) =? length (vel b))%nat
  then Throw ExInvalidValue
  else
    p <- zipw (ok2 f) (pos a) (pos b) ;;
    va <- take (length (pos a)) (vel a) ;; vb <- take (length (pos a)) (vel b) ;;
    v <- zipw (ok2 f) va vb ;; Ok (St p v).
Definition ladd := lop vadd.
Definition lsub := lop vsub.
(** StateVar<vector<vec>>::Mix l.203-211: no size check, in place *)
Definition lmix (a b : lst) (f : R) : outcome lst :=
  let n := length (pos a) in
  p <- zipw (ok2 (mixv f)) (pos a) (pos b) ;;
  va <- take n (vel a) ;; v <- zipw (ok2 (mixv f)) va (vel b) ;;
  Ok (St p (v ++ skipn n (vel a))).

(** StateVarDeriv::operator* l.259-303 *)
Definition pscale (d : dpst) (k : R) : pst := St (vscale k (dvel d)) (vscale k (dacc d)).
Definition rscale (d : drst) (k : R) : rst := St (xqscale k (dvel d)) (v6scale k (dacc d)).
Definition lscale (d : dlst) (k : R) : outcome lst :=
  a <- take (length (dvel d)) (dacc d) ;; Ok (St (map (vscale k) (dvel d)) (map (vscale k) a)).
(** StateVarDeriv::operator+ and operator- l.305-401 *)
Definition dpadd (a b : dpst) : dpst := Dr (vadd (dvel a) (dvel b)) (vadd (dacc a) (dacc b)).
Definition dpsub (a b : dpst) : dpst := Dr (vsub (dvel a) (dvel b)) (vsub (dacc a) (dacc b)).
Definition dradd (a b : drst) : drst := Dr (xqadd (dvel a) (dvel b)) (v6add (dacc a) (dacc b)).
Definition drsub (a b : drst) : drst := Dr (xqsub (dvel a) (dvel b)) (v6sub (dacc a) (dacc b)).
Definition dlop (f : v3 -> v3 -> v3) (a b : dlst) : outcome dlst :=
  if negb (length (dvel a) =? length (dvel b))%nat || negb (length (dacc a) =? length (dacc b))%nat
  then Throw ExInvalidValue
  else
    p <- zipw (ok2 f) (dvel a) (dvel b) ;;
    va <- take (length (dvel a)) (dacc a) ;; vb <- take (length (dvel a)) (dacc b) ;;
    v <- zipw (ok2 f) va vb ;; Ok (Dr p v).
(** StateVarDeriv::Mix l.564-596 *)
Definition dpmix (a b : dpst) (f : R) : dpst := Dr (mixv f (dvel a) (dvel b)) (mixv f (dacc a) (dacc b)).
Definition drmix (a b : drst) (f : R) : drst :=
  Dr (xqadd (xqscale (1 - f) (dvel a)) (xqscale f (dvel b))) (v6add (v6scale (1 - f) (dacc a)) (v6scale f (dacc b))).
Definition dlmix (a b : dlst) (f : R) : outcome dlst :=
  let n := length (dvel a) in
  p <- zipw (ok2 (mixv f)) (dvel a) (dvel b) ;;
  va <- take n (dacc a) ;; v <- zipw (ok2 (mixv f)) va (dacc b) ;;
  Ok (Dr p (v ++ skipn n (dacc a))).

(** Eigen quaternion product, as used by the AngleAxis products of Euler2Quat *)
Definition qmul a b := Q4
  (qw a * qw b - qx a * qx b - qy a * qy b - qz a * qz b)
  (qw a * qx b + qx a * qw b + qy a * qz b - qz a * qy b)
  (qw a * qy b + qy a * qw b + qz a * qx b - qx a * qz b)
  (qw a * qz b + qz a * qw b + qx a * qy b - qy a * qx b).
(** Euler2Quat, Misc.hpp l.262-270: AngleAxis(x) * AngleAxis(y) * AngleAxis(z), each
    one (cos(a/2), sin(a/2) axis) *)
Definition euler2quat (a : v3) : quat :=
  qmul (qmul (Q4 (cos (vx a / 2)) (sin (vx a / 2)) 0 0) (Q4 (cos (vy a / 2)) 0 (sin (vy a / 2)) 0))
       (Q4 (cos (vz a / 2)) 0 0 (sin (vz a / 2))).
(** XYZQuat::fromVec6, Misc.hpp l.294-297 *)
Definition fromVec6 (v : v6) : xyzquat := XQ (v6hd v) (euler2quat (v6tl v)).

(** StateVarDeriv::MakeStationary l.403-440: returned error and new derivative *)
Definition pstat (d : dpst) (dt : R) : R * dpst := (norm (dacc d), Dr (vscale (0.5 * dt) (dacc d)) vzero).
Definition rstat (d : drst) (dt : R) : R * drst :=
  (norm (v6hd (dacc d)), Dr (fromVec6 (v6scale (0.5 * dt) (dacc d))) v6zero).
Definition lstat (d : dlst) (dt : R) : outcome (R * dlst) :=
  let n := length (dvel d) in
  a <- take n (dacc d) ;;
  Ok (fold_left (fun s x => s + norm x) a 0,
      Dr (map (vscale (0.5 * dt)) a) (repeat vzero n ++ skipn n (dacc d))).

(** Newmark, l.442-500: acc_gamma and acc_beta *)
Definition nmk3 (g : R) (a b : v3) := vadd (vscale (1 - g) a) (vscale g b).
Definition nmkb3 (be : R) (a b : v3) := vadd (vscale (0.5 - be) a) (vscale be b).
Definition nmk6 (g : R) (a b : v6) := v6add (v6scale (1 - g) a) (v6scale g b).
Definition nmkb6 (be : R) (a b : v6) := v6add (v6scale (0.5 - be) a) (v6scale be b).
Definition pnewmark (a b : dpst) (dt g be : R) : dpst :=
  Dr (vadd (dvel a) (vscale dt (nmkb3 be (dacc a) (dacc b)))) (nmk3 g (dacc a) (dacc b)).
Definition rnewmark (a b : drst) (dt g be : R) : drst :=
  Dr (xqadd (dvel a) (fromVec6 (v6scale dt (nmkb6 be (dacc a) (dacc b))))) (nmk6 g (dacc a) (dacc b)).
(** the loop over the nodes reads vel[i], acc[i] and visitor.acc[i] for i < vel.size() *)
Definition lnewmark (a b : dlst) (dt g be : R) : outcome dlst :=
  let n := length (dvel a) in
  aa <- take n (dacc a) ;; ab <- take n (dacc b) ;;
  p <- zipw (ok2 (fun v x => vadd v (vscale dt x))) (dvel a) (map (fun xy => nmkb3 be (fst xy) (snd xy)) (combine aa ab)) ;;
  v <- zipw (ok2 (nmk3 g)) aa ab ;; Ok (Dr p v).

(** Wilson, l.502-562 *)
Definition wil3 (f : R) (a b : v3) := vadd (vscale (1 - f) a) (vscale f b).
Definition wil6 (f : R) (a b : v6) := v6add (v6scale (1 - f) a) (v6scale f b).
Definition pwilson (a b : dpst) (tau dt : R) : dpst :=
  let f := tau / dt in
  Dr (vadd (dvel a) (vscale (0.5 * dt) (wil3 (1 / 3 * f) (dacc a) (dacc b)))) (wil3 (0.5 * f) (dacc a) (dacc b)).
Definition rwilson (a b : drst) (tau dt : R) : drst :=
  let f := tau / dt in
  Dr (xqadd (dvel a) (fromVec6 (v6scale (0.5 * dt) (wil6 (1 / 3 * f) (dacc a) (dacc b))))) (wil6 (0.5 * f) (dacc a) (dacc b)).
Definition lwilson (a b : dlst) (tau dt : R) : outcome dlst :=
  let n := length (dvel a) in
  let f := tau / dt in
  aa <- take n (dacc a) ;; ab <- take n (dacc b) ;;
  p <- zipw (ok2 (fun v x => vadd v (vscale (0.5 * dt) x))) (dvel a) (map (fun xy => wil3 (1 / 3 * f) (fst xy) (snd xy)) (combine aa ab)) ;;
  v <- zipw (ok2 (wil3 (0.5 * f))) aa ab ;; Ok (Dr p v).

(** MoorDynState, State.hpp l.258-310 *)
Record mst := Ms { s_lines : list lst; s_points : list pst; s_rods : list rst; s_bodies : list rst }.
(** DMoorDynStateDt, State.hpp l.315-437 *)
Record mdst := Md { d_lines : list dlst; d_points : list dpst; d_rods : list drst; d_bodies : list drst }.

(** if (a.size() != b.size()) throw; then the loop over both *)
Definition czip {A B C} (f : A -> B -> outcome C) (a : list A) (b : list B) : outcome (list C) :=
  if negb (length a =? length b)%nat then Throw ExInvalidValue else zipw f a b.

(** MoorDynState::operator+ l.645-672 *)
Definition madd_s (a b : mst) : outcome mst :=
  l <- czip ladd (s_lines a) (s_lines b) ;; p <- czip (ok2 padd) (s_points a) (s_points b) ;;
  r <- czip (ok2 radd) (s_rods a) (s_rods b) ;; q <- czip (ok2 radd) (s_bodies a) (s_bodies b) ;;
  Ok (Ms l p r q).
(** MoorDynState::operator- l.674-701 *)
Definition msub_s (a b : mst) : outcome mst :=
  l <- czip lsub (s_lines a) (s_lines b) ;; p <- czip (ok2 psub) (s_points a) (s_points b) ;;
  r <- czip (ok2 rsub) (s_rods a) (s_rods b) ;; q <- czip (ok2 rsub) (s_bodies a) (s_bodies b) ;;
  Ok (Ms l p r q).
(** MoorDynState::Mix l.703-714 *)
Definition mmix_s (a b : mst) (f : R) : outcome mst :=
  l <- zipw (fun x y => lmix x y f) (s_lines a) (s_lines b) ;;
  p <- zipw (ok2 (fun x y => pmix x y f)) (s_points a) (s_points b) ;;
  r <- zipw (ok2 (fun x y => rmix x y f)) (s_rods a) (s_rods b) ;;
  q <- zipw (ok2 (fun x y => rmix x y f)) (s_bodies a) (s_bodies b) ;; Ok (Ms l p r q).
(** out.push_back(f(a[i])) *)
Fixpoint omap {A B} (f : A -> outcome B) (a : list A) : outcome (list B) :=
  match a with [] => Ok [] | x :: a' => y <- f x ;; r <- omap f a' ;; Ok (y :: r) end.
(** DMoorDynStateDt::operator* l.763-782 *)
Definition mscale_d (d : mdst) (k : R) : outcome mst :=
  l <- omap (fun x => lscale x k) (d_lines d) ;;
  Ok (Ms l (map (fun x => pscale x k) (d_points d)) (map (fun x => rscale x k) (d_rods d)) (map (fun x => rscale x k) (d_bodies d))).
(** DMoorDynStateDt::operator+ l.784-811 *)
Definition madd_d (a b : mdst) : outcome mdst :=
  l <- czip (dlop vadd) (d_lines a) (d_lines b) ;; p <- czip (ok2 dpadd) (d_points a) (d_points b) ;;
  r <- czip (ok2 dradd) (d_rods a) (d_rods b) ;; q <- czip (ok2 dradd) (d_bodies a) (d_bodies b) ;;
  Ok (Md l p r q).
(** DMoorDynStateDt::operator- l.813-840 *)
Definition msub_d (a b : mdst) : outcome mdst :=
  l <- czip (dlop vsub) (d_lines a) (d_lines b) ;; p <- czip (ok2 dpsub) (d_points a) (d_points b) ;;
  r <- czip (ok2 drsub) (d_rods a) (d_rods b) ;; q <- czip (ok2 drsub) (d_bodies a) (d_bodies b) ;;
  Ok (Md l p r q).
(** DMoorDynStateDt::Mix l.920-931 *)
Definition mmix_d (a b : mdst) (f : R) : outcome mdst :=
  l <- zipw (fun x y => dlmix x y f) (d_lines a) (d_lines b) ;;
  p <- zipw (ok2 (fun x y => dpmix x y f)) (d_points a) (d_points b) ;;
  r <- zipw (ok2 (fun x y => drmix x y f)) (d_rods a) (d_rods b) ;;
  q <- zipw (ok2 (fun x y => drmix x y f)) (d_bodies a) (d_bodies b) ;; Ok (Md l p r q).
(** DMoorDynStateDt::Newmark l.857-887 *)
Definition mnewmark_d (a b : mdst) (dt g be : R) : outcome mdst :=
  l <- czip (fun x y => lnewmark x y dt g be) (d_lines a) (d_lines b) ;;
  p <- czip (ok2 (fun x y => pnewmark x y dt g be)) (d_points a) (d_points b) ;;
  r <- czip (ok2 (fun x y => rnewmark x y dt g be)) (d_rods a) (d_rods b) ;;
  q <- czip (ok2 (fun x y => rnewmark x y dt g be)) (d_bodies a) (d_bodies b) ;; Ok (Md l p r q).
(** DMoorDynStateDt::Wilson l.889-918 *)
Definition mwilson_d (a b : mdst) (tau dt : R) : outcome mdst :=
  l <- czip (fun x y => lwilson x y tau dt) (d_lines a) (d_lines b) ;;
  p <- czip (ok2 (fun x y => pwilson x y tau dt)) (d_points a) (d_points b) ;;
  r <- czip (ok2 (fun x y => rwilson x y tau dt)) (d_rods a) (d_rods b) ;;
  q <- czip (ok2 (fun x y => rwilson x y tau dt)) (d_bodies a) (d_bodies b) ;; Ok (Md l p r q).
(** DMoorDynStateDt::MakeStationary l.842-855: the errors add up in the order lines,
    points, rods, bodies *)
Definition mstat_d (d : mdst) (dt : R) : outcome (R * mdst) :=
  l <- omap (fun x => lstat x dt) (d_lines d) ;;
  let p := map (fun x => pstat x dt) (d_points d) in
  let r := map (fun x => rstat x dt) (d_rods d) in
  let q := map (fun x => rstat x dt) (d_bodies d) in
  Ok (fold_left Rplus (map fst l ++ map fst p ++ map fst r ++ map fst q) 0,
      Md (map snd l) (map snd p) (map snd r) (map snd q)).
