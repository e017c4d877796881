(** Specification vocabulary for whole systems: how objects are attached, and when everything is where it belongs *)
From Coq Require Import Reals List Arith ZArith.
From Verif Require Import MErr MVec MStateOps MMat MLine MRod MBody MEnd MRodS MFull SMat SRod SEnd SRodS.
Import ListNotations.
Open Scope R_scope.

(** what carries points and rods: the ground or a body. What holds lines: a point or a rod *)
Inductive carrier := CGround | CBody (i : nat).
Inductive holder := HPoint (i : nat) | HRod (i : nat).
Definition the_body (F : full) (c : carrier) : bodyk := match c with CGround => f_ground F | CBody i => f_body F i end.
Definition real_carrier (F : full) (c : carrier) : Prop := match c with CGround => True | CBody i => (i < f_nb F)%nat end.
Definition real_holder (F : full) (h : holder) : Prop := match h with HPoint i => (i < f_np F)%nat | HRod i => (i < f_nr F)%nat end.
Definition held (F : full) (h : holder) : list (nat * Z) := match h with HPoint i => q_att (f_pt F i) | HRod i => k_attA (f_rod F i) ++ k_attB (f_rod F i) end.

(** a system as an input file can describe it: every end of a line has one holder; fixed points, fixed and pinned rods have one
    carrier and the other points and rods none; the ground is a fixed body; a rod on a carrier was set up with the direction the carrier knows *)
Definition well_formed (F : full) : Prop :=
  b_type (f_ground F) = BodyFixed /\
  (forall h i ep, real_holder F h -> In (i, ep) (held F h) -> (i < f_nl F)%nat /\ an_end ep /\ (0 < lN (f_line F i))%nat) /\
  (forall h h' x, real_holder F h -> real_holder F h' -> In x (held F h) -> In x (held F h') -> h = h') /\
  (forall h, real_holder F h -> NoDup (held F h)) /\
  (forall c i rel, real_carrier F c -> In (i, rel) (b_pts (the_body F c)) -> (i < f_np F)%nat /\ q_type (f_pt F i) = PFixed) /\
  (forall c c' i rel rel', real_carrier F c -> real_carrier F c' -> In (i, rel) (b_pts (the_body F c)) -> In (i, rel') (b_pts (the_body F c')) -> c = c' /\ rel = rel') /\
  (forall i, (i < f_np F)%nat -> q_type (f_pt F i) = PFixed -> exists c rel, real_carrier F c /\ In (i, rel) (b_pts (the_body F c))) /\
  (forall c i rel, real_carrier F c -> In (i, rel) (b_rods (the_body F c)) ->
     (i < f_nr F)%nat /\ (k_type (f_rod F i) = RodFixed \/ k_type (f_rod F i) = RodPinned) /\
     ((0 < k_n (f_rod F i))%nat -> k_q0 (f_rod F i) = v6tl rel /\ dot (v6tl rel) (v6tl rel) = 1)) /\
  (forall c c' i rel rel', real_carrier F c -> real_carrier F c' -> In (i, rel) (b_rods (the_body F c)) -> In (i, rel') (b_rods (the_body F c')) -> c = c' /\ rel = rel') /\
  (forall i, (i < f_nr F)%nat -> k_type (f_rod F i) = RodFixed \/ k_type (f_rod F i) = RodPinned -> exists c rel, real_carrier F c /\ In (i, rel) (b_rods (the_body F c))).

(** the lines held by a point end there, move with it and can turn freely *)
Definition point_holds (p : pointk) (ls : nat -> line) : Prop :=
  forall i ep, In (i, ep) (q_att p) -> end_pos (ls i) ep = q_r p /\ end_vel (ls i) ep = q_rd p /\ end_clamped (ls i) ep = false.
(** a rod is straight and rigid, it points where its orientation turns its first direction, and its lines end at its ends, move with them
    and are clamped along it; a rod without segments has both ends in one place *)
Definition rod_lines (k : rodk) (ls : nat -> line) : Prop :=
  (forall i ep, In (i, ep) (k_attA k ++ k_attB k) -> end_clamped (ls i) ep = true) /\
  (if Nat.eqb (k_n k) 0 then
    k_rB k = k_rA k /\ k_rdB k = k_rdA k /\ forall i ep, In (i, ep) (k_attA k ++ k_attB k) -> end_pos (ls i) ep = k_rA k /\ end_vel (ls i) ep = k_rdA k
  else
    k_q k = mmulv (qrot (qnormalized (xq_quat (k_r7 k)))) (k_q0 k) /\
    rod_lies k ls (k_rA k) (k_rdA k) (vadd (k_rA k) (vscale (k_len k) (k_q k))) (vadd (k_rdA k) (cross (v6tl (k_v6 k)) (vscale (k_len k) (k_q k)))) (k_q k)).
(** ... and the position and velocity it goes by are those of its end A *)
Definition rod_holds (k : rodk) (ls : nat -> line) : Prop :=
  k_rA k = xq_pos (k_r7 k) /\ k_rdA k = v6hd (k_v6 k) /\ rod_lines k ls.
(** a carrier has its points and the ends A of its rods where it takes them, and they move as with a rigid body; rods fixed to it keep their direction in its frame
    and turn with it (unless turned round by more than a half turn less 1.4e-6 rad, see C108) *)
Definition carries (b : bodyk) (F : full) : Prop :=
  (forall i rel, In (i, rel) (b_pts b) -> q_r (f_pt F i) = placed (xq_pos (b_r7 b)) (b_or b) rel /\ q_rd (f_pt F i) = velocity_at (mmulv (b_or b) rel) (b_v6 b)) /\
  (forall i rel, In (i, rel) (b_rods b) ->
     k_rA (f_rod F i) = placed (xq_pos (b_r7 b)) (b_or b) (v6hd rel) /\ k_rdA (f_rod F i) = velocity_at (mmulv (b_or b) (v6hd rel)) (b_v6 b) /\
     (k_type (f_rod F i) = RodFixed -> v6tl (k_v6 (f_rod F i)) = v6tl (b_v6 b) /\
        ((0 < k_n (f_rod F i))%nat -> -1 + 1e-12 <= dot (mmulv (b_or b) (v6tl rel)) (v6tl rel) -> k_q (f_rod F i) = mmulv (b_or b) (v6tl rel)))).
(** everything is where its carrier or holder is *)
Definition in_place (F : full) : Prop :=
  (forall c, real_carrier F c -> b_or (the_body F c) = qrot (qnormalized (xq_quat (b_r7 (the_body F c)))) /\ carries (the_body F c) F) /\
  (forall i, (i < f_np F)%nat -> point_holds (f_pt F i) (f_line F)) /\
  (forall i, (i < f_nr F)%nat -> rod_holds (f_rod F i) (f_line F)).

(** the bodies that never move once placed (other than the ground) have their points, rods and lines in place, and the ground knows its orientation *)
Definition fixed_in_place (F : full) : Prop :=
  b_or (f_ground F) = qrot (qnormalized (xq_quat (b_r7 (f_ground F)))) /\
  forall i, (i < f_nb F)%nat -> let b := f_body F i in b_type b = BodyFixed ->
    b_or b = qrot (qnormalized (xq_quat (b_r7 b))) /\ carries b F /\
    (forall j rel, In (j, rel) (b_pts b) -> point_holds (f_pt F j) (f_line F)) /\
    (forall j rel, In (j, rel) (b_rods b) -> rod_holds (f_rod F j) (f_line F)).

(** where the vessel leads an object after the time [tl]: the position and velocity it gave, extrapolated *)
Definition led (ves : v6 * v6 * v6) (tl : R) : v6 * v6 := let '(r, rd, _) := ves in (v6add r (v6scale tl rd), rd).
(** bodies, rods, points and the inner nodes of the lines are where the vessel leads them and where the state [x] has them *)
Definition follows (F : full) (tl : R) (x : mst) : Prop :=
  (forall i s, (i < f_nb F)%nat -> nth_error (s_bodies x) i = Some s -> let b := f_body F i in
     match b_type b with
     | BodyFree => b_r7 b = pos s /\ b_v6 b = vel s
     | BodyCpldPin => b_r7 b = XQ (v6hd (fst (led (b_ves b) tl))) (xq_quat (pos s)) /\ b_v6 b = V6 (v6hd (snd (led (b_ves b) tl))) (v6tl (vel s))
     | _ => True end) /\
  (forall i, (i < f_nb F)%nat -> let b := f_body F i in b_type b = BodyCoupled -> b_r7 b = fromVec6 (fst (led (b_ves b) tl)) /\ b_v6 b = snd (led (b_ves b) tl)) /\
  (forall i s, (i < f_nr F)%nat -> nth_error (s_rods x) i = Some s -> let k := f_rod F i in
     match k_type k with
     | RodFree => k_rA k = xq_pos (pos s) /\ k_rdA k = v6hd (vel s)
     | RodCpldPin => k_rA k = v6hd (fst (led (k_ves k) tl)) /\ k_rdA k = v6hd (snd (led (k_ves k) tl))
     | _ => True end /\
     (k_type k = RodFree \/ k_type k = RodPinned \/ k_type k = RodCpldPin -> (0 < k_n k)%nat ->
       k_q k = mmulv (qrot (qnormalized (xq_quat (pos s)))) (k_q0 k) /\ v6tl (k_v6 k) = v6tl (vel s))) /\
  (forall i, (i < f_nr F)%nat -> let k := f_rod F i in k_type k = RodCoupled ->
     k_rA k = v6hd (fst (led (k_ves k) tl)) /\ k_v6 k = snd (led (k_ves k) tl) /\ k_rdA k = v6hd (k_v6 k) /\ ((0 < k_n k)%nat -> k_q k = mmulv (RotXYZ (v6tl (fst (led (k_ves k) tl)))) (k_q0 k))) /\
  (forall i s, (i < f_np F)%nat -> nth_error (s_points x) i = Some s -> q_type (f_pt F i) = PFree -> q_r (f_pt F i) = pos s /\ q_rd (f_pt F i) = vel s) /\
  (forall i, (i < f_np F)%nat -> q_type (f_pt F i) = PCoupled -> q_r (f_pt F i) = vadd (fst (q_ves (f_pt F i))) (vscale tl (snd (q_ves (f_pt F i)))) /\ q_rd (f_pt F i) = snd (q_ves (f_pt F i))) /\
  (forall i s j, (i < f_nl F)%nat -> nth_error (s_lines x) i = Some s -> (0 < j < lN (f_line F i))%nat ->
     nth_error (pos s) (j - 1) = Some (lr (f_line F i) j) /\ nth_error (vel s) (j - 1) = Some (lrd (f_line F i) j)).

(** the same objects, attached in the same way: bodies with the same points and rods, rods of the same kind, length and first direction with the same lines, points with the same lines *)
Definition same_body (b b' : bodyk) : Prop := b_type b' = b_type b /\ b_pts b' = b_pts b /\ b_rods b' = b_rods b.
Definition same_rod (k k' : rodk) : Prop := k_type k' = k_type k /\ k_n k' = k_n k /\ k_len k' = k_len k /\ k_q0 k' = k_q0 k /\ k_attA k' = k_attA k /\ k_attB k' = k_attB k.
Definition same_pt (p p' : pointk) : Prop := q_type p' = q_type p /\ q_att p' = q_att p.
Definition shape (F F' : full) : Prop :=
  (f_nb F' = f_nb F /\ f_nr F' = f_nr F /\ f_np F' = f_np F /\ f_nl F' = f_nl F) /\
  (forall c, same_body (the_body F c) (the_body F' c)) /\ (forall i, same_rod (f_rod F i) (f_rod F' i)) /\ (forall i, same_pt (f_pt F i) (f_pt F' i)) /\ (forall i, lN (f_line F' i) = lN (f_line F i)).
(** the vessel has said nothing new *)
Definition vsame (F F' : full) : Prop :=
  (forall c, b_ves (the_body F' c) = b_ves (the_body F c)) /\ (forall i, k_ves (f_rod F' i) = k_ves (f_rod F i)) /\ (forall i, q_ves (f_pt F' i) = q_ves (f_pt F i)).
(** what the vessel says about one object is what that object, and no other, will be led by (a pinned object takes only the translation) *)
Definition heard (whole : bool) (ves : v6 * v6 * v6) (r rd : v6) : Prop :=
  if whole then forall tl, led ves tl = (v6add r (v6scale tl rd), rd)
  else forall tl, v6hd (fst (led ves tl)) = vadd (v6hd r) (vscale tl (v6hd rd)) /\ v6hd (snd (led ves tl)) = v6hd rd.
Definition imposed (c : boundary) (F F' : full) : Prop :=
  match c with
  | BcBody i r rd _ => (i < f_nb F)%nat /\ (forall d, d <> CBody i -> b_ves (the_body F' d) = b_ves (the_body F d)) /\ (forall j, k_ves (f_rod F' j) = k_ves (f_rod F j)) /\ (forall j, q_ves (f_pt F' j) = q_ves (f_pt F j)) /\
      match b_type (f_body F i) with BodyCoupled => heard true (b_ves (f_body F' i)) r rd | BodyCpldPin => heard false (b_ves (f_body F' i)) r rd | BodyFixed => True | BodyFree => False end
  | BcRod i r rd _ => (i < f_nr F)%nat /\ (forall d, b_ves (the_body F' d) = b_ves (the_body F d)) /\ (forall j, j <> i -> k_ves (f_rod F' j) = k_ves (f_rod F j)) /\ (forall j, q_ves (f_pt F' j) = q_ves (f_pt F j)) /\
      match k_type (f_rod F i) with RodCoupled => heard true (k_ves (f_rod F' i)) r rd | RodCpldPin => heard false (k_ves (f_rod F' i)) r rd | _ => False end
  | BcPoint i r rd => (i < f_np F)%nat /\ (forall d, b_ves (the_body F' d) = b_ves (the_body F d)) /\ (forall j, k_ves (f_rod F' j) = k_ves (f_rod F j)) /\ (forall j, j <> i -> q_ves (f_pt F' j) = q_ves (f_pt F j)) /\
      q_type (f_pt F i) = PCoupled /\ q_ves (f_pt F' i) = (r, rd)
  end.
