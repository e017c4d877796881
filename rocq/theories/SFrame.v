(** Specification vocabulary for the choice of coordinates: isometries of the horizontal plane, and lines described from the
    other end. *)
From Coq Require Import Reals List Arith ZArith Bool.
From Verif Require Import MErr MVec MStateOps MMat MInterp MLine MRod MBody MScheme MSys.
From Verif Require MStep MNodes.
Import ListNotations.
Open Scope R_scope.

(** x' = c x - d s y + a, y' = s x + d c y + b, z' = z: a turn by the angle with cosine c and sine s, after a reflection if d
    is -1, and a shift *)
Record plane := Plane { g_c : R; g_s : R; g_d : R; g_a : R; g_b : R }.
Definition isometry (g : plane) : Prop := g_c g * g_c g + g_s g * g_s g = 1 /\ (g_d g = 1 \/ g_d g = -1).
(** vectors, positions, and axial vectors such as moments *)
Definition turn (g : plane) (v : v3) : v3 := V3 (g_c g * vx v - g_d g * g_s g * vy v) (g_s g * vx v + g_d g * g_c g * vy v) (vz v).
Definition place (g : plane) (p : v3) : v3 := vadd (turn g p) (V3 (g_a g) (g_b g) 0).
Definition spin (g : plane) (w : v3) : v3 := vscale (g_d g) (turn g w).
Definition turn6 (g : plane) (f : v6) : v6 := V6 (turn g (v6hd f)) (spin g (v6tl f)).

(** the same water in the new coordinates *)
Definition moved_water (g : plane) (k k' : wkin) : Prop :=
  (forall i, wzeta k' i = wzeta k i /\ wU k' i = turn g (wU k i) /\ wUd k' i = turn g (wUd k i) /\ wpdyn k' i = wpdyn k i) /\
  (forall p, wdepth k' (vx (place g p)) (vy (place g p)) = wdepth k (vx p) (vy p)).
(** the same line: what is not a vector stays *)
Definition moved_line (g : plane) (L : line) : line :=
  Line (lN L) (ldia L) (larea L) (lrho L) (lE L) (lEI L) (lc L) (lCan L) (lCat L) (lCdn L) (lCdt L)
    (lsx L) (lsy L) (lbx L) (lby L) (ldx L) (ldy L) (lisPb L) (lpin L)
    (fun i => place g (lr L i)) (fun i => turn g (lrd L i)) (ll L) (lV L) (lcantA L) (lcantB L) (turn g (lqA L)) (turn g (lqB L)).
(** [m'] is the matrix [m] in the new coordinates *)
Definition moved_matrix (g : plane) (m m' : m3) : Prop := forall v, mmulv m' (turn g v) = turn g (mmulv m v).
Definition moved_matrix6 (g : plane) (m m' : m6) : Prop := forall v, m6mulv m' (turn6 g v) = turn6 g (m6mulv m v).
(** what a line hands over, and points and rods *)
Definition moved_end (g : plane) (s s' : endstuff) : Prop :=
  esF s' = turn g (esF s) /\ esM s' = spin g (esM s) /\ moved_matrix g (esMass s) (esMass s').
Definition moved_out (g : plane) (l l' : lineout) : Prop :=
  loN l' = loN l /\ (forall i, (i <= loN l)%nat -> loF l' i = turn g (loF l i) /\ moved_matrix g (loM l i) (loM l' i)) /\
  loMomA l' = spin g (loMomA l) /\ loMomB l' = spin g (loMomB l).
Definition moved_point (g : plane) (p p' : point) : Prop :=
  p_type p' = p_type p /\ p_r p' = place g (p_r p) /\ p_rd p' = turn g (p_rd p) /\ p_M p' = p_M p /\ p_V p' = p_V p /\
  p_F p' = turn g (p_F p) /\ p_CdA p' = p_CdA p /\ p_Ca p' = p_Ca p /\
  Forall2 (fun x x' => moved_out g (fst x) (fst x') /\ snd x' = snd x) (p_att p) (p_att p').
Definition moved_rod (g : plane) (D : rod) : rod :=
  Rod (rn D) (rdia D) (rrho D) (rlen D) (rCan D) (rCat D) (rCdn D) (rCdEnd D) (rCaEnd D)
    (turn g (rq D)) (place g (rA D)) (turn g (rvA D)) (spin g (rw D)).
(** a body is not reflected: [g_d] is 1 *)
Definition rot_matrix (g : plane) : m3 := M3 (V3 (g_c g) (- g_s g) 0) (V3 (g_s g) (g_c g) 0) (V3 0 0 1).
Definition moved_body (g : plane) (b : body) : body :=
  Body (b_type b) (b_M b) (b_V b) (b_rCG b) (b_I b) (b_CdA b) (b_Ca b) (place g (b_pos b)) (mmul (rot_matrix g) (b_Or b)) (turn6 g (b_v b)) (turn6 g (b_a b)).

(** the line described from B to A, and the water at its nodes *)
Definition reversed (L : line) : line :=
  Line (lN L) (ldia L) (larea L) (lrho L) (lE L) (lEI L) (lc L) (lCan L) (lCat L) (lCdn L) (lCdt L)
    (lsx L) (lsy L) (lbx L) (lby L) (ldx L) (ldy L) (lisPb L) (fun i => lpin L (lN L - i)%nat)
    (fun i => lr L (lN L - i)%nat) (fun i => lrd L (lN L - i)%nat) (fun i => ll L (lN L - 1 - i)%nat) (fun i => lV L (lN L - 1 - i)%nat)
    (lcantB L) (lcantA L) (vscale (-1) (lqB L)) (vscale (-1) (lqA L)).
Definition reversed_water (n : nat) (k : wkin) : wkin :=
  Wkin (fun i => wzeta k (n - i)%nat) (fun i => wU k (n - i)%nat) (fun i => wUd k (n - i)%nat) (fun i => wpdyn k (n - i)%nat) (wdepth k).

(* ------------------------- whole systems of lines and points ------------------------- *)
(** the same sea, and the same bathymetry *)
Definition moved_sea (g : plane) (sea sea' : R -> v3 -> MNodes.wkin) : Prop :=
  forall t p, sea' t (place g p) = MNodes.Wk (MNodes.w_zeta (sea t p)) (turn g (MNodes.w_u (sea t p))) (turn g (MNodes.w_ud (sea t p))) (MNodes.w_pdyn (sea t p)).
Definition moved_depth (g : plane) (depth depth' : R -> R -> R) : Prop :=
  forall p, depth' (vx (place g p)) (vy (place g p)) = depth (vx p) (vy p).
(** the objects *)
Definition moved_cpt (g : plane) (c : MStep.cpt) : MStep.cpt :=
  MStep.Cpt (place g (MStep.p_rves c)) (turn g (MStep.p_rdves c)) (place g (MStep.p_r c)) (turn g (MStep.p_rd c)).
Definition moved_spoint (g : plane) (p : spoint) : spoint :=
  SPoint (sp_type p) (place g (sp_r p)) (turn g (sp_rd p)) (sp_M p) (sp_V p) (turn g (sp_F p)) (sp_CdA p) (sp_Ca p) (sp_att p) (turn g (sp_Fnet p)).
Definition moved_net (g : plane) (n : net) : net :=
  Net (map (moved_line g) (n_lines n)) (map (moved_spoint g) (n_pts n)) (n_time n) (n_cfl n) (n_objs n).
(** systems without coupled bodies and rods *)
Definition moved_sys (g : plane) (e e' : MStep.sys net) : Prop :=
  MStep.e_bod _ e = [] /\ MStep.e_rod _ e = [] /\
  e' = MStep.Sys net [] [] (map (moved_cpt g) (MStep.e_pts _ e)) (MStep.e_lin _ e) (moved_net g (MStep.e_rest _ e)).
(** states and derivatives of lines and points *)
Definition moved_state (g : plane) (x x' : mst) : Prop :=
  s_rods x = [] /\ s_bodies x = [] /\
  x' = Ms (map (fun s => St (map (place g) (pos s)) (map (turn g) (vel s))) (s_lines x)) (map (fun s => St (place g (pos s)) (turn g (vel s))) (s_points x)) [] [].
Definition moved_deriv (g : plane) (d d' : mdst) : Prop :=
  d_rods d = [] /\ d_bodies d = [] /\
  d' = Md (map (fun s => Dr (map (turn g) (dvel s)) (map (turn g) (dacc s))) (d_lines d)) (map (fun s => Dr (turn g (dvel s)) (turn g (dacc s))) (d_points d)) [] [].
(** instances of MoorDyn: the first state is the current one (the second one is the former one of the stationary scheme, from
    its first step on); the others are not read before they are written *)
Definition current (m : MStep.md mst mdst net) : nat :=
  match MStep.m_scheme _ _ _ m with Stationary => if Req_EM_T (err _ _ _ (MStep.m_ts _ _ _ m)) 0 then 1%nat else 2%nat | _ => 1%nat end.
Definition moved_instance (g : plane) (m m' : MStep.md mst mdst net) : Prop :=
  MStep.m_scheme _ _ _ m' = MStep.m_scheme _ _ _ m /\ MStep.m_dtM _ _ _ m' = MStep.m_dtM _ _ _ m /\ MStep.m_dtOut _ _ _ m' = MStep.m_dtOut _ _ _ m /\
  MStep.m_fail _ _ _ m' = MStep.m_fail _ _ _ m /\ MStep.m_rows _ _ _ m' = MStep.m_rows _ _ _ m /\
  let s := MStep.m_ts _ _ _ m in let s' := MStep.m_ts _ _ _ m' in
  tt _ _ _ s' = tt _ _ _ s /\ tl _ _ _ s' = tl _ _ _ s /\ nst _ _ _ s' = nst _ _ _ s /\ err _ _ _ s' = err _ _ _ s /\ boost _ _ _ s' = boost _ _ _ s /\
  moved_sys g (env _ _ _ s) (env _ _ _ s') /\ Forall2 (moved_deriv g) (rd _ _ _ s) (rd _ _ _ s') /\
  length (rr _ _ _ s) = length (rr _ _ _ s') /\
  (forall i x x', (i < current m)%nat -> nth_error (rr _ _ _ s) i = Some x -> nth_error (rr _ _ _ s') i = Some x' -> moved_state g x x').
(** the calls of the coupled program: positions and velocities of the coupled points *)
Definition coupling (ps vs : list v3) (dt : R) : list R * list R * R := (flat_map MStep.lst3 ps, flat_map MStep.lst3 vs, dt).
(** both calls fail in the same way, or both succeed with related results *)
Definition agree {A B} (Q : A -> B -> Prop) (a : outcome A) (b : outcome B) : Prop :=
  match a, b with Ok x, Ok y => Q x y | Throw e, Throw e' => e = e' | UB, UB => True | Diverges, Diverges => True | _, _ => False end.
(** the forces handed to the coupled program *)
Definition same_forces (g : plane) (f f' : list R) : Prop := exists fs, f = flat_map MStep.lst3 fs /\ f' = flat_map MStep.lst3 (map (turn g) fs).
(** the time schemes that evaluate all the objects at each step, and a test of convergence that does not depend on the axes *)
Definition whole (c : scheme) : Prop := match c with LocalEuler | AB _ true => False | _ => True end.
Definition blind_test (g : plane) (conv : mdst -> mdst -> bool) : Prop := forall a a' b b', moved_deriv g a a' -> moved_deriv g b b' -> conv a b = conv a' b'.
