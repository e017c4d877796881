(** Specification vocabulary for parts of mooring systems: some of the lines and points of a system, under other numbers, without
    any connection to the others. The whole system under other numbers is a part of itself. *)
From Coq Require Import Reals List Arith ZArith Bool Permutation.
From Verif Require Import MErr MVec MStateOps MMat MInterp MLine MRod MBody MScheme MSys.
From Verif Require MStep MNodes.
Import ListNotations.
Open Scope R_scope.

(** the numbers of the lines and points of the part in the whole *)
Record numbering := Numbering { line_no : nat -> nat; point_no : nat -> nat }.
(** every entry is found under its number *)
Definition found {A} (no : nat -> nat) (l l' : list A) : Prop := forall i x, nth_error l i = Some x -> nth_error l' (no i) = Some x.
(** the number of a coupled point among the coupled points *)
Definition coupled_no (ty : list ptype) (k : nat) : nat := length (filter (fun t => match t with PCoupled => true | _ => false end) (firstn k ty)).
Definition coupled_count (ty : list ptype) : nat := coupled_no ty (length ty).
(** lists over the coupled points *)
Definition same_coupled {A} (q : numbering) (ty ty' : list ptype) (l l' : list A) : Prop :=
  forall k, nth_error ty k = Some PCoupled -> nth_error l' (coupled_no ty' (point_no q k)) = nth_error l (coupled_no ty k).
(** what the points of the part hold: the ends of lines of the part, each at most once; the same ends in the whole, in any order;
    and no other point of the whole holds an end of a line of the part *)
Definition separated (q : numbering) (nl : nat) (att att' : list (list (nat * Z))) : Prop :=
  (forall i j, (i < nl)%nat -> (j < nl)%nat -> line_no q i = line_no q j -> i = j) /\
  (forall k a, nth_error att k = Some a -> exists a', nth_error att' (point_no q k) = Some a' /\ Permutation (map (fun x => (line_no q (fst x), snd x)) a) a') /\
  (forall k a i ep, nth_error att k = Some a -> In (i, ep) a -> (i < nl)%nat /\ (ep = ENDPOINT_A \/ ep = ENDPOINT_B)) /\
  (forall k j a b x, nth_error att k = Some a -> nth_error att j = Some b -> In x a -> In x b -> k = j) /\
  (forall k' a' i ep, nth_error att' k' = Some a' -> In (line_no q i, ep) a' -> (i < nl)%nat -> exists k, k' = point_no q k /\ (k < length att)%nat).
(** a point without its attachments *)
Definition bare (p : spoint) : ptype * (v3 * v3 * (R * R) * v3) * (R * R * v3) :=
  (sp_type p, (sp_r p, sp_rd p, (sp_M p, sp_V p), sp_F p), (sp_CdA p, sp_Ca p, sp_Fnet p)).
(** parts of systems without rods and bodies *)
Definition part_sys (q : numbering) (nl np : nat) (e e' : MStep.sys net) : Prop :=
  let n := MStep.e_rest _ e in let n' := MStep.e_rest _ e' in
  MStep.e_bod _ e = [] /\ MStep.e_rod _ e = [] /\ MStep.e_bod _ e' = [] /\ MStep.e_rod _ e' = [] /\
  (length (n_lines n) = nl /\ found (line_no q) (n_lines n) (n_lines n') /\ (forall L, In L (n_lines n) -> (0 < lN L)%nat)) /\
  (length (MStep.e_lin _ e) = nl /\ found (line_no q) (MStep.e_lin _ e) (MStep.e_lin _ e')) /\
  (length (n_pts n) = np /\ found (point_no q) (map bare (n_pts n)) (map bare (n_pts n'))) /\
  (length (MStep.e_pts _ e) = coupled_count (map sp_type (n_pts n)) /\ same_coupled q (map sp_type (n_pts n)) (map sp_type (n_pts n')) (MStep.e_pts _ e) (MStep.e_pts _ e')) /\
  separated q nl (map sp_att (n_pts n)) (map sp_att (n_pts n')) /\ n_time n = n_time n'.
Definition part_state (q : numbering) (nl np : nat) (x x' : mst) : Prop :=
  s_rods x = [] /\ s_bodies x = [] /\ length (s_lines x) = nl /\ length (s_points x) = np /\ found (line_no q) (s_lines x) (s_lines x') /\ found (point_no q) (s_points x) (s_points x').
Definition part_deriv (q : numbering) (nl np : nat) (d d' : mdst) : Prop :=
  d_rods d = [] /\ d_bodies d = [] /\ length (d_lines d) = nl /\ length (d_points d) = np /\ found (line_no q) (d_lines d) (d_lines d') /\ found (point_no q) (d_points d) (d_points d').
(** instances: the first state is the current one *)
Definition part_instance (q : numbering) (nl np : nat) (m m' : MStep.md mst mdst net) : Prop :=
  MStep.m_scheme _ _ _ m' = MStep.m_scheme _ _ _ m /\ MStep.m_dtM _ _ _ m' = MStep.m_dtM _ _ _ m /\ MStep.m_dtOut _ _ _ m' = MStep.m_dtOut _ _ _ m /\
  MStep.m_fail _ _ _ m' = MStep.m_fail _ _ _ m /\ MStep.m_rows _ _ _ m' = MStep.m_rows _ _ _ m /\
  let s := MStep.m_ts _ _ _ m in let s' := MStep.m_ts _ _ _ m' in
  tt _ _ _ s' = tt _ _ _ s /\ tl _ _ _ s' = tl _ _ _ s /\ nst _ _ _ s' = nst _ _ _ s /\ err _ _ _ s' = err _ _ _ s /\ boost _ _ _ s' = boost _ _ _ s /\
  part_sys q nl np (env _ _ _ s) (env _ _ _ s') /\ Forall2 (part_deriv q nl np) (rd _ _ _ s) (rd _ _ _ s') /\
  length (rr _ _ _ s) = length (rr _ _ _ s') /\
  (forall x x', nth_error (rr _ _ _ s) 0 = Some x -> nth_error (rr _ _ _ s') 0 = Some x' -> part_state q nl np x x').
(** the types of the points of an instance *)
Definition point_types (m : MStep.md mst mdst net) : list ptype := map sp_type (n_pts (MStep.e_rest _ (env _ _ _ (MStep.m_ts _ _ _ m)))).
(** one coupling step: positions and velocities of the coupled points and time step, for the part and for the whole *)
Definition part_call (q : numbering) (ty ty' : list ptype) (c c' : list v3 * list v3 * R) : Prop :=
  same_coupled q ty ty' (fst (fst c)) (fst (fst c')) /\ same_coupled q ty ty' (snd (fst c)) (snd (fst c')) /\ snd c = snd c'.
Definition to_call (c : list v3 * list v3 * R) : list R * list R * R := (flat_map MStep.lst3 (fst (fst c)), flat_map MStep.lst3 (snd (fst c)), snd c).
Definition part_forces (q : numbering) (ty ty' : list ptype) (f f' : list R) : Prop :=
  exists fs fs', f = flat_map MStep.lst3 fs /\ f' = flat_map MStep.lst3 fs' /\ length fs = coupled_count ty /\ same_coupled q ty ty' fs fs'.
(** the time schemes that treat the objects one by one *)
Definition one_by_one (c : scheme) : Prop := match c with Stationary | AndersonEuler _ _ | LocalEuler | AB _ true => False | _ => True end.
(** two systems in one instance, one after the other *)
Definition shift_point (n : nat) (p : spoint) : spoint :=
  SPoint (sp_type p) (sp_r p) (sp_rd p) (sp_M p) (sp_V p) (sp_F p) (sp_CdA p) (sp_Ca p) (map (fun x => ((n + fst x)%nat, snd x)) (sp_att p)) (sp_Fnet p).
Definition beside_net (a b : net) : net :=
  Net (n_lines a ++ n_lines b) (n_pts a ++ map (shift_point (length (n_lines a))) (n_pts b)) (n_time a) (n_cfl a) (n_objs a ++ n_objs b).
Definition beside_sys (a b : MStep.sys net) : MStep.sys net :=
  MStep.Sys net [] [] (MStep.e_pts _ a ++ MStep.e_pts _ b) (MStep.e_lin _ a ++ MStep.e_lin _ b) (beside_net (MStep.e_rest _ a) (MStep.e_rest _ b)).
Definition beside_state (a b : mst) : mst := Ms (s_lines a ++ s_lines b) (s_points a ++ s_points b) [] [].
Definition beside_deriv (a b : mdst) : mdst := Md (d_lines a ++ d_lines b) (d_points a ++ d_points b) [] [].
Definition beside (a b : MStep.md mst mdst net) : MStep.md mst mdst net :=
  let s := MStep.m_ts _ _ _ a in let s' := MStep.m_ts _ _ _ b in
  MStep.Md _ _ _ (Ts _ _ _ (tt _ _ _ s) (tl _ _ _ s) (beside_sys (env _ _ _ s) (env _ _ _ s'))
      (map (fun x => beside_state (fst x) (snd x)) (combine (rr _ _ _ s) (rr _ _ _ s'))) (map (fun x => beside_deriv (fst x) (snd x)) (combine (rd _ _ _ s) (rd _ _ _ s'))) (nst _ _ _ s) (err _ _ _ s) (boost _ _ _ s))
    (MStep.m_scheme _ _ _ a) (MStep.m_dtM _ _ _ a) (MStep.m_dtOut _ _ _ a) (MStep.m_fail _ _ _ a) (MStep.m_rows _ _ _ a).
(** a system of [nl] lines and [np] points, each line end held by at most one point, is a part of itself *)
Definition same_numbers : numbering := Numbering (fun i => i) (fun k => k).
Definition well_formed (nl np : nat) (m : MStep.md mst mdst net) : Prop := part_instance same_numbers nl np m m.
(** the same settings and the same time *)
Definition same_settings (a b : MStep.md mst mdst net) : Prop :=
  MStep.m_scheme _ _ _ a = MStep.m_scheme _ _ _ b /\ MStep.m_dtM _ _ _ a = MStep.m_dtM _ _ _ b /\ MStep.m_dtOut _ _ _ a = MStep.m_dtOut _ _ _ b /\
  MStep.m_fail _ _ _ a = MStep.m_fail _ _ _ b /\ MStep.m_rows _ _ _ a = MStep.m_rows _ _ _ b /\
  let s := MStep.m_ts _ _ _ a in let s' := MStep.m_ts _ _ _ b in
  tt _ _ _ s = tt _ _ _ s' /\ tl _ _ _ s = tl _ _ _ s' /\ nst _ _ _ s = nst _ _ _ s' /\ err _ _ _ s = err _ _ _ s' /\ boost _ _ _ s = boost _ _ _ s' /\
  length (rr _ _ _ s) = length (rr _ _ _ s') /\ length (rd _ _ _ s) = length (rd _ _ _ s') /\ n_time (MStep.e_rest _ (env _ _ _ s)) = n_time (MStep.e_rest _ (env _ _ _ s')).
(** the coupled points of the first system, then those of the second *)
Definition beside_call (c c' : list v3 * list v3 * R) : list v3 * list v3 * R := (fst (fst c) ++ fst (fst c'), snd (fst c) ++ snd (fst c'), snd c).
