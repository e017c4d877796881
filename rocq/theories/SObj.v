(** Specification vocabulary for objects and systems (C08, C09). *)
From Coq Require Import ZArith List Bool.
From Verif Require Import MErr MPack MIO SIO MObj.
Import ListNotations.
Open Scope Z_scope.

(** Every number in the object is zero or a normal double and every list has
    fewer than 2^32 entries. *)
Definition point_ok (o : point_saved) : Prop :=
  vec_ok (P_r o) /\ vec_ok (P_rd o) /\ vec_ok (P_r_ves o) /\ vec_ok (P_rd_ves o) /\ vec_ok (P_Fnet o) /\ mat_ok (P_M o).

Definition body_ok (o : body_saved) : Prop :=
  xyzquat_ok (B_r7 o) /\ vec6_ok (B_v6 o) /\ vec6_ok (B_r_ves o) /\ vec6_ok (B_rd_ves o) /\ vec6_ok (B_F6net o) /\ mat6_ok (B_M o) /\ mat_ok (B_OrMat o).

Definition line_ok (o : line_saved) : Prop :=
  storable (L_t o) /\ list_ok vec_ok (L_r o) /\ list_ok vec_ok (L_rd o) /\ list_ok vec_ok (L_q o) /\ list_ok vec_ok (L_qs o) /\ list_ok storable (L_l o) /\ list_ok storable (L_lstr o) /\ list_ok storable (L_ldstr o) /\ list_ok storable (L_Kurv o) /\ list_ok mat_ok (L_M o) /\ list_ok storable (L_V o) /\ list_ok vec_ok (L_T o) /\ list_ok vec_ok (L_Td o) /\ list_ok vec_ok (L_Bs o) /\ list_ok vec_ok (L_W o) /\ list_ok vec_ok (L_Dp o) /\ list_ok vec_ok (L_Dq o) /\ list_ok vec_ok (L_Ap o) /\ list_ok vec_ok (L_Aq o) /\ list_ok vec_ok (L_B o) /\ list_ok vec_ok (L_Fnet o) /\ list_ok storable (L_F o).

Definition rod_ok (o : rod_saved) : Prop :=
  storable (R_t o) /\ xyzquat_ok (R_r7 o) /\ vec6_ok (R_v6 o) /\ list_ok vec_ok (R_r o) /\ list_ok vec_ok (R_rd o) /\ vec_ok (R_q o) /\ list_ok storable (R_l o) /\ list_ok mat_ok (R_M o) /\ list_ok storable (R_V o) /\ vec_ok (R_FextA o) /\ vec_ok (R_FextB o) /\ vec_ok (R_Mext o) /\ vec6_ok (R_F6net o) /\ mat6_ok (R_M6net o) /\ list_ok vec_ok (R_W o) /\ list_ok vec_ok (R_Bo o) /\ list_ok vec_ok (R_Pd o) /\ list_ok vec_ok (R_Dp o) /\ list_ok vec_ok (R_Dq o) /\ list_ok vec_ok (R_Ap o) /\ list_ok vec_ok (R_Aq o) /\ list_ok vec_ok (R_B o) /\ list_ok vec_ok (R_Fnet o) /\ list_ok storable (R_VOF o) /\ storable (R_h0 o) /\ vec6_ok (R_r_ves o) /\ vec6_ok (R_rd_ves o).

Definition rigid_ok (p : XYZQuat * vec6) := xyzquat_ok (fst p) /\ vec6_ok (snd p).
Definition pstate_ok (p : vec * vec) := vec_ok (fst p) /\ vec_ok (snd p).
Definition lstate_ok (p : list vec * list vec) := list_ok vec_ok (fst p) /\ list_ok vec_ok (snd p).
Definition sys_state_ok (nb nr np nl : nat) (s : sys_state) : Prop :=
  length (s_bodies s) = nb /\ length (s_rods s) = nr /\ length (s_points s) = np /\ length (s_lines s) = nl
  /\ Forall rigid_ok (s_bodies s) /\ Forall rigid_ok (s_rods s)
  /\ Forall pstate_ok (s_points s) /\ Forall lstate_ok (s_lines s).
(** one slot per registered object in every state and derivative *)
Definition scheme_ok (s : scheme) : Prop :=
  storable (ts_t s)
  /\ Forall (sys_state_ok (ts_nb s) (ts_nr s) (ts_np s) (ts_nl s)) (ts_r s)
  /\ Forall (sys_state_ok (ts_nb s) (ts_nr s) (ts_np s) (ts_nl s)) (ts_rd s)
  /\ match ts_steps s with Some n => 0 <= n < 2 ^ 32 | None => True end.
(** two schemes of the same kind with the same registered objects *)
Definition same_layout_scheme (a b : scheme) : Prop :=
  ts_nb a = ts_nb b /\ ts_nr a = ts_nr b /\ ts_np a = ts_np b /\ ts_nl a = ts_nl b
  /\ length (ts_r a) = length (ts_r b) /\ length (ts_rd a) = length (ts_rd b)
  /\ (ts_steps a = None <-> ts_steps b = None).

Definition system_ok (s : system) : Prop :=
  0 <= sys_npW s < 2 ^ 32 /\ scheme_ok (sys_scheme s)
  /\ Forall (fun o => body_ok (b_saved o)) (sys_bodies s)
  /\ Forall (fun o => rod_ok (r_saved o)) (sys_rods s)
  /\ Forall (fun o => point_ok (p_saved o)) (sys_points s)
  /\ Forall (fun o => line_ok (l_saved o)) (sys_lines s).
Definition same_layout (a b : system) : Prop :=
  same_layout_scheme (sys_scheme a) (sys_scheme b)
  /\ length (sys_bodies a) = length (sys_bodies b) /\ length (sys_rods a) = length (sys_rods b)
  /\ length (sys_points a) = length (sys_points b) /\ length (sys_lines a) = length (sys_lines b).

(** everything that the file holds *)
Definition scheme_saved (s : scheme) := (ts_t s, ts_r s, ts_rd s, ts_steps s).
Definition system_saved (s : system) :=
  (sys_npW s, scheme_saved (sys_scheme s), map b_saved (sys_bodies s), map r_saved (sys_rods s),
   map p_saved (sys_points s), map l_saved (sys_lines s)).
(** everything that a load leaves alone *)
Definition scheme_unsaved (s : scheme) := (ts_nb s, ts_nr s, ts_np s, ts_nl s, ts_tlocal s).
Definition system_unsaved (s : system) :=
  (scheme_unsaved (sys_scheme s),
   map (fun o => (b_dPos o, b_a6 o, b_rdd_ves o)) (sys_bodies s),
   map (fun o => (r_vel7 o, r_acc6 o, r_rdd_ves o)) (sys_rods s),
   map p_acc (sys_points s),
   map (fun o => (l_UnstrLen o, l_UnstrLen0 o, l_UnstrLend o)) (sys_lines s),
   sys_failed s).
