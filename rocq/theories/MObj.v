(** What each object writes to the state file and reads back.
    Only the fields that are saved (records [..._saved]) and the fields that
    later results depend on but that are not saved (records [..._hidden]). *)
From Coq Require Import ZArith List Bool.
From Verif Require Import MErr MPack MIO.
Import ListNotations.
Open Scope Z_scope.

Section Obj.
Variable be : bool.
Variable fuel : nat.

(** Saved fields of a point in the order of Point::Serialize, Point.cpp l.385-404; Point::Deserialize, l.406-418 *)
Record point_saved := mkPointSaved {
  P_r : vec;
  P_rd : vec;
  P_r_ves : vec;
  P_rd_ves : vec;
  P_Fnet : vec;
  P_M : mat }.
Definition ser_point : writer point_saved := fun o =>
  ser_cat [ser_vec be fuel (P_r o);
           ser_vec be fuel (P_rd o);
           ser_vec be fuel (P_r_ves o);
           ser_vec be fuel (P_rd_ves o);
           ser_vec be fuel (P_Fnet o);
           ser_mat be fuel (P_M o)].
Definition de_point : reader point_saved :=
  rbind (de_vec be) (fun f_r =>
  rbind (de_vec be) (fun f_rd =>
  rbind (de_vec be) (fun f_r_ves =>
  rbind (de_vec be) (fun f_rd_ves =>
  rbind (de_vec be) (fun f_Fnet =>
  rbind (de_mat be) (fun f_M =>
  rret (mkPointSaved f_r f_rd f_r_ves f_rd_ves f_Fnet f_M))))))).

(** Saved fields of a body in the order of Body::Serialize, Body.cpp l.657-678; Body::Deserialize, l.680-693 *)
Record body_saved := mkBodySaved {
  B_r7 : XYZQuat;
  B_v6 : vec6;
  B_r_ves : vec6;
  B_rd_ves : vec6;
  B_F6net : vec6;
  B_M : mat6;
  B_OrMat : mat }.
Definition ser_body : writer body_saved := fun o =>
  ser_cat [ser_xyzquat be fuel (B_r7 o);
           ser_vec6 be fuel (B_v6 o);
           ser_vec6 be fuel (B_r_ves o);
           ser_vec6 be fuel (B_rd_ves o);
           ser_vec6 be fuel (B_F6net o);
           ser_mat6 be fuel (B_M o);
           ser_mat be fuel (B_OrMat o)].
Definition de_body : reader body_saved :=
  rbind (de_xyzquat be) (fun f_r7 =>
  rbind (de_vec6 be) (fun f_v6 =>
  rbind (de_vec6 be) (fun f_r_ves =>
  rbind (de_vec6 be) (fun f_rd_ves =>
  rbind (de_vec6 be) (fun f_F6net =>
  rbind (de_mat6 be) (fun f_M =>
  rbind (de_mat be) (fun f_OrMat =>
  rret (mkBodySaved f_r7 f_v6 f_r_ves f_rd_ves f_F6net f_M f_OrMat)))))))).

(** Saved fields of a line in the order of Line::Serialize, Line.cpp l.1371-1421; Line::Deserialize, l.1423-1451 *)
Record line_saved := mkLineSaved {
  L_t : fval;
  L_r : list vec;
  L_rd : list vec;
  L_q : list vec;
  L_qs : list vec;
  L_l : list fval;
  L_lstr : list fval;
  L_ldstr : list fval;
  L_Kurv : list fval;
  L_M : list mat;
  L_V : list fval;
  L_T : list vec;
  L_Td : list vec;
  L_Bs : list vec;
  L_W : list vec;
  L_Dp : list vec;
  L_Dq : list vec;
  L_Ap : list vec;
  L_Aq : list vec;
  L_B : list vec;
  L_Fnet : list vec;
  L_F : list fval }.
Definition ser_line : writer line_saved := fun o =>
  ser_cat [ser_real be fuel (L_t o);
           ser_list be (ser_vec be fuel) (L_r o);
           ser_list be (ser_vec be fuel) (L_rd o);
           ser_list be (ser_vec be fuel) (L_q o);
           ser_list be (ser_vec be fuel) (L_qs o);
           ser_list be (ser_real be fuel) (L_l o);
           ser_list be (ser_real be fuel) (L_lstr o);
           ser_list be (ser_real be fuel) (L_ldstr o);
           ser_list be (ser_real be fuel) (L_Kurv o);
           ser_list be (ser_mat be fuel) (L_M o);
           ser_list be (ser_real be fuel) (L_V o);
           ser_list be (ser_vec be fuel) (L_T o);
           ser_list be (ser_vec be fuel) (L_Td o);
           ser_list be (ser_vec be fuel) (L_Bs o);
           ser_list be (ser_vec be fuel) (L_W o);
           ser_list be (ser_vec be fuel) (L_Dp o);
           ser_list be (ser_vec be fuel) (L_Dq o);
           ser_list be (ser_vec be fuel) (L_Ap o);
           ser_list be (ser_vec be fuel) (L_Aq o);
           ser_list be (ser_vec be fuel) (L_B o);
           ser_list be (ser_vec be fuel) (L_Fnet o);
           ser_list be (ser_real be fuel) (L_F o)].
Definition de_line : reader line_saved :=
  rbind (de_real be) (fun f_t =>
  rbind (de_list be (de_vec be)) (fun f_r =>
  rbind (de_list be (de_vec be)) (fun f_rd =>
  rbind (de_list be (de_vec be)) (fun f_q =>
  rbind (de_list be (de_vec be)) (fun f_qs =>
  rbind (de_list be (de_real be)) (fun f_l =>
  rbind (de_list be (de_real be)) (fun f_lstr =>
  rbind (de_list be (de_real be)) (fun f_ldstr =>
  rbind (de_list be (de_real be)) (fun f_Kurv =>
  rbind (de_list be (de_mat be)) (fun f_M =>
  rbind (de_list be (de_real be)) (fun f_V =>
  rbind (de_list be (de_vec be)) (fun f_T =>
  rbind (de_list be (de_vec be)) (fun f_Td =>
  rbind (de_list be (de_vec be)) (fun f_Bs =>
  rbind (de_list be (de_vec be)) (fun f_W =>
  rbind (de_list be (de_vec be)) (fun f_Dp =>
  rbind (de_list be (de_vec be)) (fun f_Dq =>
  rbind (de_list be (de_vec be)) (fun f_Ap =>
  rbind (de_list be (de_vec be)) (fun f_Aq =>
  rbind (de_list be (de_vec be)) (fun f_B =>
  rbind (de_list be (de_vec be)) (fun f_Fnet =>
  rbind (de_list be (de_real be)) (fun f_F =>
  rret (mkLineSaved f_t f_r f_rd f_q f_qs f_l f_lstr f_ldstr f_Kurv f_M f_V f_T f_Td f_Bs f_W f_Dp f_Dq f_Ap f_Aq f_B f_Fnet f_F))))))))))))))))))))))).

(** Saved fields of a rod in the order of Rod::Serialize, Rod.cpp l.1413-1472; Rod::Deserialize, l.1474-1509 *)
Record rod_saved := mkRodSaved {
  R_t : fval;
  R_r7 : XYZQuat;
  R_v6 : vec6;
  R_r : list vec;
  R_rd : list vec;
  R_q : vec;
  R_l : list fval;
  R_M : list mat;
  R_V : list fval;
  R_FextA : vec;
  R_FextB : vec;
  R_Mext : vec;
  R_F6net : vec6;
  R_M6net : mat6;
  R_W : list vec;
  R_Bo : list vec;
  R_Pd : list vec;
  R_Dp : list vec;
  R_Dq : list vec;
  R_Ap : list vec;
  R_Aq : list vec;
  R_B : list vec;
  R_Fnet : list vec;
  R_VOF : list fval;
  R_h0 : fval;
  R_r_ves : vec6;
  R_rd_ves : vec6 }.
Definition ser_rod : writer rod_saved := fun o =>
  ser_cat [ser_real be fuel (R_t o);
           ser_xyzquat be fuel (R_r7 o);
           ser_vec6 be fuel (R_v6 o);
           ser_list be (ser_vec be fuel) (R_r o);
           ser_list be (ser_vec be fuel) (R_rd o);
           ser_vec be fuel (R_q o);
           ser_list be (ser_real be fuel) (R_l o);
           ser_list be (ser_mat be fuel) (R_M o);
           ser_list be (ser_real be fuel) (R_V o);
           ser_vec be fuel (R_FextA o);
           ser_vec be fuel (R_FextB o);
           ser_vec be fuel (R_Mext o);
           ser_vec6 be fuel (R_F6net o);
           ser_mat6 be fuel (R_M6net o);
           ser_list be (ser_vec be fuel) (R_W o);
           ser_list be (ser_vec be fuel) (R_Bo o);
           ser_list be (ser_vec be fuel) (R_Pd o);
           ser_list be (ser_vec be fuel) (R_Dp o);
           ser_list be (ser_vec be fuel) (R_Dq o);
           ser_list be (ser_vec be fuel) (R_Ap o);
           ser_list be (ser_vec be fuel) (R_Aq o);
           ser_list be (ser_vec be fuel) (R_B o);
           ser_list be (ser_vec be fuel) (R_Fnet o);
           ser_list be (ser_real be fuel) (R_VOF o);
           ser_real be fuel (R_h0 o);
           ser_vec6 be fuel (R_r_ves o);
           ser_vec6 be fuel (R_rd_ves o)].
Definition de_rod : reader rod_saved :=
  rbind (de_real be) (fun f_t =>
  rbind (de_xyzquat be) (fun f_r7 =>
  rbind (de_vec6 be) (fun f_v6 =>
  rbind (de_list be (de_vec be)) (fun f_r =>
  rbind (de_list be (de_vec be)) (fun f_rd =>
  rbind (de_vec be) (fun f_q =>
  rbind (de_list be (de_real be)) (fun f_l =>
  rbind (de_list be (de_mat be)) (fun f_M =>
  rbind (de_list be (de_real be)) (fun f_V =>
  rbind (de_vec be) (fun f_FextA =>
  rbind (de_vec be) (fun f_FextB =>
  rbind (de_vec be) (fun f_Mext =>
  rbind (de_vec6 be) (fun f_F6net =>
  rbind (de_mat6 be) (fun f_M6net =>
  rbind (de_list be (de_vec be)) (fun f_W =>
  rbind (de_list be (de_vec be)) (fun f_Bo =>
  rbind (de_list be (de_vec be)) (fun f_Pd =>
  rbind (de_list be (de_vec be)) (fun f_Dp =>
  rbind (de_list be (de_vec be)) (fun f_Dq =>
  rbind (de_list be (de_vec be)) (fun f_Ap =>
  rbind (de_list be (de_vec be)) (fun f_Aq =>
  rbind (de_list be (de_vec be)) (fun f_B =>
  rbind (de_list be (de_vec be)) (fun f_Fnet =>
  rbind (de_list be (de_real be)) (fun f_VOF =>
  rbind (de_real be) (fun f_h0 =>
  rbind (de_vec6 be) (fun f_r_ves =>
  rbind (de_vec6 be) (fun f_rd_ves =>
  rret (mkRodSaved f_t f_r7 f_v6 f_r f_rd f_q f_l f_M f_V f_FextA f_FextB f_Mext f_F6net f_M6net f_W f_Bo f_Pd f_Dp f_Dq f_Ap f_Aq f_B f_Fnet f_VOF f_h0 f_r_ves f_rd_ves)))))))))))))))))))))))))))).

(** ** Objects: saved part and part that is not saved *)

(** Point.hpp l.151: acc, reported by the output channels of the point *)
Record point := mkPoint { p_saved : point_saved; p_acc : vec }.
(** Body.hpp l.130-139: dPos, a6, rdd_ves. a6 enters the force reported for a
    coupled body (Body::getFnet, Body.cpp l.514-535). *)
Record body := mkBody { b_saved : body_saved; b_dPos : XYZQuat; b_a6 : vec6; b_rdd_ves : vec6 }.
(** Rod.hpp l.141-143, 208, 283-285: vel7, acc6, rdd_ves *)
Record rod := mkRod { r_saved : rod_saved; r_vel7 : XYZQuat; r_acc6 : vec6; r_rdd_ves : vec6 }.
(** Line.hpp l.134-138: UnstrLen, UnstrLen0, UnstrLend *)
Record line := mkLine { l_saved : line_saved; l_UnstrLen : fval; l_UnstrLen0 : fval; l_UnstrLend : fval }.

(** X::Deserialize overwrites the saved fields of an existing object. *)
Definition restore_point (o : point) : reader point :=
  rbind de_point (fun s => rret (mkPoint s (p_acc o))).
Definition restore_body (o : body) : reader body :=
  rbind de_body (fun s => rret (mkBody s (b_dPos o) (b_a6 o) (b_rdd_ves o))).
Definition restore_rod (o : rod) : reader rod :=
  rbind de_rod (fun s => rret (mkRod s (r_vel7 o) (r_acc6 o) (r_rdd_ves o))).
Definition restore_line (o : line) : reader line :=
  rbind de_line (fun s => rret (mkLine s (l_UnstrLen o) (l_UnstrLen0 o) (l_UnstrLend o))).

(** ** Integrator, Time.hpp l.598-719 and l.1082-1105 *)
(** one state slot: StateVar<XYZQuat, vec6>, StateVar<vec, vec>,
    StateVar<vector<vec>, vector<vec>> (State.hpp); used for the states
    (position, velocity) and for the derivatives (velocity, acceleration). *)
Record sys_state := mkSysState {
  s_bodies : list (XYZQuat * vec6);
  s_rods : list (XYZQuat * vec6);
  s_points : list (vec * vec);
  s_lines : list (list vec * list vec) }.

Definition ser_pair {A B} (s1 : writer A) (s2 : writer B) : writer (A * B) :=
  fun p => ser_cat [s1 (fst p); s2 (snd p)].
Definition de_pair {A B} (d1 : reader A) (d2 : reader B) : reader (A * B) :=
  rbind d1 (fun a => rbind d2 (fun b => rret (a, b))).

Definition ser_rigid := ser_pair (ser_xyzquat be fuel) (ser_vec6 be fuel).
Definition de_rigid := de_pair (de_xyzquat be) (de_vec6 be).
Definition ser_pstate := ser_pair (ser_vec be fuel) (ser_vec be fuel).
Definition de_pstate := de_pair (de_vec be) (de_vec be).
Definition ser_lstate := ser_pair (ser_list be (ser_vec be fuel)) (ser_list be (ser_vec be fuel)).
Definition de_lstate := de_pair (de_list be (de_vec be)) (de_list be (de_vec be)).

(** loop body for one substep, Time.hpp l.610-634 and l.636-660 *)
Definition ser_sys_state : writer sys_state := fun s =>
  ser_cat [ser_seq ser_rigid (s_bodies s); ser_seq ser_rigid (s_rods s);
           ser_seq ser_pstate (s_points s); ser_seq ser_lstate (s_lines s)].
(** Time.hpp l.682-699 and l.700-717: the loops run over the registered objects;
    [nb nr np nl] are bodies.size(), rods.size(), points.size(), lines.size(). *)
Definition de_sys_state (nb nr np nl : nat) : reader sys_state :=
  rbind (de_seq de_rigid nb) (fun b => rbind (de_seq de_rigid nr) (fun r =>
  rbind (de_seq de_pstate np) (fun p => rbind (de_seq de_lstate nl) (fun l =>
  rret (mkSysState b r p l))))).

(** ts_steps: n_steps of an Adams-Bashforth scheme, [None] for the others.
    ts_tlocal is not saved. *)
Record scheme := mkScheme {
  ts_nb : nat; ts_nr : nat; ts_np : nat; ts_nl : nat;
  ts_t : fval;
  ts_r : list sys_state;      (* NSTATE slots *)
  ts_rd : list sys_state;     (* NDERIV slots *)
  ts_steps : option Z;
  ts_tlocal : fval }.

Definition ser_steps (o : option Z) : outcome (list Z) :=
  match o with Some n => ser_u64 be n | None => Ok [] end.
Definition ser_scheme : writer scheme := fun s =>
  ser_cat [ser_real be fuel (ts_t s); ser_seq ser_sys_state (ts_r s);
           ser_seq ser_sys_state (ts_rd s); ser_steps (ts_steps s)].
(** n_steps = n: conversion to unsigned int *)
Definition de_steps (o : option Z) : reader (option Z) :=
  match o with
  | Some _ => rbind (de_u64 be) (fun n => rret (Some (n mod 2 ^ 32)))
  | None => rret None
  end.
Definition restore_scheme (o : scheme) : reader scheme :=
  let d := de_sys_state (ts_nb o) (ts_nr o) (ts_np o) (ts_nl o) in
  rbind (de_real be) (fun t => rbind (de_seq d (length (ts_r o))) (fun r =>
  rbind (de_seq d (length (ts_rd o))) (fun rd => rbind (de_steps (ts_steps o)) (fun k =>
  rret (mkScheme (ts_nb o) (ts_nr o) (ts_np o) (ts_nl o) t r rd k (ts_tlocal o)))))).

(** ** The system, MoorDyn2.cpp l.749-804.
    sys_failed: status of each entry of FailList (not saved). *)
Record system := mkSystem {
  sys_npW : Z;
  sys_scheme : scheme;
  sys_bodies : list body;
  sys_rods : list rod;
  sys_points : list point;
  sys_lines : list line;
  sys_failed : list bool }.

Definition ser_system : writer system := fun s =>
  ser_cat [ser_u64 be (sys_npW s); ser_scheme (sys_scheme s);
           ser_seq (fun o => ser_body (b_saved o)) (sys_bodies s);
           ser_seq (fun o => ser_rod (r_saved o)) (sys_rods s);
           ser_seq (fun o => ser_point (p_saved o)) (sys_points s);
           ser_seq (fun o => ser_line (l_saved o)) (sys_lines s)].

(** for (auto x : XList) ptr = x->Deserialize(ptr); *)
Fixpoint restore_list {A} (d : A -> reader A) (l : list A) : reader (list A) :=
  match l with
  | [] => rret []
  | o :: t => rbind (d o) (fun o' => rbind (restore_list d t) (fun t' => rret (o' :: t')))
  end.

Definition restore_system (s : system) : reader system :=
  rbind (de_u64 be) (fun n =>
  rbind (restore_scheme (sys_scheme s)) (fun ts =>
  rbind (restore_list restore_body (sys_bodies s)) (fun bs =>
  rbind (restore_list restore_rod (sys_rods s)) (fun rs =>
  rbind (restore_list restore_point (sys_points s)) (fun ps =>
  rbind (restore_list restore_line (sys_lines s)) (fun ls =>
  rret (mkSystem (n mod 2 ^ 32) ts bs rs ps ls (sys_failed s)))))))).
End Obj.

(** MoorDyn::Deserialize as used by IO::Load: the system afterwards and the
    returned pointer. The fields read before a failure are overwritten as well;
    the model keeps the old system then, which only matters after undefined
    behaviour. *)
Definition system_deserialize (be : bool) (s : system) (ws : list Z) : system * outcome (list Z) :=
  match restore_system be s ws with
  | Ok (s', rest) => (s', Ok rest)
  | Throw e => (s, Throw e)
  | UB => (s, UB)
  | Diverges => (s, Diverges)
  end.
