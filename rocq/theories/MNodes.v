(** Water kinematics at the nodes of all the objects: source/Waves.cpp l.508-586 and l.662-870,
    Waves.hpp l.531-606, and the external wave kinematics of the C interface, MoorDyn2.cpp
    l.2450-2516 and MoorDyn2.hpp l.178-194. *)
From Coq Require Import List Arith ZArith Bool Reals.
From Verif Require Import MErr MVec MStateOps.
Import ListNotations.
Local Open Scope nat_scope.

(** The objects, by the positions of their nodes: lines and rods (N+1 nodes each), points and
    bodies (the ground body first). The index of an object in its list is its id. *)
Record nodes := Nodes { n_lines : list (list v3); n_rods : list (list v3); n_points : list v3; n_bodies : list v3 }.
(** water kinematics of a node: zeta, U, Ud and Pdyn *)
Record wkin := Wk { w_zeta : R; w_u : v3; w_ud : v3; w_pdyn : R }.
(** AllNodesKin, Waves.hpp l.563-569: for each kind, for each object, for each of its nodes *)
Record wtab := Wtab { t_lines : list (list wkin); t_rods : list (list wkin); t_points : list (list wkin); t_bodies : list (list wkin) }.
Definition wzero : wkin := Wk 0 vzero vzero 0.
(** genericAdd, Waves.hpp l.584-594, for one object with the given id and number of nodes;
    an id that is not the next one throws a string, which nothing catches *)
Definition add_nodes (id n : nat) (t : list (list wkin)) : outcome (list (list wkin)) :=
  if id =? length t then Ok (t ++ [repeat wzero n]) else Throw ExStd.
(** all the objects of one kind in order, MoorDyn2.cpp l.1655-1670 *)
Fixpoint add_objects (id : nat) (ns : list nat) (t : list (list wkin)) : outcome (list (list wkin)) :=
  match ns with [] => Ok t | n :: ns' => t' <- add_nodes id n t ;; add_objects (S id) ns' t' end.
Definition make_table (s : nodes) : outcome wtab :=
  l <- add_objects 0 (map (@length v3) (n_lines s)) [] ;;
  r <- add_objects 0 (map (@length v3) (n_rods s)) [] ;;
  p <- add_objects 0 (map (fun _ => 1) (n_points s)) [] ;;
  b <- add_objects 0 (map (fun _ => 1) (n_bodies s)) [] ;;
  Ok (Wtab l r p b).

(** kinematicsForAllNodes, Waves.cpp l.698-749: f is called for each node with its position and
    its entry of the table, and may change the entry and its own state, or throw; then the
    changes made so far remain. U[id][i] beyond the table is undefined behaviour. *)
Section ForAll.
Context {T : Type} (f : v3 -> wkin -> T -> wkin * T * outcome unit).
Definition nodes_res (A : Type) := (A * T * outcome unit)%type.
Fixpoint all_row (ps : list v3) (ws : list wkin) (x : T) : nodes_res (list wkin) :=
  match ps with
  | [] => (ws, x, Ok tt)
  | p :: ps' =>
    match ws with
    | [] => ([], x, UB)
    | w :: ws' => match f p w x with
                  | (w', x', Ok _) => let '(ws2, x2, r) := all_row ps' ws' x' in (w' :: ws2, x2, r)
                  | (w', x', r) => (w' :: ws', x', r)
                  end
    end
  end.
Fixpoint all_rows (ps : list (list v3)) (ws : list (list wkin)) (x : T) : nodes_res (list (list wkin)) :=
  match ps with
  | [] => (ws, x, Ok tt)
  | p :: ps' =>
    match ws with
    | [] => match p with [] => all_rows ps' [] x | _ => ([], x, UB) end
    | w :: ws' => match all_row p w x with
                  | (w', x', Ok _) => let '(ws2, x2, r) := all_rows ps' ws' x' in (w' :: ws2, x2, r)
                  | (w', x', r) => (w' :: ws', x', r)
                  end
    end
  end.
Definition ones (ps : list v3) : list (list v3) := map (fun p => [p]) ps.
Definition all_nodes (s : nodes) (t : wtab) (x : T) : nodes_res wtab :=
  match all_rows (n_lines s) (t_lines t) x with
  | (l, x1, Ok _) =>
    match all_rows (n_rods s) (t_rods t) x1 with
    | (r, x2, Ok _) =>
      match all_rows (ones (n_points s)) (t_points t) x2 with
      | (p, x3, Ok _) =>
        match all_rows (ones (n_bodies s)) (t_bodies t) x3 with
        | (b, x4, o) => (Wtab l r p b, x4, o)
        end
      | (p, x3, o) => (Wtab l r p (t_bodies t), x3, o)
      end
    | (r, x2, o) => (Wtab l r (t_points t) (t_bodies t), x2, o)
    end
  | (l, x1, o) => (Wtab l (t_rods t) (t_points t) (t_bodies t), x1, o)
  end.
End ForAll.

(** Waves::getWaveKinematicsPoints, Waves.cpp l.662-675 *)
Definition node_points (s : nodes) (t : wtab) : outcome (list v3) :=
  match all_nodes (fun p w (acc : list v3) => (w, acc ++ [p], Ok tt)) s t [] with
  | (_, acc, Ok _) => Ok acc
  | (_, _, Throw e) => Throw e | (_, _, UB) => UB | (_, _, Diverges) => Diverges
  end.
(** the lambda of setWaveKinematics, Waves.cpp l.688-696; the state is the counter i *)
Definition set_node (u ud : list v3) (p : v3) (w : wkin) (i : nat) : wkin * nat * outcome unit :=
  if length u <=? i then (w, i, Throw ExInvalidValue)
  else (Wk (w_zeta w) (nth i u vzero) (nth i ud vzero) (w_pdyn w), S i, Ok tt).

(** Waves: nodeKin, waveKin, and which kinematics there are. Waves and currents are functions
    of position and time (zeta, U, Ud and pdyn; U and Ud). *)
Record waves := Waves { nodeKin : wtab; waveKin : wtab; external : bool;
  waveK : option (v3 -> R -> wkin); currK : option (v3 -> R -> v3 * v3) }.
Definition set_nodeKin (w : waves) (t : wtab) := Waves t (waveKin w) (external w) (waveK w) (currK w).
Definition set_waveKin (w : waves) (t : wtab) := Waves (nodeKin w) t (external w) (waveK w) (currK w).
(** Waves::setWaveKinematics, Waves.cpp l.677-697 *)
Definition set_kinematics (s : nodes) (u ud : list v3) (w : waves) : waves * outcome unit :=
  if length u =? length ud then
    match currK w with
    | Some _ => let '(t, _, r) := all_nodes (set_node u ud) s (waveKin w) 0 in (set_waveKin w t, r)
    | None => let '(t, _, r) := all_nodes (set_node u ud) s (nodeKin w) 0 in (set_nodeKin w t, r)
    end
  else (w, Throw ExInvalidValue).
(** Waves::updateWaves, Waves.cpp l.751-870, at time tm. In the external branch each node gets
    the entry of waveKin plus the current; the loops of l.762-821 have the same order as
    kinematicsForAllNodes. *)
Definition sum_row (c : v3 -> R -> v3 * v3) (tm : R) (ps : list v3) (ws : list wkin) (ns : list wkin) : outcome (list wkin) :=
  (fix go ps ws ns := match ps with
   | [] => Ok ns
   | p :: ps' => match ws, ns with
                 | w :: ws', n :: ns' => r <- go ps' ws' ns' ;; Ok (Wk (w_zeta n) (vadd (w_u w) (fst (c p tm))) (vadd (w_ud w) (snd (c p tm))) (w_pdyn n) :: r)
                 | _, _ => UB end
   end) ps ws ns.
Definition sum_rows (c : v3 -> R -> v3 * v3) (tm : R) (ps : list (list v3)) (ws ns : list (list wkin)) : outcome (list (list wkin)) :=
  (fix go ps ws ns := match ps with
   | [] => Ok ns
   | p :: ps' => match ws, ns with
                 | w :: ws', n :: ns' => x <- sum_row c tm p w n ;; r <- go ps' ws' ns' ;; Ok (x :: r)
                 | _, _ => UB end
   end) ps ws ns.
Definition node_wave (wk : v3 -> R -> wkin) (c : v3 -> R -> v3 * v3) (tm : R) (p : v3) (w : wkin) (x : unit) : wkin * unit * outcome unit :=
  let v := wk p tm in let d := c p tm in (Wk (w_zeta v) (vadd (w_u v) (fst d)) (vadd (w_ud v) (snd d)) (w_pdyn v), x, Ok tt).
Definition node_wave_only (wk : v3 -> R -> wkin) (tm : R) (p : v3) (w : wkin) (x : unit) : wkin * unit * outcome unit := (wk p tm, x, Ok tt).
Definition node_curr_only (c : v3 -> R -> v3 * v3) (tm : R) (p : v3) (w : wkin) (x : unit) : wkin * unit * outcome unit :=
  (Wk (w_zeta w) (fst (c p tm)) (snd (c p tm)) (w_pdyn w), x, Ok tt).
Definition update_waves (s : nodes) (tm : R) (w : waves) : outcome waves :=
  let of3 (r : nodes_res (T := unit) wtab) := match r with (t, _, Ok _) => Ok (set_nodeKin w t) | (_, _, Throw e) => Throw e | (_, _, UB) => UB | (_, _, Diverges) => Diverges end in
  match external w, currK w with
  | true, Some c =>
    l <- sum_rows c tm (n_lines s) (t_lines (waveKin w)) (t_lines (nodeKin w)) ;;
    r <- sum_rows c tm (n_rods s) (t_rods (waveKin w)) (t_rods (nodeKin w)) ;;
    p <- sum_rows c tm (ones (n_points s)) (t_points (waveKin w)) (t_points (nodeKin w)) ;;
    b <- sum_rows c tm (ones (n_bodies s)) (t_bodies (waveKin w)) (t_bodies (nodeKin w)) ;;
    Ok (set_nodeKin w (Wtab l r p b))
  | _, _ =>
    match waveK w, currK w with
    | Some wk, Some c => of3 (all_nodes (node_wave wk c tm) s (nodeKin w) tt)
    | Some wk, None => of3 (all_nodes (node_wave_only wk tm) s (nodeKin w) tt)
    | None, Some c => of3 (all_nodes (node_curr_only c tm) s (nodeKin w) tt)
    | None, None => Ok w
    end
  end.
(** MoorDyn_ExternalWaveKinInit: npW, and MoorDyn_ExternalWaveKinSet: u and ud are the arrays
    given by the caller, by nodes; reading beyond their end is undefined behaviour. Exceptions
    are not caught. *)
Definition kin_init (s : nodes) (w : waves) : outcome nat := ps <- node_points s (nodeKin w) ;; Ok (length ps).
Definition kin_set (npW : nat) (s : nodes) (u ud : list v3) (w : waves) : waves * outcome Z :=
  if npW =? 0 then (w, Ok MOORDYN_INVALID_VALUE)
  else if (npW <=? length u) && (npW <=? length ud) then
    match set_kinematics s (firstn npW u) (firstn npW ud) w with
    | (w', Ok _) => (w', Ok MOORDYN_SUCCESS)
    | (w', Throw e) => (w', Throw e) | (w', UB) => (w', UB) | (w', Diverges) => (w', Diverges)
    end
  else (w, UB).
