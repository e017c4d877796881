(** Specification vocabulary for the output files: how a reader sees them, and what their columns are. *)
From Coq Require Import String Ascii List Arith Bool Reals DecimalString.
From Verif Require Import MErr MStr MVec MStateOps MOut.
Import ListNotations.
Local Open Scope nat_scope.

(** the words of a line of text, separated by blanks and tabs *)
Definition blank (c : ascii) : bool := Ascii.eqb c " " || Ascii.eqb c "009".
Definition emit (w : str) : list str := match w with [] => [] | _ => [w] end.
Fixpoint words_from (w : str) (s : str) : list str :=
  match s with
  | [] => emit w
  | c :: s' => if blank c then emit w ++ words_from [] s' else words_from (w ++ [c]) s'
  end.
Definition words (s : str) : list str := words_from [] s.
(** the lines of a text, if its last line is complete *)
Fixpoint lines_from (l : str) (s : str) : option (list str) :=
  match s with
  | [] => match l with [] => Some [] | _ => None end
  | c :: s' => if Ascii.eqb c "010" then option_map (cons l) (lines_from [] s') else lines_from (l ++ [c]) s'
  end.
(** the words of all its lines *)
Definition table (s : str) : option (list (list str)) := option_map (map words) (lines_from [] s).
(** a word *)
Definition clean (w : str) : Prop := w <> [] /\ Forall (fun c => blank c = false /\ c <> "010"%char) w.

(** a column: its name, its unit, and its value in a state of the object at a time *)
Record column (Q : Type) := Col { c_name : str; c_unit : str; c_val : R * Q -> R }.
Arguments Col {Q}. Arguments c_name {Q}. Arguments c_unit {Q}. Arguments c_val {Q}.
Definition time_col (Q : Type) : column Q := Col (ot "Time") (ot "(s)") fst.
(** quantities of all nodes or of all segments: the flag that asks for them, and names, units and values *)
Inductive place := Nodes | Segs.
Record group (Q : Type) := Group { g_flag : ascii; g_place : place; g_q : list (string * string * (Q -> nat -> R)) }.
Arguments Group {Q}. Arguments g_flag {Q}. Arguments g_place {Q}. Arguments g_q {Q}.
Definition asked (ch : str) (c : ascii) : bool := if in_dec ascii_dec c ch then true else false.
(** nodes are counted from 0 to N, segments from 1 to N *)
Definition group_cols {Q} (N : nat) (g : group Q) : list (column Q) :=
  match g_place g with
  | Nodes => flat_map (fun i => map (fun x => match x with (n, u, v) => Col (ot "Node" ++ dec i ++ ot n) (ot u) (fun tq => v (snd tq) i) end) (g_q g)) (seq 0 (N + 1))
  | Segs => flat_map (fun i => map (fun x => match x with (n, u, v) => Col (ot "Seg" ++ dec i ++ ot n) (ot u) (fun tq => v (snd tq) (i - 1)) end) (g_q g)) (seq 1 N)
  end.
Definition cols {Q} (gs : list (group Q)) (N : nat) (ch : str) : list (column Q) :=
  time_col Q :: flat_map (fun g => if asked ch (g_flag g) then group_cols N g else []) gs.
(** three components *)
Definition xyz {Q} (q u : string) (f : Q -> nat -> v3) : list (string * string * (Q -> nat -> R)) :=
  [((q ++ "x")%string, u, fun s i => vx (f s i)); ((q ++ "y")%string, u, fun s i => vy (f s i)); ((q ++ "z")%string, u, fun s i => vz (f s i))].
(** position, curvature, velocity, water velocity, hydrodynamic force, tension, damping force, strain, rate of strain and
    force of the sea bed *)
Definition line_groups : list (group lsnap) := [
  Group "p" Nodes (xyz "p" "(m)" o_r);
  Group "K" Nodes [("Ku", "(1/m)", o_K)]%string;
  Group "v" Nodes (xyz "v" "(m/s)" o_rd);
  Group "U" Nodes (xyz "U" "(m/s)" o_U);
  Group "D" Nodes (xyz "D" "(N)" (fun q i => vadd (vadd (vadd (o_Dp q i) (o_Dq q i)) (o_Ap q i)) (o_Aq q i)));
  Group "t" Segs [("Te", "(N)", fun q i => norm (o_T q i))]%string;
  Group "c" Segs (xyz "c" "(N)" o_Td);
  Group "s" Segs [("St", "(-)", fun q i => o_lstr q i / o_l q i - 1)]%string%R;
  Group "d" Segs [("dSt", "(-/s)", fun q i => o_ldstr q i / o_l q i)]%string%R;
  Group "b" Nodes (xyz "b" "(N)" o_B)]%char.
Definition rod_groups : list (group rsnap) := [
  Group "p" Nodes (xyz "p" "(m)" q_r); Group "v" Nodes (xyz "v" "(m/s)" q_rd); Group "f" Nodes (xyz "F" "(N)" q_F)]%char.
Definition body_cols : list (column (v3 * v3)) := [
  time_col _;
  Col (ot "x") (ot "(m)") (fun q => vx (fst (snd q))); Col (ot "y") (ot "(m)") (fun q => vy (fst (snd q))); Col (ot "z") (ot "(m)") (fun q => vz (fst (snd q)));
  Col (ot "roll") (ot "(deg)") (fun q => vx (snd (snd q))); Col (ot "pitch") (ot "(deg)") (fun q => vy (snd (snd q))); Col (ot "yaw") (ot "(deg)") (fun q => vz (snd (snd q)))].
(** the head of a table, and the row of a state *)
Definition head {Q} (u : bool) (cs : list (column Q)) : list (list str) := map c_name cs :: (if u then [map c_unit cs] else []).
Definition row_of {Q} (show : R -> str) (cs : list (column Q)) (tq : R * Q) : list str := map (fun c => show (c_val c tq)) cs.

(** every rod of type FIXED is attached to one body or to the ground *)
Definition hosted (m : moor) : Prop := forall k, k < length (m_rods m) -> rtype m k = RFixed ->
  count_occ Nat.eq_dec (m_ground m ++ concat (map snd (m_bodies m))) k = 1.
(** the state at an output has all lines, rods, bodies and channels, and the value of every channel is there *)
Definition fits (lds rds : list odef) (m : moor) (names : list str) (s : snap) : Prop :=
  length (s_lines s) = length lds /\ length (s_rods s) = length rds /\ length (s_bodies s) = length (m_bodies m) /\
  length (s_vals s) = length names /\ Forall (fun v => exists x, v = Ok x) (s_vals s).
Definition values (vs : list (outcome R)) : list R := flat_map (fun v => match v with Ok x => [x] | _ => [] end) vs.
(** a word followed by blanks *)
Definition padded (n c : str) : Prop := exists b, n = c ++ b /\ clean c /\ forallb blank b = true.
(** the flags for which an own file is documented *)
Definition own_file (ch : str) : bool := existsb (asked ch) (ot "pvUDctsd").
(** lines and rods as given; all the rods of type FIXED have a host, and the formatting of a number gives a word *)
Definition setting (show : R -> str) (rds : list odef) (m : moor) : Prop := (forall x, clean (show x)) /\ hosted m /\ length (m_rods m) = length rds.
