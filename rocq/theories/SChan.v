(** Specification vocabulary for the output channels, from the table of docs/inputs.rst l.673-691. *)
From Coq Require Import String Ascii List Arith ZArith Bool Reals.
From Verif Require Import MErr MStr MVec MDetach MParse MChan.
From Verif Require MTime.
Import ListNotations.
Local Open Scope nat_scope.

Inductive axis := AX | AY | AZ.
Definition comp (a : axis) (v : v3) : R := match a with AX => vx v | AY => vy v | AZ => vz v end.
(** the quantities of the first column *)
Inductive meaning := Pos (a : axis) | Rot (a : axis) | Vel (a : axis) | RotVel (a : axis) | Acc (a : axis) | RotAcc (a : axis)
  | Force (a : axis) | Moment (a : axis) | Tension | TensionA | TensionB | Submerged.
Definition letter (a : axis) : string := match a with AX => "X" | AY => "Y" | AZ => "Z" end.
Definition suffixes (m : meaning) : list string :=
  match m with
  | Pos a => ["P" ++ letter a] | Rot a => ["R" ++ letter a] | Vel a => ["V" ++ letter a] | RotVel a => ["RV" ++ letter a]
  | Acc a => ["A" ++ letter a] | RotAcc a => ["RA" ++ letter a] | Force a => ["F" ++ letter a] | Moment a => ["M" ++ letter a]
  | Tension => ["TEN"; "T"] | TensionA => ["TENA"] | TensionB => ["TENB"] | Submerged => ["SUB"]
  end%string.
Definition units_of (m : meaning) : string :=
  match m with
  | Pos _ => "(m)" | Rot _ => "(deg)" | Vel _ => "(m/s)" | RotVel _ => "(deg/s)" | Acc _ => "(m/s2)" | RotAcc _ => "(deg/s2)"
  | Force _ | Tension | TensionA | TensionB => "(N)" | Moment _ => "(Nm)" | Submerged => "(frac)"
  end%string.
Definition degrees (x : R) : R := (x * 180 / PI)%R.

(** a line with all its nodes and segments *)
Definition whole_line (L : line_v) : Prop := 1 <= v_N L /\ length (v_r L) = S (v_N L) /\ length (v_rd L) = S (v_N L) /\ length (v_F L) = S (v_N L) /\ length (v_T L) = v_N L /\ length (v_Td L) = v_N L /\ (Z.of_nat (v_N L) < 2 ^ 31)%Z.
Definition whole_rod (D : rod_v) : Prop := length (u_r D) = S (u_N D) /\ length (u_rd D) = S (u_N D) /\ length (u_F D) = S (u_N D) /\ length (u_VOF D) = S (u_N D) /\ (Z.of_nat (u_N D) < 2 ^ 31)%Z.
Definition node_of (l : list v3) (k : nat) : v3 := nth k l vzero.
(** tension of a node: net force at the ends, else the mean of the adjacent segments *)
Definition node_tension (L : line_v) (k : nat) : R :=
  if (k =? 0) || (k =? v_N L) then norm (node_of (v_F L) k)
  else norm (vscale (1 / 2) (vadd (vadd (node_of (v_T L) (k - 1)) (node_of (v_Td L) (k - 1))) (vadd (node_of (v_T L) k) (node_of (v_Td L) k)))).
(** the documented quantities, None where the table has no entry *)
Definition line_value (L : line_v) (k : nat) (m : meaning) : option R :=
  match m with
  | Pos a => Some (comp a (node_of (v_r L) k)) | Vel a => Some (comp a (node_of (v_rd L) k)) | Force a => Some (comp a (node_of (v_F L) k))
  | Tension => Some (node_tension L k) | TensionA => Some (norm (node_of (v_F L) 0)) | TensionB => Some (norm (node_of (v_F L) (v_N L)))
  | _ => None
  end.
Definition rod_node_value (D : rod_v) (k : nat) (m : meaning) : option R :=
  match m with
  | Pos a => Some (comp a (node_of (u_r D) k)) | Vel a => Some (comp a (node_of (u_rd D) k)) | Force a => Some (comp a (node_of (u_F D) k))
  | _ => None
  end.
Definition rod_value (D : rod_v) (m : meaning) : option R :=
  match m with
  | Pos a => Some (comp a (u_pos D)) | Rot AX => Some (degrees (u_roll D)) | Rot AY => Some (degrees (u_pitch D))
  | Vel a => Some (comp a (v6hd (u_v6 D))) | RotVel AX => Some (degrees (vx (v6tl (u_v6 D)))) | RotVel AY => Some (degrees (vy (v6tl (u_v6 D))))
  | Acc a => Some (comp a (v6hd (u_a6 D))) | RotAcc AX => Some (degrees (vx (v6tl (u_a6 D)))) | RotAcc AY => Some (degrees (vy (v6tl (u_a6 D))))
  | Force a => Some (comp a (v6hd (u_F6 D))) | Moment a => Some (comp a (v6tl (u_F6 D)))
  | TensionA => Some (norm (u_FA D)) | TensionB => Some (norm (u_FB D))
  | Submerged => Some (fold_right Rplus 0%R (u_VOF D) / INR (length (u_VOF D)))%R
  | _ => None
  end.
Definition point_value (P : point_v) (m : meaning) : option R :=
  match m with
  | Pos a => Some (comp a (w_r P)) | Vel a => Some (comp a (w_rd P)) | Acc a => Some (comp a (w_acc P)) | Force a => Some (comp a (w_F P)) | Tension => Some (norm (w_F P))
  | _ => None
  end.
(** all but the net force of a body *)
Definition body_value (B : body_v) (m : meaning) : option R :=
  match m with
  | Pos a => Some (comp a (z_pos B)) | Rot a => Some (comp a (z_rot B)) | Vel a => Some (comp a (v6hd (z_v6 B))) | RotVel a => Some (degrees (comp a (v6tl (z_v6 B))))
  | Acc a => Some (comp a (v6hd (z_a6 B))) | RotAcc a => Some (degrees (comp a (v6tl (z_a6 B))))
  | Force a => Some (comp a (v6hd (z_Fout B))) | Moment a => Some (comp a (v6tl (z_Fout B)))
  | _ => None
  end.

(** a number in digits *)
Definition written (d : str) (n : nat) : Prop := d <> [] /\ forallb is_digit d = true /\ MTime.digits d 0 = Z.of_nat n.
(** channel names, in small or capital letters: object, number, quantity; object, number, N, node,
    quantity; object, number, NA or NB, quantity *)
Definition names (w : str) (kinds : list string) (i : nat) (m : meaning) : Prop :=
  exists k d s, In k kinds /\ written d (S i) /\ In s (suffixes m) /\ upper w = tx k ++ d ++ tx s.
Definition names_node (w : str) (kinds : list string) (i node : nat) (m : meaning) : Prop :=
  exists k d d' s, In k kinds /\ written d (S i) /\ written d' node /\ In s (suffixes m) /\ upper w = tx k ++ d ++ tx "N" ++ d' ++ tx s.
Definition names_end (w : str) (kinds : list string) (i : nat) (e : string) (m : meaning) : Prop :=
  exists k d s, In k kinds /\ written d (S i) /\ In s (suffixes m) /\ upper w = tx k ++ d ++ tx ("N" ++ e)%string ++ tx s.
(** the channel that is read for a word gives this value with this unit *)
Definition reports (s : sys) (a : all_v) (w : str) (v : R) (u : string) : Prop :=
  exists c, read_chan w s = Ok (Some c) /\ ch_name c = w /\ get_output a c = Ok v /\ chan_unit c = u.
