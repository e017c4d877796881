(** The names of the files of a system: the constructor of MoorDyn, source/MoorDyn2.cpp l.101-110, the output files, MoorDyn2.cpp l.577,
    l.1161, l.1931 and l.2054, the log, MoorDyn2.hpp l.661, the files of curves, MoorDyn2.hpp l.707, the files of waves and currents,
    Waves.cpp l.364 and Waves/WaveGrid.cpp l.359, 394, 417, 532, 548, 625, 740, and the file of the sea floor, MoorDyn2.cpp l.2179-2184.
    A std::string is a list of characters; std::size_t has 64 bits; a std::out_of_range is [Throw ExStd]. *)
From Coq Require Import String Ascii List Arith ZArith Bool.
From Verif Require Import MErr MStr MOut.
Import ListNotations.
Open Scope Z_scope.

(** arithmetic of std::size_t, and std::string::npos *)
Definition size_t (x : Z) : Z := x mod 2 ^ 64.
Definition npos : Z := 2 ^ 64 - 1.
(** std::string::find_last_of: the last position of a character of the set, counted from [i] *)
Fixpoint last_from (p : ascii -> bool) (s : str) (i : Z) : Z :=
  match s with
  | [] => npos
  | c :: s' => let r := last_from p s' (i + 1) in if r =? npos then (if p c then i else npos) else r
  end.
Definition find_last_of (p : ascii -> bool) (s : str) : Z := last_from p s 0.
(** std::string::substr *)
Definition substr (s : str) (pos n : Z) : outcome str :=
  if Z.of_nat (length s) <? pos then Throw ExStd else Ok (firstn (Z.to_nat (Z.min n (Z.of_nat (length s) - pos))) (skipn (Z.to_nat pos) s)).

Definition is_slash (c : ascii) : bool := Ascii.eqb c "/" || Ascii.eqb c "\".
Definition is_dot (c : ascii) : bool := Ascii.eqb c ".".
(** _filepath, _basename and _basepath *)
Record names := Names { n_file : str; n_name : str; n_path : str }.
(** the initial values, l.81-83 *)
Definition default_names : names := Names (ot "Mooring/lines.txt") (ot "lines") (ot "Mooring/").
(** the constructor, l.104-110; NULL is [None] *)
Definition set_names (infilename : option str) : outcome names :=
  match infilename with
  | None | Some [] => Ok default_names
  | Some f =>
      let lastSlash := find_last_of is_slash f in
      let lastDot := find_last_of is_dot f in
      obind (substr f (size_t (lastSlash + 1)) (size_t (size_t (lastDot - lastSlash) - 1))) (fun name =>
      obind (substr f 0 (size_t (lastSlash + 1))) (fun path => Ok (Names f name path)))
  end.

(** the files written: the main output, those of lines, rods and bodies by number, the log *)
Inductive written := WMain | WLine (n : nat) | WRod (n : nat) | WBody (n : nat) | WLog.
Definition written_name (w : written) : str :=
  match w with
  | WMain => ot ".out"
  | WLine n => ot "_Line" ++ dec n ++ ot ".out" | WRod n => ot "_Rod" ++ dec n ++ ot ".out" | WBody n => ot "_Body" ++ dec n ++ ot ".out"
  | WLog => ot ".log"
  end.
Definition written_file (s : names) (w : written) : str := n_path s ++ n_name s ++ written_name w.
(** the files read beside the input file *)
Inductive companion := CCurve (entry : str) | CFrequencies | CElevation | CGrid | CSteady | CDynamic | C4D | CSeafloor (entry : str).
Definition companion_file (s : names) (c : companion) : str :=
  match c with
  | CCurve entry => n_path s ++ entry
  | CFrequencies => n_path s ++ ot "/wave_frequencies.txt"
  | CElevation => n_path s ++ ot "/wave_elevation.txt"
  | CGrid => n_path s ++ ot "/water_grid.txt"
  | CSteady => n_path s ++ ot "/current_profile.txt"
  | CDynamic => n_path s ++ ot "/current_profile_dynamic.txt"
  | C4D => n_path s ++ ot "current_profile_4d.txt"
  | CSeafloor entry => entry
  end.
