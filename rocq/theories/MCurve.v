(** Nonlinear curves of line types: moordyn::MoorDyn::read_curve, source/MoorDyn2.hpp l.680-796,
    and what Line::setup (Line.cpp l.146-183) and Line::initialize (l.428-459) make of them.
    Oracles: [stold] and [atof] of the C library, and the file system [opened] (the contents of
    the file at a path). Doubles are reals. *)
From Coq Require Import Ascii String List Arith Reals.
From Verif Require Import MErr MStr.
Import ListNotations.
Open Scope R_scope.

(** std::stold: a number, std::out_of_range or std::invalid_argument *)
Inductive stold_res := StNum (x : R) | StRange | StInvalid.
(** error code, or the two columns *)
Inductive curve := CErr (code : Z) | COk (x y : list R).
(** `while (f.good()) getline(f, fline)`, l.714-722: getline is also called once more after a
    final newline, giving an empty last line *)
Fixpoint good_lines (fuel : nat) (s : str) : list str :=
  match fuel with
  | O => []
  | S f => let '(tok, r) := getline newline s in tok :: match r with None => [] | Some r' => good_lines f r' end
  end.
(** nCoef, Misc.hpp *)
Definition nCoef : nat := 30.

Section Read.
Variable stold : str -> stold_res.
Variable atof : str -> R.
Variable opened : str -> option str.
Variable basepath : str.
(** l.730-744: both columns are filled from entries[0] *)
Fixpoint curve_points (lines : list str) : curve :=
  match lines with
  | [] => COk [] []
  | l :: ls =>
      match split_sep l space with
      | e0 :: _ :: _ => match curve_points ls with COk x y => COk (atof e0 :: x) (atof e0 :: y) | e => e end
      | _ => CErr MOORDYN_INVALID_INPUT
      end
  end.
(** read_curve(entry, x, y), l.691-748 *)
Definition read_curve (entry : str) : curve :=
  match stold entry with
  | StNum v => COk [0] [v]
  | StRange => CErr MOORDYN_INVALID_INPUT
  | StInvalid =>
      match opened (basepath ++ entry) with
      | None => CErr MOORDYN_INVALID_INPUT_FILE
      | Some s =>
          let ls := good_lines (S (length s)) s in
          if Nat.ltb (length ls) 5 then CErr MOORDYN_INVALID_INPUT
          else curve_points (map rtrim (skipn 3 ls))
      end
  end.
(** read_curve(entry, c, n, x, y), l.764-796, filling a fresh LineProps (all zero): error code,
    or constant, number of points and the points *)
Inductive props_curve := PErr (code : Z) | POk (c : R) (n : nat) (x y : list R).
Definition read_curve_props (entry : str) : props_curve :=
  match read_curve entry with
  | CErr e => PErr e
  | COk x y =>
      if Nat.eqb (length x) 1 then POk (last y 0) 0 [] []
      else if Nat.ltb nCoef (length x) then PErr MOORDYN_INVALID_INPUT
      else POk 0 (length x) x y
  end.
End Read.
