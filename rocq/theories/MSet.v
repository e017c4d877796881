(** Lines changed during the simulation: the setters of the C interface, source/Line.cpp l.1593-1670, with Line.hpp l.362-433 and
    l.780-805, Line.cpp l.658-666, on lines set up by Line::setup and Line::initialize, Line.cpp l.125-193 and l.426-433.
    Simplifications: doubles are exact reals; the length given in the input is not negative; a NULL handle is [None]. *)
From Coq Require Import Reals List Arith ZArith Bool.
From Verif Require Import MErr MVec MMat MLine MCFL MApi.
Import ListNotations.
Open Scope R_scope.

(** a line with what its setters use: the line, the object behind its time step limit (the base class NatFreqCFL), UnstrLen,
    UnstrLend and the vector of internal pressures *)
Record lobj := Lobj { o_line : line; o_cfl : cfl_obj; o_len : R; o_rate : R; o_pin : list R }.

(** Line::setup, l.137-146 and l.163-192, and the lengths and volumes of Line::initialize, l.429-433. [L] has the number of segments,
    the diameter, the coefficients and the positions; the stiffness is constant. A is pi / 4 d d *)
Definition describe (L : line) (EA w len : R) : lobj :=
  let A := PI / 4 * ldia L * ldia L in let n := INR (lN L) in
  Lobj (Line (lN L) (ldia L) A (w / A) (EA / A) (lEI L) (lc L) (lCan L) (lCat L) (lCdn L) (lCdt L) [] [] (lbx L) (lby L) (ldx L) (ldy L) false
          (fun _ => 0) (lr L) (lrd L) (fun _ => len / n) (fun _ => len / n * A) (lcantA L) (lcantB L) (lqA L) (lqB L))
       (line_cfl EA w len (lN L)) len 0 (repeat 0 (lN L + 1)).

(** the fields of a line that the setters change *)
Definition with_line (L : line) (E : R) (pb : bool) (pin ll : nat -> R) : line :=
  Line (lN L) (ldia L) (larea L) (lrho L) E (lEI L) (lc L) (lCan L) (lCat L) (lCdn L) (lCdt L) (lsx L) (lsy L) (lbx L) (lby L) (ldx L) (ldy L)
    pb pin (lr L) (lrd L) ll (lV L) (lcantA L) (lcantB L) (lqA L) (lqB L).
(** Line::setUnstretchedLength, Line.hpp l.375-380 *)
Definition setUnstretchedLength (o : lobj) (len : R) : lobj :=
  let L := o_line o in
  Lobj (with_line L (lE L) (lisPb L) (lpin L) (fun i => if Nat.ltb i (lN L) then len / INR (lN L) else ll L i)) (o_cfl o) len (o_rate o) (o_pin o).
(** Line::setUnstretchedLengthVel, Line.hpp l.388-391 *)
Definition setUnstretchedLengthVel (o : lobj) (v : R) : lobj := Lobj (o_line o) (o_cfl o) (o_len o) v (o_pin o).
(** Line::setConstantEA, Line.hpp l.433 *)
Definition setEA (o : lobj) (EA : R) : lobj :=
  let L := o_line o in Lobj (with_line L (EA / larea L) (lisPb L) (lpin L) (ll L)) (o_cfl o) (o_len o) (o_rate o) (o_pin o).
(** Line::enablePb and disablePb, Line.hpp l.785-789 *)
Definition setPb (o : lobj) (b : bool) : lobj :=
  let L := o_line o in Lobj (with_line L (lE L) b (lpin L) (ll L)) (o_cfl o) (o_len o) (o_rate o) (o_pin o).
(** Line::setPin, Line.cpp l.658-666 *)
Definition setPin (o : lobj) (p : list R) : outcome lobj :=
  if negb (Nat.eqb (length p) (length (o_pin o))) then Throw ExInvalidValue
  else let L := o_line o in Ok (Lobj (with_line L (lE L) (lisPb L) (fun i => nth i p 0) (ll L)) (o_cfl o) (o_len o) (o_rate o) p).

(** the setters of the C interface: the code and the line afterwards; Line.cpp l.1601-1615, l.1633-1639, l.1649-1658 *)
Definition on_line (h : option lobj) (f : lobj -> lobj) : Z * option lobj :=
  match h with None => (MOORDYN_INVALID_VALUE, None) | Some o => (MOORDYN_SUCCESS, Some (f o)) end.
Definition MoorDyn_SetLineUnstretchedLength (h : option lobj) (ul : R) := on_line h (fun o => setUnstretchedLength o ul).
Definition MoorDyn_SetLineUnstretchedLengthVel (h : option lobj) (v : R) := on_line h (fun o => setUnstretchedLengthVel o v).
Definition MoorDyn_SetLineConstantEA (h : option lobj) (EA : R) := on_line h (fun o => setEA o EA).
Definition MoorDyn_SetLinePressBend (h : option lobj) (b : Z) := on_line h (fun o => setPb o (negb (b =? 0)%Z)).
(** a C array: reading past its end is undefined *)
Fixpoint read_array (p : list R) (n : nat) : outcome (list R) :=
  match n with O => Ok [] | S n' => match p with [] => UB | x :: q => obind (read_array q n') (fun l => Ok (x :: l)) end end.
(** MoorDyn_SetLinePressInt, Line.cpp l.1660-1670; an exception of setPin is not caught *)
Definition MoorDyn_SetLinePressInt (h : option lobj) (p : list R) : outcome (Z * option lobj) :=
  match h with
  | None => Ok (MOORDYN_INVALID_VALUE, None)
  | Some o => obind (read_array p (lN (o_line o) + 1)) (fun pin => obind (setPin o pin) (fun o' => Ok (MOORDYN_SUCCESS, Some o')))
  end.
(** the getters, Line.cpp l.1593-1599, l.1625-1631, l.1641-1647 *)
Definition MoorDyn_GetLineUnstretchedLength (h : option lobj) : reply R := check h (fun o => Reply MOORDYN_SUCCESS (Some (o_len o))).
Definition MoorDyn_GetLineConstantEA (h : option lobj) : reply R := check h (fun o => Reply MOORDYN_SUCCESS (Some (lE (o_line o) * larea (o_line o)))).
Definition MoorDyn_IsLinePressBend (h : option lobj) : reply Z := check h (fun o => Reply MOORDYN_SUCCESS (Some (if lisPb (o_line o) then 1%Z else 0%Z))).
(** any of the setters called on a line *)
Inductive setting := SLen (ul : R) | SRate (v : R) | SEA (EA : R) | SBend (b : Z) | SPress (p : list R).
Definition call_setter (o : lobj) (s : setting) : outcome (Z * option lobj) :=
  match s with
  | SLen ul => Ok (MoorDyn_SetLineUnstretchedLength (Some o) ul) | SRate v => Ok (MoorDyn_SetLineUnstretchedLengthVel (Some o) v)
  | SEA EA => Ok (MoorDyn_SetLineConstantEA (Some o) EA) | SBend b => Ok (MoorDyn_SetLinePressBend (Some o) b)
  | SPress p => MoorDyn_SetLinePressInt (Some o) p
  end.
(** calls one after the other on the same handle, each checked for success *)
Fixpoint call_setters (o : lobj) (cs : list setting) : outcome lobj :=
  match cs with
  | [] => Ok o
  | s :: cs' => obind (call_setter o s) (fun r => match r with (0%Z, Some o') => call_setters o' cs' | _ => Throw ExInvalidValue end)
  end.
