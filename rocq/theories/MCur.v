(** Current grids read from files and their addition to a wave grid: source/Waves/WaveGrid.cpp
    l.542-887, source/Waves.cpp l.183-199, 361-508.
    Simplifications: doubles are exact reals, also the depths of the dynamic profile, which are read
    with std::stof (the function [stof] may round); a file is the list of its lines, a line the list of
    its words; the three tables of components of the 4D file are one table of vectors; sizes fit in
    an unsigned int.  Accesses out of a vector are [UB]. *)
From Coq Require Import Reals ZArith List Arith.
From Verif Require Import MErr MVec MStateOps MInterp MSeafloor MWaves MSpec.
Import ListNotations.
Open Scope R_scope.

(** CurrentGrid::allocateKinematicArrays, Waves.cpp l.183-199, and the zeros of init4DArrayVec,
    Waves.hpp l.91-100 *)
Definition cleared (nx ny nz nw : nat) : list (list (list (list v3))) := repeat (repeat (repeat (repeat vzero nw) nz) ny) nx.
Definition allocate (a : axes) : outcome unit :=
  if orb (orb (Nat.eqb (length (px a)) 0) (Nat.eqb (length (py a)) 0)) (orb (Nat.eqb (length (pz a)) 0) (Nat.eqb (nt a) 0))
  then Throw ExInvalidValue else Ok tt.
(** std::numeric_limits<real>::max() *)
Definition DBL_MAX : R := IZR (2 ^ 1024 - 2 ^ 971).
(** the loop `for (it = 0; it < nt; it++)` of l.713-724 and l.864-881 *)
Fixpoint time_loop (T ux uy uz : list R) (dt : R) (it n iti : nat) : outcome (list v3) :=
  match n with
  | O => Ok []
  | S n' =>
      jf <- interp_factor T iti (INR it * dt) ;;
      x <- lerp_at ux (fst jf) (snd jf) ;;
      y <- lerp_at uy (fst jf) (snd jf) ;;
      z <- lerp_at uz (fst jf) (snd jf) ;;
      rest <- time_loop T ux uy uz dt (S it) n' (fst jf) ;;
      Ok (V3 x y z :: rest)
  end.
(** time step and number of steps, l.697-701 and l.838-846: a division by 0 and the conversion of a
    value out of range are [UB] *)
Definition time_axis (T : list R) : outcome (R * nat) :=
  match T, min_gap T (Some DBL_MAX) with
  | [], _ | _, None => UB
  | _, Some dt =>
      if Req_EM_T dt 0 then UB else
      let q := Int_part (last T 0 / dt) in
      if orb (Z.ltb q (-1)) (Z.leb (2 ^ 32 - 1) q) then UB else Ok (dt, Z.to_nat (q + 1))
  end.
Fixpoint oeach {A B} (f : A -> outcome B) (l : list A) : outcome (list B) :=
  match l with
  | [] => Ok []
  | a :: r => b <- f a ;; bs <- oeach f r ;; Ok (b :: bs)
  end.
Definition vset4 {A} (t : list (list (list (list A)))) (i j k w : nat) (a : A) : outcome (list (list (list (list A)))) :=
  t1 <- vget t i ;; t2 <- vget t1 j ;; t3 <- vget t2 k ;;
  t3' <- vset t3 w a ;; t2' <- vset t2 k t3' ;; t1' <- vset t1 j t2' ;; vset t i t1'.

Section Files.
Context {tok : Type}.
(** std::stod, std::stof and std::stoul *)
Variable stod stof : tok -> outcome R.
Variable stoul : tok -> outcome Z.
(** equality of words, the order of std::map *)
Variable eqb : tok -> tok -> bool.

(* ------------------------------ steady profile, l.542-613 ------------------------------ *)
Definition opt_col (row : list tok) (i : nat) : outcome R := match nth_error row i with Some e => stod e | None => Ok 0 end.
Definition steady_row (row : list tok) : outcome (R * v3) :=
  match row with
  | e0 :: e1 :: _ => z <- stod e0 ;; x <- stod e1 ;; y <- opt_col row 2 ;; w <- opt_col row 3 ;; Ok (z, V3 x y w)
  | _ => Throw ExInputFile
  end.
Definition steady_current (lines : list (list tok)) : outcome cgrid :=
  if Nat.ltb (length lines) 4 then Throw ExInputFile else
  rows <- oeach steady_row (skipn 3 lines) ;;
  let a := Axes [0] [0] (map fst rows) 1 1 in
  _ <- allocate a ;;
  Ok (CGrid a [[map (fun r => [snd r]) rows]] (cleared 1 1 (length rows) 1)).

(* ------------------------------ dynamic profile, l.615-728 ------------------------------ *)
Record trow := TRow { tr_t : R; tr_x : list R; tr_y : list R; tr_z : list R }.
(** entries[from + iz] for iz < n *)
Definition block (row : list tok) (from n : nat) : outcome (list R) := oeach (fun iz => e <- vget row (from + iz) ;; stod e) (seq 0 n).
Definition dyn_row (n : nat) (row : list tok) : outcome trow :=
  if Nat.leb (length row) n then Throw ExInputFile else
  e0 <- vget row 0 ;; t <- stod e0 ;;
  x <- block row 1 n ;;
  y <- (if Nat.leb (2 * n + 1) (length row) then block row (n + 1) n else Ok (repeat 0 n)) ;;
  z <- (if Nat.leb (3 * n + 1) (length row) then block row (2 * n + 1) n else Ok (repeat 0 n)) ;;
  Ok (TRow t x y z).
Definition dynamic_current (lines : list (list tok)) : outcome cgrid :=
  if Nat.ltb (length lines) 7 then Throw ExInputFile else
  dl <- vget lines 4 ;;
  depths <- oeach stof dl ;;
  let n := length depths in
  rows <- oeach (dyn_row n) (skipn 6 lines) ;;
  let T := map tr_t rows in
  ta <- time_axis T ;;
  let a := Axes [0] [0] depths (snd ta) (fst ta) in
  _ <- allocate a ;;
  vel <- oeach (fun iz => time_loop T (map (fun r => nth iz (tr_x r) 0) rows) (map (fun r => nth iz (tr_y r) 0) rows)
                            (map (fun r => nth iz (tr_z r) 0) rows) (fst ta) 0 (snd ta) 1) (seq 0 n) ;;
  Ok (CGrid a [[vel]] (cleared 1 1 n (snd ta))).

(* ------------------------------ 4D grid, l.730-887 ------------------------------ *)
(** XMap[entry]: the last position of the word in the axis, a new element 0 for unknown words *)
Fixpoint find_last (keys : list tok) (i : nat) (k : tok) (found : nat) : nat :=
  match keys with
  | [] => found
  | a :: r => find_last r (S i) k (if eqb a k then i else found)
  end.
Definition axis_index (keys : list tok) (k : tok) : nat := find_last keys 0 k 0.
(** the first n words of a line, l.781-803 *)
Definition axis_words (line : list tok) (n : nat) : outcome (list tok) := oeach (vget line) (seq 0 n).
(** one data line, l.820-836 *)
Definition data_line (X Y Z T : list tok) (tab : list (list (list (list v3)))) (row : list tok) : outcome (list (list (list (list v3)))) :=
  e0 <- vget row 0 ;; e1 <- vget row 1 ;; e2 <- vget row 2 ;; e3 <- vget row 3 ;;
  e4 <- vget row 4 ;; x <- stod e4 ;;
  e5 <- vget row 5 ;; y <- stod e5 ;;
  e6 <- vget row 6 ;; z <- stod e6 ;;
  vset4 tab (axis_index X e0) (axis_index Y e1) (axis_index Z e2) (axis_index T e3) (V3 x y z).
Fixpoint data_lines (X Y Z T : list tok) (tab : list (list (list (list v3)))) (rows : list (list tok)) : outcome (list (list (list (list v3)))) :=
  match rows with
  | [] => Ok tab
  | r :: rs => tab' <- data_line X Y Z T tab r ;; data_lines X Y Z T tab' rs
  end.
Definition dim (line : list tok) (i : nat) : outcome nat := e <- vget line i ;; n <- stoul e ;; Ok (Z.to_nat (Z.modulo n (2 ^ 32))).
Definition current_4d (lines : list (list tok)) : outcome cgrid :=
  if Nat.ltb (length lines) 7 then Throw ExInputFile else
  l0 <- vget lines 0 ;;
  nx <- dim l0 0 ;; ny <- dim l0 1 ;; nz <- dim l0 2 ;; nt_ <- dim l0 3 ;;
  l1 <- vget lines 1 ;; X <- axis_words l1 nx ;; x <- oeach stod X ;;
  l2 <- vget lines 2 ;; Y <- axis_words l2 ny ;; y <- oeach stod Y ;;
  l3 <- vget lines 3 ;; Z <- axis_words l3 nz ;; z <- oeach stod Z ;;
  l4 <- vget lines 4 ;; T <- axis_words l4 nt_ ;; t <- oeach stod T ;;
  if Z.ltb (Z.of_nat (length lines)) (Z.modulo (Z.modulo (Z.of_nat nx * Z.of_nat ny * Z.of_nat nz * Z.of_nat nt_) (2 ^ 32) + 5) (2 ^ 32)) then Throw ExInputFile else
  tab <- data_lines X Y Z T (cleared nx ny nz nt_) (skipn 6 lines) ;;
  ta <- time_axis t ;;
  let a := Axes x y z (snd ta) (fst ta) in
  _ <- allocate a ;;
  vel <- oeach (fun ix => oeach (fun iy => oeach (fun iz =>
           c <- vget3 tab ix iy iz ;;
           time_loop t (map vx c) (map vy c) (map vz c) (fst ta) 0 (snd ta) 1) (seq 0 nz)) (seq 0 ny)) (seq 0 nx) ;;
  Ok (CGrid a vel (cleared nx ny nz (snd ta))).
End Files.

(* ------------------------------ one grid for waves and currents, Waves.cpp l.387-475 ------------------------------ *)
(** the loops adding to every node and instant of the wave grid what [add] makes of the current there *)
Definition over_grid (a : axes) (tab : list (list (list (list v3)))) (add : nat -> nat -> nat -> nat -> v3 -> outcome v3) : outcome (list (list (list (list v3)))) :=
  oeach (fun ix => oeach (fun iy => oeach (fun iz => oeach (fun it =>
    v <- vget4 tab ix iy iz it ;; add ix iy iz it v) (seq 0 (nt a))) (seq 0 (length (pz a)))) (seq 0 (length (py a)))) (seq 0 (length (px a))).
(** what is read from the current grid: steady l.394-397, dynamic l.422-427, 4D l.459-464.  The code
    reads steady and dynamic currents once per depth (and instant), the model at every node. *)
Inductive cmode := CSteady | CDynamic | C4D.
Definition probe (m : cmode) (c : cgrid) (a : axes) (ix iy iz it : nat) : outcome (v3 * v3) :=
  let x := nth ix (px a) 0 in let y := nth iy (py a) 0 in let z := nth iz (pz a) 0 in
  match m with
  | CSteady => current_kin c (V3 0 0 z) 0
  | CDynamic => current_kin c (V3 0 0 z) (INR it * dtWave a)
  | C4D => current_kin c (V3 x y z) (INR it * dtWave a)
  end.
Definition unify (m : cmode) (w : wgrid) (c : cgrid) : outcome wgrid :=
  let a := wg_axes w in
  vel <- over_grid a (wg_vel w) (fun ix iy iz it v => u <- probe m c a ix iy iz it ;;
           Ok (match m with CDynamic => vadd (vadd v (fst u)) (snd u) | _ => vadd v (fst u) end)) ;; (* l.430-431 adds the acceleration to the velocity *)
  acc <- over_grid a (wg_acc w) (fun ix iy iz it v => u <- probe m c a ix iy iz it ;;
           Ok (match m with CDynamic => v | _ => vadd v (snd u) end)) ;;
  Ok (WGrid a (wg_zeta w) (wg_pdyn w) vel acc).
