(** Bathymetry: source/Seafloor.cpp. Numbers are exact reals. *)
From Coq Require Import Reals ZArith List Arith.
From Verif Require Import MErr MInterp.
Import ListNotations.
Open Scope R_scope.

(** Seafloor.hpp l.93-109; minDepth starts at minus infinity ([None]) *)
Record seafloor := mkSeafloor {
  sf_px : list R; sf_py : list R; sf_grid : list (list R);
  sf_avg : R; sf_min : option R }.

(** calcInsertIndex, l.17-26. With an empty list size() - 1 wraps to 2^32 - 1,
    which the only caller uses as an index of an empty vector: [UB] here. *)
Fixpoint insert_scan (l : list R) (v : R) (i : nat) : nat :=
  match l with
  | [] => (i - 1)%nat
  | a :: l' => if Rgt_dec a v then (if (i =? 0)%nat then 0%nat else (i - 1)%nat)
               else insert_scan l' v (S i)
  end.
Definition calc_insert_index (l : list R) (v : R) : outcome nat :=
  match l with [] => UB | _ => Ok (insert_scan l v 0) end.

Section Setup.
(** A line of the file is the list of its entries (str::split, modelled in
    MStr.v); the conversions std::stoi and std::stof may throw
    std::invalid_argument or std::out_of_range. Single precision rounding of
    stof is part of the oracle. *)
Context {tok : Type}.
Variable stoi : tok -> outcome Z.
Variable stof : tok -> outcome R.

Fixpoint stofs (l : list tok) : outcome (list R) :=
  match l with
  | [] => Ok []
  | t :: l' => obind (stof t) (fun a => obind (stofs l') (fun r => Ok (a :: r)))
  end.

(** depthGrid[xIdx][yIdx] = depth, l.115 *)
Definition gset (g : list (list R)) (i j : nat) (d : R) : outcome (list (list R)) :=
  obind (vget g i) (fun row => obind (vset row j d) (fun row' => vset g i row')).

(** the loop of l.99-120 *)
Fixpoint read_depths (px py : list R) (lines : list (list tok))
    (g : list (list R)) (total : R) (mn : option R) : outcome (list (list R) * R * option R) :=
  match lines with
  | [] => Ok (g, total, mn)
  | l :: lines' =>
      match l with
      | [a; b; c] =>
          obind (stof a) (fun x => obind (stof b) (fun y => obind (stof c) (fun d =>
          obind (calc_insert_index px x) (fun i =>
          obind (calc_insert_index py y) (fun j =>
          obind (gset g i j d) (fun g' =>
          let mn' := match mn with
                     | None => Some d
                     | Some m => if Rgt_dec d m then Some d else Some m end in
          read_depths px py lines' g' (total + d) mn'))))))
      | _ => Throw ExInputFile
      end
  end.

(** Seafloor::setup, l.28-129, in mode SEAFLOOR_3D on the lines of a readable
    file. nx and ny are unsigned int (negative numbers wrap), and so is their
    product in l.121. *)
Definition setup (lines : list (list tok)) : outcome seafloor :=
  match lines with
  | l0 :: l1 :: l2 :: ls =>
      match ls with
      | [] => Throw ExInputFile
      | _ =>
        obind (obind (vget l0 0) stoi) (fun nx => obind (obind (vget l0 1) stoi) (fun ny =>
        let nx := (nx mod 2 ^ 32)%Z in let ny := (ny mod 2 ^ 32)%Z in
        if negb (Z.of_nat (length l1) =? nx)%Z then Throw ExInputFile else
        obind (stofs l1) (fun px =>
        if negb (Z.of_nat (length l2) =? ny)%Z then Throw ExInputFile else
        obind (stofs l2) (fun py =>
        obind (read_depths px py ls (repeat (repeat 0 (length py)) (length px)) 0 None) (fun r =>
        let '(g, total, mn) := r in
        Ok (mkSeafloor px py g (total / IZR ((nx * ny) mod 2 ^ 32)) mn)))))) 
      end
  | _ => Throw ExInputFile
  end.
End Setup.

(** Seafloor::getDepthAt, l.131-141 *)
Definition get_depth_at (sf : seafloor) (x y : R) : outcome R :=
  obind (interp_factor (sf_px sf) 1 x) (fun ix =>
  obind (interp_factor (sf_py sf) 1 y) (fun iy =>
  interp2 (sf_grid sf) (fst ix) (fst iy) (snd ix) (snd iy))).
