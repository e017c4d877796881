(** The initial shape of a line: Catenary, source/QSlines.hpp l.84-597, and Line::initialize,
    source/Line.cpp l.403-537.
    Simplifications: doubles are exact reals; a computation that leaves the finite numbers (a division
    by zero) is [None] and stays so: in doubles it gives infinities and then NaN, with which no
    comparison holds.  Messages and output files are left out. *)
From Coq Require Import Reals ZArith List Arith.
From Verif Require Import MErr MVec MStateOps.
Import ListNotations.
Open Scope R_scope.

(** the three anticipated configurations, l.280, l.310, l.329: nothing on the sea bed, a part
    on the sea bed and tension at the anchor, a part on the sea bed and no tension at the anchor *)
Inductive lie := Hanging | Grounded | Loose.
Definition lies (W CB VFMinWL HF : R) : lie :=
  if Rlt_dec CB 0 then Hanging else if Rlt_dec W 0 then Hanging else if Rlt_dec 0 VFMinWL then Hanging
  else if Rlt_dec (- CB * VFMinWL) HF then Grounded else Loose.

Section Solve.
Variables (XF ZF L EA W CB Tol : R).

(** error functions, l.282-287, l.313-316, l.332-338 *)
Definition errors (k : lie) (HF VF : R) : R * R :=
  let WL := W * L in let WEA := W * EA in let LOvrEA := L / EA in let CBOvrEA := CB / EA in
  let VFOvrWEA := VF / WEA in
  let VFOvrHF := VF / HF in
  let SQRT1VFOvrHF2 := sqrt (1 + VFOvrHF * VFOvrHF) in
  let VFMinWL := VF - WL in
  let HFOvrW := HF / W in
  let LMinVFOvrW := L - VF / W in
  let VFMinWLOvrHF := VFMinWL / HF in
  let SQRT1VFMinWLOvrHF2 := sqrt (1 + VFMinWLOvrHF * VFMinWLOvrHF) in
  match k with
  | Hanging =>
      ((ln (VFOvrHF + SQRT1VFOvrHF2) - ln (VFMinWLOvrHF + SQRT1VFMinWLOvrHF2)) * HFOvrW + LOvrEA * HF - XF,
       (SQRT1VFOvrHF2 - SQRT1VFMinWLOvrHF2) * HFOvrW + LOvrEA * (VF - 1 / 2 * WL) - ZF)
  | Grounded =>
      (ln (VFOvrHF + SQRT1VFOvrHF2) * HFOvrW - 1 / 2 * CBOvrEA * W * LMinVFOvrW * LMinVFOvrW + LOvrEA * HF + LMinVFOvrW - XF,
       (SQRT1VFOvrHF2 - 1) * HFOvrW + 1 / 2 * VF * VFOvrWEA - ZF)
  | Loose =>
      (ln (VFOvrHF + SQRT1VFOvrHF2) * HFOvrW -
         1 / 2 * CBOvrEA * W * (LMinVFOvrW * LMinVFOvrW - (LMinVFOvrW - HFOvrW / CB) * (LMinVFOvrW - HFOvrW / CB)) +
         LOvrEA * HF + LMinVFOvrW - XF,
       (SQRT1VFOvrHF2 - 1) * HFOvrW + 1 / 2 * VF * VFOvrWEA - ZF)
  end.
(** Jacobian dXFdHF, dXFdVF, dZFdHF, dZFdVF: l.288-309, l.318-328, l.339-349 *)
Definition jacobian (k : lie) (HF VF : R) : R * R * R * R :=
  let WL := W * L in let WEA := W * EA in let LOvrEA := L / EA in let CBOvrEA := CB / EA in
  let HFOvrWEA := HF / WEA in let VFOvrWEA := VF / WEA in
  let VFOvrHF := VF / HF in let VFOvrHF2 := VFOvrHF * VFOvrHF in
  let SQRT1VFOvrHF2 := sqrt (1 + VFOvrHF2) in
  let VFMinWL := VF - WL in
  let HFOvrW := HF / W in
  let LMinVFOvrW := L - VF / W in
  let VFMinWLOvrHF := VFMinWL / HF in let VFMinWLOvrHF2 := VFMinWLOvrHF * VFMinWLOvrHF in
  let SQRT1VFMinWLOvrHF2 := sqrt (1 + VFMinWLOvrHF2) in
  match k with
  | Hanging =>
      ((ln (VFOvrHF + SQRT1VFOvrHF2) - ln (VFMinWLOvrHF + SQRT1VFMinWLOvrHF2)) / W -
         ((VFOvrHF + VFOvrHF2 / SQRT1VFOvrHF2) / (VFOvrHF + SQRT1VFOvrHF2) -
          (VFMinWLOvrHF + VFMinWLOvrHF2 / SQRT1VFMinWLOvrHF2) / (VFMinWLOvrHF + SQRT1VFMinWLOvrHF2)) / W + LOvrEA,
       ((1 + VFOvrHF / SQRT1VFOvrHF2) / (VFOvrHF + SQRT1VFOvrHF2) -
          (1 + VFMinWLOvrHF / SQRT1VFMinWLOvrHF2) / (VFMinWLOvrHF + SQRT1VFMinWLOvrHF2)) / W,
       (SQRT1VFOvrHF2 - SQRT1VFMinWLOvrHF2) / W - (VFOvrHF2 / SQRT1VFOvrHF2 - VFMinWLOvrHF2 / SQRT1VFMinWLOvrHF2) / W,
       (VFOvrHF / SQRT1VFOvrHF2 - VFMinWLOvrHF / SQRT1VFMinWLOvrHF2) / W + LOvrEA)
  | Grounded =>
      (ln (VFOvrHF + SQRT1VFOvrHF2) / W - ((VFOvrHF + VFOvrHF2 / SQRT1VFOvrHF2) / (VFOvrHF + SQRT1VFOvrHF2)) / W + LOvrEA,
       ((1 + VFOvrHF / SQRT1VFOvrHF2) / (VFOvrHF + SQRT1VFOvrHF2)) / W + CBOvrEA * LMinVFOvrW - 1 / W,
       (SQRT1VFOvrHF2 - 1 - VFOvrHF2 / SQRT1VFOvrHF2) / W,
       (VFOvrHF / SQRT1VFOvrHF2) / W + VFOvrWEA)
  | Loose =>
      (ln (VFOvrHF + SQRT1VFOvrHF2) / W - ((VFOvrHF + VFOvrHF2 / SQRT1VFOvrHF2) / (VFOvrHF + SQRT1VFOvrHF2)) / W +
         LOvrEA - (LMinVFOvrW - HFOvrW / CB) / EA,
       ((1 + VFOvrHF / SQRT1VFOvrHF2) / (VFOvrHF + SQRT1VFOvrHF2)) / W + HFOvrWEA - 1 / W,
       (SQRT1VFOvrHF2 - 1 - VFOvrHF2 / SQRT1VFOvrHF2) / W,
       (VFOvrHF / SQRT1VFOvrHF2) / W + VFOvrWEA)
  end.
(** the increments of iteration I, l.354-380; [None]: not finite *)
Definition det (j : R * R * R * R) : R := let '(dXFdHF, dXFdVF, dZFdHF, dZFdVF) := j in dXFdHF * dZFdVF - dXFdVF * dZFdHF.
Definition increments (I : nat) (HF VF : R) : option (R * R) :=
  if Req_EM_T W 0 then None else if Req_EM_T EA 0 then None else if Req_EM_T HF 0 then None else
  let k := lies W CB (VF - W * L) HF in
  if andb (match k with Loose => true | _ => false end) (if Req_EM_T CB 0 then true else false) then None else
  let '(EXF, EZF) := errors k HF VF in
  let '(dXFdHF, dXFdVF, dZFdHF, dZFdVF) := jacobian k HF VF in
  let DET := det (dXFdHF, dXFdVF, dZFdHF, dZFdVF) in
  if Req_EM_T DET 0 then None else
  let dHF := (- dZFdVF * EXF + dXFdVF * EZF) / DET in
  let dVF := (dZFdHF * EXF - dXFdHF * EZF) / DET in
  let dHF := dHF * (1 - Tol * INR I) in
  let dVF := dVF * (1 - Tol * INR I) in
  let dHF := Rmax dHF ((Tol - 1) * HF) in
  Some (dHF, dVF).
(** l.384 *)
Definition converged (HF VF dHF dVF : R) : bool :=
  andb (if Rle_dec (Rabs dHF) (Rabs (Tol * HF)) then true else false) (if Rle_dec (Rabs dVF) (Rabs (Tol * VF)) then true else false).
(** iterations I, I + 1 ... until convergence, [n] of them at most, l.261-440: the tensions and the number of the
    iteration that accepted them *)
Fixpoint iterate (n I : nat) (HF VF : R) : option (R * R * nat) :=
  match n with
  | O => None
  | S n' =>
      match increments I HF VF with
      | None => None
      | Some (dHF, dVF) => if converged HF VF dHF dVF then Some (HF, VF, I) else iterate n' (S I) (HF + dHF) (VF + dVF)
      end
  end.
(** first guess, l.229-253 (from the distances before they are limited) and l.405-419 (after) *)
Definition guess (XF ZF : R) : R * R :=
  let Lamda0 := if Rle_dec L (sqrt (XF * XF + ZF * ZF)) then 1 / 5 else sqrt (3 * ((L * L - ZF * ZF) / (XF * XF) - 1)) in
  (Rmax (Rabs (1 / 2 * W * XF / Lamda0)) Tol, 1 / 2 * W * (ZF / tanh Lamda0 + L)).
End Solve.

(** position and tension of the point at the unstretched distance s from the anchor: l.466-479, l.500-522,
    l.544-574. *)
Definition node (L EA W CB : R) (k : lie) (HF VF s : R) : R * R * R :=
  let WL := W * L in let WEA := W * EA in
  let HFOvrW := HF / W in let LMinVFOvrW := L - VF / W in
  let VFMinWL := VF - WL in
  let VFMinWLOvrHF := VFMinWL / HF in
  let SQRT1VFMinWLOvrHF2 := sqrt (1 + VFMinWLOvrHF * VFMinWLOvrHF) in
  let Ws := W * s in let VFMinWLs := VFMinWL + Ws in let VFMinWLsOvrHF := VFMinWLs / HF in let sOvrEA := s / EA in
  let SQRT1VFMinWLsOvrHF2 := sqrt (1 + VFMinWLsOvrHF * VFMinWLsOvrHF) in
  match k with
  | Hanging =>
      ((ln (VFMinWLsOvrHF + SQRT1VFMinWLsOvrHF2) - ln (VFMinWLOvrHF + SQRT1VFMinWLOvrHF2)) * HFOvrW + sOvrEA * HF,
       (SQRT1VFMinWLsOvrHF2 - SQRT1VFMinWLOvrHF2) * HFOvrW + sOvrEA * (VFMinWL + 1 / 2 * Ws),
       sqrt (HF * HF + VFMinWLs * VFMinWLs))
  | Grounded =>
      if Rle_dec s LMinVFOvrW then
        (s + sOvrEA * (HF + CB * VFMinWL + 1 / 2 * Ws * CB), 0, HF + CB * VFMinWLs)
      else
        (ln (VFMinWLsOvrHF + SQRT1VFMinWLsOvrHF2) * HFOvrW + sOvrEA * HF + LMinVFOvrW - 1 / 2 * CB * VFMinWL * VFMinWL / WEA,
         (-1 + SQRT1VFMinWLsOvrHF2) * HFOvrW + sOvrEA * (VFMinWL + 1 / 2 * Ws) + 1 / 2 * VFMinWL * VFMinWL / WEA,
         sqrt (HF * HF + VFMinWLs * VFMinWLs))
  | Loose =>
      if Rle_dec s (LMinVFOvrW - HFOvrW / CB) then (s, 0, 0)
      else if Rle_dec s LMinVFOvrW then
        (s - (LMinVFOvrW - 1 / 2 * HFOvrW / CB) * HF / EA + sOvrEA * (HF + CB * VFMinWL + 1 / 2 * Ws * CB) + 1 / 2 * CB * VFMinWL * VFMinWL / WEA,
         0, HF + CB * VFMinWLs)
      else
        (ln (VFMinWLsOvrHF + SQRT1VFMinWLsOvrHF2) * HFOvrW + sOvrEA * HF + LMinVFOvrW - (LMinVFOvrW - 1 / 2 * HFOvrW / CB) * HF / EA,
         (-1 + SQRT1VFMinWLsOvrHF2) * HFOvrW + sOvrEA * (VFMinWL + 1 / 2 * Ws) + 1 / 2 * VFMinWL * VFMinWL / WEA,
         sqrt (HF * HF + VFMinWLs * VFMinWLs))
  end.
(** tensions at the anchor, l.452-453, l.486-487, l.530-531 *)
Definition anchor (L W CB : R) (k : lie) (HF VF : R) : R * R :=
  match k with Hanging => (HF, VF - W * L) | Grounded => (HF + CB * (VF - W * L), 0) | Loose => (0, 0) end.
(** the checks of the places of the nodes, l.457, l.491, l.535 *)
Fixpoint nodes (f : R -> R * R * R) (L : R) (s : list R) : option (list (R * R * R)) :=
  match s with
  | [] => Some []
  | a :: r =>
      if Rlt_dec a 0 then None else if Rlt_dec L a then None else
      match nodes f L r with Some ps => Some (f a :: ps) | None => None end
  end.
Record cat := Cat { cHF : R; cVF : R; cHA : R; cVA : R; cnodes : list (R * R * R) }.
(** LMax, l.128-146 *)
Definition too_long (XF ZF L EA W CB : R) : bool :=
  if Rlt_dec 0 W then
    if Rle_dec (XF - EA / W + sqrt ((EA / W) * (EA / W) + 2 * ZF * EA / W)) L then (if Rle_dec 0 CB then true else false) else false
  else false.
(** [Ok None] is the return value -1.  MaxIter = (unsigned int)(1.0 / Tol), l.155; without any iteration the
    terms used after the loop have no values. *)
Definition catenary (XF ZF L EA W CB Tol : R) (s : list R) : outcome (option cat) :=
  let reverse := if Rlt_dec ZF 0 then true else false in
  let ZF := if reverse then - ZF else ZF in
  if too_long XF ZF L EA W CB then Ok None else
  let q := Int_part (1 / Tol) in
  if orb (Z.leb q 0) (Z.leb (2 ^ 32) q) then UB else
  let MaxIter := Z.to_nat q in
  let g := guess L W Tol XF ZF in
  let XF := Rmax XF Tol in let ZF := Rmax ZF Tol in
  let run HF VF := iterate XF ZF L EA W CB Tol MaxIter 1 HF VF in
  match (match run (fst g) (snd g) with
         | Some r => Some r
         | None => let g' := guess L W Tol XF ZF in run (fst g') (snd g')
         end) with
  | None => Ok None
  | Some (HF, VF, _) =>
      let k := lies W CB (VF - W * L) HF in
      match nodes (node L EA W CB k HF VF) L s with
      | None => Ok None
      | Some ps =>
          let ps := if reverse then map (fun p => let '(x, z, te) := p in (XF - x, z - ZF, te)) (rev ps) else ps in
          let '(HA, VA) := anchor L W CB k HF VF in
          Ok (Some (Cat HF VF HA VA ps))
      end
  end.

(* ------------------------------ Line::initialize, Line.cpp l.403-537 ------------------------------ *)
(** l.417-426 *)
Definition real_length (UnstrLen : R) (dir : v3) : R := if Rlt_dec UnstrLen 0 then - UnstrLen * norm dir else UnstrLen.
(** l.429-431 *)
Definition seg_length (UnstrLen : R) (N : nat) : R := UnstrLen / INR N.
(** l.435-440: the stiffness of a curve is that of its last point *)
Definition stiffness (E : R) (curve : list (R * R)) : R := match curve with [] => E | _ => let p := last curve (0, 0) in snd p / fst p end.
(** l.443-454 *)
Definition internal_damping (BAin UnstrLen E rho A : R) (N : nat) : R :=
  if Rlt_dec BAin 0 then - BAin * UnstrLen / INR N * sqrt (E * rho) else BAin / A.
(** l.481-486 *)
Fixpoint snodes (l : R) (n : nat) : R := match n with O => 0 | S n' => snodes l n' + l end.
Definition node_places (UnstrLen : R) (N : nat) : list R := map (snodes (seg_length UnstrLen N)) (seq 0 N) ++ [UnstrLen].
Definition straight (r0 dir : v3) (N i : nat) : v3 := vadd r0 (vscale (INR i / INR N) dir).
(** the positions of all nodes, l.407-531; [depth] is getWaterDepth *)
Definition initial_shape (depth : R -> R -> R) (r0 rN : v3) (N : nat) (UnstrLen E A rho rho_w g : R) : outcome (list v3) :=
  if Rlt_dec (vz r0) (depth (vx r0) (vy r0)) then Throw ExInvalidValue else
  let dir := vsub rN r0 in
  let UnstrLen := real_length UnstrLen dir in
  let line i := if Nat.eqb i 0 then r0 else if Nat.eqb i N then rN else straight r0 dir N i in
  let XF := sqrt (vx dir * vx dir + vy dir * vy dir) in
  if Rlt_dec 0 XF then
    let Tol := 1 / 100000 in
    let touches r := if Rle_dec (vz r) (depth (vx r) (vy r) * (1 - Tol)) then true else false in
    let CB := if orb (touches r0) (touches rN) then 0 else -1 in
    let LW := ((rho - rho_w) * A) * g in
    res <- catenary XF (vz dir) UnstrLen (E * A) LW CB Tol (node_places UnstrLen N) ;;
    match res with
    | Some c =>
        let COSPhi := (vx rN - vx r0) / XF in let SINPhi := (vy rN - vy r0) / XF in
        Ok (map (fun i => if Nat.eqb i 0 then r0 else if Nat.eqb i N then rN else
                  let '(x, z, _) := nth i (cnodes c) (0, 0, 0) in vadd r0 (V3 (x * COSPhi) (x * SINPhi) z)) (seq 0 (S N)))
    | None => Ok (map line (seq 0 (S N)))
    end
  else Ok (map line (seq 0 (S N))).
