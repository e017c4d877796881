(** Model of the VTK output: Util/VTK_Util.hpp l.48-65, Util/VTK_Util.cpp l.6-18, IO.cpp l.617-656, Line::getVTK,
    Rod::getVTK, Point::getVTK, Body::getVTK, Body::defaultVTK, MoorDyn::getVTK, the functions saveVTK and
    MoorDyn_UseBodyVTK, as built with USE_VTK.

    The library VTK itself is not modelled: a vtkPolyData is what was put into it, vtkTransform does what its
    documentation says, and readers and writers are oracles. vtkPoints and vtkFloatArray keep floats: [narrow] is the
    conversion. A tuple that was never set is None. Doubles of bodies are exact reals. *)
From Coq Require Import String Ascii Reals ZArith List Arith Bool.
From Verif Require Import MErr MStr MVec MStateOps MMat.
Import ListNotations.

Section Vtk.
(** doubles and floats *)
Variable F G : Type.
Variable narrow : F -> G.
Variable plus : F -> F -> F.

(** vtkFloatArray: its name, the number of components, its tuples *)
Record varr := VArr { va_name : string; va_comps : nat; va_tuples : list (option (list G)) }.
(** vtkPolyData: points, vertices and lines by the numbers of their points, point data and cell data *)
Record poly := Poly { py_points : list (list G); py_verts : list (list nat); py_lines : list (list nat); py_pdata : list varr; py_cdata : list varr }.

(** vec, Misc.hpp l.119-126, and the coefficients of a matrix row by row *)
Definition vec := (F * F * F)%type.
Definition comps (v : vec) : list F := let '(x, y, z) := v in [x; y; z].

(** vector_to_vtk_array for vectors of vec, Util/VTK_Util.hpp l.48-65: front() of an empty vector is undefined *)
Definition vec_array (n : string) (l : list vec) : outcome varr :=
  match l with
  | [] => UB
  | _ => Ok (VArr n 3 (map (fun v => Some (map narrow (comps v))) l))
  end.
(** vector_to_vtk_array for vectors of double, Util/VTK_Util.cpp l.6-18 *)
Definition num_array (n : string) (l : list F) : varr := VArr n 1 (map (fun x => Some [narrow x]) l).
(** vtk_farray, IO.cpp l.617-626: the tuples are not set *)
Definition farray (n : string) (c len : nat) : varr := VArr n c (repeat None len).
(** SetTuple3 and SetTuple9: beyond the end of the array it is undefined *)
Fixpoint put {A} (i : nat) (x : A) (l : list A) : option (list A) :=
  match l, i with
  | [], _ => None
  | _ :: r, O => Some (x :: r)
  | y :: r, Datatypes.S i => match put i x r with Some q => Some (y :: q) | None => None end
  end.
Definition set_tuple (a : varr) (i : nat) (x : list F) : outcome varr :=
  match put i (Some (map narrow x)) (va_tuples a) with Some l => Ok (VArr (va_name a) (va_comps a) l) | None => UB end.
(** operator[] of a vector *)
Definition at_ {A} (l : list A) (i : nat) : outcome A := match nth_error l i with Some x => Ok x | None => UB end.

(** the members of Line that are shown, Line.hpp l.300-420, and the velocity of the water at its nodes *)
Record line := Line { l_N : nat; l_r : list vec; l_rd : list vec; l_Kurv : list F; l_Fnet : list vec; l_M : list (list F); l_Dq : list vec; l_Dp : list vec;
  l_lstr : list F; l_ldstr : list F; l_V : list F; l_T : list vec; l_F : list F; l_U : list vec }.
(** the loop over the nodes, Line.cpp l.1484-1507: points, cells, and the arrays M, Drag and Fnet *)
Fixpoint line_nodes (L : line) (k i : nat) (st : list (list G) * list (list nat) * varr * varr * varr) : outcome (list (list G) * list (list nat) * varr * varr * varr) :=
  match k with
  | O => Ok st
  | Datatypes.S k' =>
      let '(pts, cells, aM, aD, aF) := st in
      r <- at_ (l_r L) i ;;
      dq <- at_ (l_Dq L) i ;;
      dp <- at_ (l_Dp L) i ;;
      aD <- set_tuple aD i (map (fun p => plus (fst p) (snd p)) (combine (comps dq) (comps dp))) ;;
      m <- at_ (l_M L) i ;;
      aM <- set_tuple aM i m ;;
      f <- at_ (l_Fnet L) i ;;
      aF <- set_tuple aF i (comps f) ;;
      let pts := pts ++ [map narrow (comps r)] in
      let cells := if Nat.eqb i (length (l_r L) - 1) then cells else cells ++ [[i; Datatypes.S i]] in
      line_nodes L k' (Datatypes.S i) (pts, cells, aM, aD, aF)
  end.
(** Line::getVTK, Line.cpp l.1455-1527 *)
Definition line_vtk (L : line) : outcome poly :=
  let n := Datatypes.S (l_N L) in
  rd <- vec_array "rd" (l_rd L) ;;
  fnet <- vec_array "Fnet" (l_Fnet L) ;;
  u <- vec_array "U" (l_U L) ;;
  t <- vec_array "T" (l_T L) ;;
  st <- line_nodes L n 0 ([], [], farray "M" 9 n, farray "Drag" 3 n, fnet) ;;
  let '(pts, cells, aM, aD, aF) := st in
  Ok (Poly pts [] cells [rd; num_array "Kurv" (l_Kurv L); aM; aF; aD; u]
        [num_array "lstr" (l_lstr L); num_array "ldstr" (l_ldstr L); num_array "V" (l_V L); t; num_array "F" (l_F L)]).
(** the vectors after Line::setup, Line.cpp l.188-224, and Waves::addLine, Waves.cpp l.509-523: their lengths *)
Definition line_sized (L : line) : Prop :=
  let n := l_N L in
  length (l_r L) = Datatypes.S n /\ length (l_rd L) = Datatypes.S n /\ length (l_Kurv L) = Datatypes.S n /\ length (l_Fnet L) = Datatypes.S n /\ length (l_M L) = Datatypes.S n /\
  length (l_Dq L) = Datatypes.S n /\ length (l_Dp L) = Datatypes.S n /\ length (l_lstr L) = n /\ length (l_ldstr L) = n /\ length (l_V L) = n /\ length (l_T L) = n /\
  length (l_F L) = Datatypes.S n /\ length (l_U L) = Datatypes.S n /\ Forall (fun m => length m = 9%nat) (l_M L).

(** the members of Rod that are shown, Rod.hpp *)
Record rod := Rod { r_N : nat; r_r : list vec; r_rd : list vec; r_Fnet : list vec }.
(** the loop, Rod.cpp l.1520-1525 *)
Fixpoint rod_nodes (R : rod) (k i : nat) (st : list (list G) * varr * varr) : outcome (list (list G) * varr * varr) :=
  match k with
  | O => Ok st
  | Datatypes.S k' =>
      let '(pts, ard, aF) := st in
      r <- at_ (r_r R) i ;;
      v <- at_ (r_rd R) i ;;
      ard <- set_tuple ard i (comps v) ;;
      f <- at_ (r_Fnet R) i ;;
      aF <- set_tuple aF i (comps f) ;;
      rod_nodes R k' (Datatypes.S i) (pts ++ [map narrow (comps r)], ard, aF)
  end.
(** Rod::getVTK, Rod.cpp l.1511-1549: a polyline through all nodes, or a vertex *)
Definition rod_vtk (R : rod) : outcome poly :=
  let n := length (r_r R) in
  let st := ([], farray "rd" 3 n, farray "Fnet" 3 n) in
  if Nat.eqb (r_N R) 0 then
    st <- rod_nodes R 1 0 st ;;
    let '(pts, ard, aF) := st in Ok (Poly pts [[0%nat]] [] [ard; aF] [])
  else
    st <- rod_nodes R n 0 st ;;
    let '(pts, ard, aF) := st in Ok (Poly pts [] [seq 0 n] [ard; aF] []).

(** Point::getVTK, Point.cpp l.422-457: position, velocity, mass matrix, force *)
Definition point_vtk (r rd : vec) (M : list F) (Fnet : vec) : outcome poly :=
  ard <- set_tuple (farray "rd" 3 1) 0 (comps rd) ;;
  aM <- set_tuple (farray "M" 9 1) 0 M ;;
  aF <- set_tuple (farray "Fnet" 3 1) 0 (comps Fnet) ;;
  Ok (Poly [map narrow (comps r)] [[0%nat]] [] [ard; aM; aF] []).

(** vtkMultiBlockDataSet::SetBlock: makes room where there is none *)
Definition set_block {A} (i : nat) (x : A) (l : list (option A)) : list (option A) :=
  match put i (Some x) l with Some q => q | None => l ++ repeat None (i - length l) ++ [Some x] end.
(** a loop of MoorDyn::getVTK *)
Fixpoint set_blocks {A} (n : nat) (xs : list A) (l : list (option A)) : list (option A) :=
  match xs with [] => l | x :: xs => set_blocks (Datatypes.S n) xs (set_block n x l) end.
(** MoorDyn::getVTK, MoorDyn2.cpp l.807-826, of what the objects give *)
Definition system_vtk {A} (bodies points rods lines : list A) : list (option A) :=
  let out := repeat None (length rods + length points + length lines) in
  let out := set_blocks 0 bodies out in
  let out := set_blocks (length bodies) points out in
  let out := set_blocks (length bodies + length points) rods out in
  set_blocks (length bodies + length points + length rods) lines out.
End Vtk.

(** vtkErrorCode::ErrorIds: those that vtk_error tells apart *)
Inductive vtkerr := NoError | FileNotFoundError | CannotOpenFileError | NoFileNameError | UnrecognizedFileTypeError | FileFormatError | OutOfDiskSpaceError | OtherError.
(** vtk_error, IO.cpp l.638-656 *)
Definition vtk_error (e : vtkerr) : Z :=
  match e with
  | NoError => MOORDYN_SUCCESS
  | FileNotFoundError | CannotOpenFileError | NoFileNameError => MOORDYN_INVALID_OUTPUT_FILE
  | UnrecognizedFileTypeError | FileFormatError => MOORDYN_INVALID_VALUE
  | OutOfDiskSpaceError => MOORDYN_MEM_ERROR
  | OtherError => MOORDYN_UNHANDLED_ERROR
  end.
(** saveVTK and the C functions around it, Line.cpp l.1530-1546 and 1848-1866 and the like: what the C function returns when
    the writer reports an error or none *)
Definition save_vtk (e : vtkerr) : c_result := c_guard (moordyn_throw (vtk_error e)).

(** formats of the readers in MoorDyn_UseBodyVTK *)
Inductive format := FormatXML | FormatSTL.
(** MoorDyn_UseBodyVTK, Body.cpp l.902-945, for a handle that is not null: what it returns, and the model of the body
    afterwards; back() of an empty vector is undefined *)
Definition use_body {A} (reader : format -> str -> vtkerr * A) (name : str) (model : A) : outcome (Z * A) :=
  match rev (split_sep name "."%char) with
  | [] => UB
  | e :: _ =>
      let ext := lower e in
      let read f := let '(err, m) := reader f name in
        if (vtk_error err =? MOORDYN_SUCCESS)%Z then Ok (MOORDYN_SUCCESS, m) else Ok (vtk_error err, model) in
      if str_eqb ext ["v"; "t"; "p"]%char then read FormatXML
      else if str_eqb ext ["s"; "t"; "l"]%char then read FormatSTL
      else Ok (MOORDYN_INVALID_INPUT_FILE, model)
  end.

Open Scope R_scope.
(** Eigen::AngleAxis of a quaternion: angle and axis *)
Definition angle_axis (q : quat) : R * v3 :=
  let n := sqrt (qx q * qx q + qy q * qy q + qz q * qz q) in
  if Req_EM_T n 0 then (0, V3 1 0 0)
  else
    let m := if Rlt_dec (qw q) 0 then - n else n in
    (2 * atan2 n (Rabs (qw q)), V3 (qx q / m) (qy q / m) (qz q / m)).
(** vtkTransform::RotateWXYZ: the turn by an angle in degrees around an axis, which need not have length one *)
Definition rotate_wxyz (deg : R) (k v : v3) : v3 :=
  let a := deg * PI / 180 in
  let l := sqrt (dot k k) in
  let k := vscale (/ l) k in
  vadd (vadd (vscale (cos a) v) (vscale (sin a) (cross k v))) (vscale ((1 - cos a) * dot k v) k).
(** Body::getVTK, Body.cpp l.697-724: where a point of the model of the body is drawn; rad2deg, Misc.hpp l.997 *)
Definition body_vtk (r7 : xyzquat) (v : v3) : v3 :=
  let '(angle, axis) := angle_axis (xq_quat r7) in
  vadd (rotate_wxyz (180 / PI * angle) axis v) (xq_pos r7).
(** Body::defaultVTK, Body.cpp l.745-779: the points of the axes, and the lines between them *)
Definition default_points : list v3 := [V3 0 0 0; V3 1 0 0; V3 0 1 0; V3 0 0 1].
Definition default_lines : list (list nat) := [[0; 1]; [0; 2]; [0; 3]]%nat.
