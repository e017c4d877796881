(** Specification of the bindings for Fortran: what the caller gives for each parameter of a C function, as the
    documentation of that function describes it, and what the C function is to get for it. *)
From Coq Require Import String Ascii ZArith List Arith Bool Lia.
From Verif Require Import MBind.
Import ListNotations.
Open Scope string_scope.
Open Scope Z_scope.

(** what a parameter is for the caller: a handle, a number that goes in, a variable that a number or a handle comes
    back in, an array of reals, or characters *)
Inductive form := Handle | IntVal | RealVal | IntVar | RealVar | HandleVar | Reals | Text.

(** the functions of the module, the C functions of the same names, and the parameters of those in the comments of
    source/MoorDyn2.h, Waves.h, Seafloor.h, Body.h, Rod.h, Point.h and Line.h *)
Definition documented : list (string * string * list form) := [
  ("MD_Create", "MoorDyn_Create", [Text]);
  ("MD_NCoupledDOF", "MoorDyn_NCoupledDOF", [Handle; IntVar]);
  ("MD_SetVerbosity", "MoorDyn_SetVerbosity", [Handle; IntVal]);
  ("MD_SetLogFile", "MoorDyn_SetLogFile", [Handle; Text]);
  ("MD_SetLogLevel", "MoorDyn_SetLogLevel", [Handle; IntVal]);
  ("MD_Log", "MoorDyn_Log", [Handle; IntVal; Text]);
  ("MD_Init", "MoorDyn_Init", [Handle; Reals; Reals]);
  ("MD_Init_NoIC", "MoorDyn_Init_NoIC", [Handle; Reals; Reals]);
  ("MD_Step", "MoorDyn_Step", [Handle; Reals; Reals; Reals; RealVar; RealVar]);
  ("MD_Close", "MoorDyn_Close", [Handle]);
  ("MD_GetWaves", "MoorDyn_GetWaves", [Handle]);
  ("MD_GetSeafloor", "MoorDyn_GetSeafloor", [Handle]);
  ("MD_ExternalWaveKinInit", "MoorDyn_ExternalWaveKinInit", [Handle; IntVar]);
  ("MD_ExternalWaveKinGetN", "MoorDyn_ExternalWaveKinGetN", [Handle; IntVar]);
  ("MD_ExternalWaveKinGetCoordinates", "MoorDyn_ExternalWaveKinGetCoordinates", [Handle; Reals]);
  ("MD_ExternalWaveKinSet", "MoorDyn_ExternalWaveKinSet", [Handle; Reals; Reals; RealVal]);
  ("MD_GetNumberBodies", "MoorDyn_GetNumberBodies", [Handle; IntVar]);
  ("MD_GetBody", "MoorDyn_GetBody", [Handle; IntVal]);
  ("MD_GetNumberRods", "MoorDyn_GetNumberRods", [Handle; IntVar]);
  ("MD_GetRod", "MoorDyn_GetRod", [Handle; IntVal]);
  ("MD_GetNumberPoints", "MoorDyn_GetNumberPoints", [Handle; IntVar]);
  ("MD_GetPoint", "MoorDyn_GetPoint", [Handle; IntVal]);
  ("MD_GetNumberLines", "MoorDyn_GetNumberLines", [Handle; IntVar]);
  ("MD_GetLine", "MoorDyn_GetLine", [Handle; IntVal]);
  ("MD_GetFASTtens", "MoorDyn_GetFASTtens", [Handle; IntVar; Reals; Reals; Reals; Reals]);
  ("MD_Save", "MoorDyn_Save", [Handle; Text]);
  ("MD_Load", "MoorDyn_Load", [Handle; Text]);
  ("MD_SaveVTK", "MoorDyn_SaveVTK", [Handle; Text]);
  ("MD_GetWavesKin", "MoorDyn_GetWavesKin", [Handle; RealVal; RealVal; RealVal; Reals; Reals; RealVar; RealVar; Handle]);
  ("MD_GetDepthAt", "MoorDyn_GetDepthAt", [Handle; RealVal; RealVal; RealVar]);
  ("MD_GetAverageDepth", "MoorDyn_GetAverageDepth", [Handle; RealVar]);
  ("MD_GetMinDepth", "MoorDyn_GetMinDepth", [Handle; RealVar]);
  ("MD_GetBodyID", "MoorDyn_GetBodyID", [Handle; IntVar]);
  ("MD_GetBodyType", "MoorDyn_GetBodyType", [Handle; IntVar]);
  ("MD_GetBodyState", "MoorDyn_GetBodyState", [Handle; Reals; Reals]);
  ("MD_GetBodyPos", "MoorDyn_GetBodyPos", [Handle; Reals]);
  ("MD_GetBodyAngle", "MoorDyn_GetBodyAngle", [Handle; Reals]);
  ("MD_GetBodyVel", "MoorDyn_GetBodyVel", [Handle; Reals]);
  ("MD_GetBodyAngVel", "MoorDyn_GetBodyAngVel", [Handle; Reals]);
  ("MD_GetBodyForce", "MoorDyn_GetBodyForce", [Handle; Reals]);
  ("MD_GetBodyM", "MoorDyn_GetBodyM", [Handle; Reals]);
  ("MD_SaveBodyVTK", "MoorDyn_SaveBodyVTK", [Handle; Text]);
  ("MD_UseBodyVTK", "MoorDyn_UseBodyVTK", [Handle; Text]);
  ("MD_GetRodID", "MoorDyn_GetRodID", [Handle; IntVar]);
  ("MD_GetRodType", "MoorDyn_GetRodType", [Handle; IntVar]);
  ("MD_GetRodForce", "MoorDyn_GetRodForce", [Handle; Reals]);
  ("MD_GetRodM", "MoorDyn_GetRodM", [Handle; Reals]);
  ("MD_GetRodN", "MoorDyn_GetRodN", [Handle; IntVar]);
  ("MD_GetRodNumberNodes", "MoorDyn_GetRodNumberNodes", [Handle; IntVar]);
  ("MD_GetRodNodePos", "MoorDyn_GetRodNodePos", [Handle; IntVal; Reals]);
  ("MD_GetRodNodeVel", "MoorDyn_GetRodNodeVel", [Handle; IntVal; Reals]);
  ("MD_SaveRodVTK", "MoorDyn_SaveRodVTK", [Handle; Text]);
  ("MD_GetPointID", "MoorDyn_GetPointID", [Handle; IntVar]);
  ("MD_GetPointType", "MoorDyn_GetPointType", [Handle; IntVar]);
  ("MD_GetPointPos", "MoorDyn_GetPointPos", [Handle; Reals]);
  ("MD_GetPointVel", "MoorDyn_GetPointVel", [Handle; Reals]);
  ("MD_GetPointForce", "MoorDyn_GetPointForce", [Handle; Reals]);
  ("MD_GetPointM", "MoorDyn_GetPointM", [Handle; Reals]);
  ("MD_GetPointNAttached", "MoorDyn_GetPointNAttached", [Handle; IntVar]);
  ("MD_GetPointAttached", "MoorDyn_GetPointAttached", [Handle; IntVal; HandleVar; IntVar]);
  ("MD_SavePointVTK", "MoorDyn_SavePointVTK", [Handle; Text]);
  ("MD_GetLineID", "MoorDyn_GetLineID", [Handle; IntVar]);
  ("MD_GetLineN", "MoorDyn_GetLineN", [Handle; IntVar]);
  ("MD_GetLineNumberNodes", "MoorDyn_GetLineNumberNodes", [Handle; IntVar]);
  ("MD_GetLineUnstretchedLength", "MoorDyn_GetLineUnstretchedLength", [Handle; RealVar]);
  ("MD_SetLineUnstretchedLength", "MoorDyn_SetLineUnstretchedLength", [Handle; RealVal]);
  ("MD_SetLineUnstretchedLengthVel", "MoorDyn_SetLineUnstretchedLengthVel", [Handle; RealVal]);
  ("MD_IsLineConstantEA", "MoorDyn_IsLineConstantEA", [Handle; IntVar]);
  ("MD_GetLineConstantEA", "MoorDyn_GetLineConstantEA", [Handle; RealVar]);
  ("MD_SetLineConstantEA", "MoorDyn_SetLineConstantEA", [Handle; RealVal]);
  ("MD_IsLinePressBend", "MoorDyn_IsLinePressBend", [Handle; IntVar]);
  ("MD_SetLinePressBend", "MoorDyn_SetLinePressBend", [Handle; IntVal]);
  ("MD_SetLinePressInt", "MoorDyn_SetLinePressInt", [Handle; Reals]);
  ("MD_GetLineNodePos", "MoorDyn_GetLineNodePos", [Handle; IntVal; Reals]);
  ("MD_GetLineNodeVel", "MoorDyn_GetLineNodeVel", [Handle; IntVal; Reals]);
  ("MD_GetLineNodeForce", "MoorDyn_GetLineNodeForce", [Handle; IntVal; Reals]);
  ("MD_GetLineNodeTen", "MoorDyn_GetLineNodeTen", [Handle; IntVal; Reals]);
  ("MD_GetLineNodeBendStiff", "MoorDyn_GetLineNodeBendStiff", [Handle; IntVal; Reals]);
  ("MD_GetLineNodeWeight", "MoorDyn_GetLineNodeWeight", [Handle; IntVal; Reals]);
  ("MD_GetLineNodeDrag", "MoorDyn_GetLineNodeDrag", [Handle; IntVal; Reals]);
  ("MD_GetLineNodeFroudeKrilov", "MoorDyn_GetLineNodeFroudeKrilov", [Handle; IntVal; Reals]);
  ("MD_GetLineNodeSeabedForce", "MoorDyn_GetLineNodeSeabedForce", [Handle; IntVal; Reals]);
  ("MD_GetLineNodeCurv", "MoorDyn_GetLineNodeCurv", [Handle; IntVal; RealVar]);
  ("MD_GetLineNodeM", "MoorDyn_GetLineNodeM", [Handle; IntVal; Reals]);
  ("MD_GetLineMaxTen", "MoorDyn_GetLineMaxTen", [Handle; RealVar]);
  ("MD_GetLineFairTen", "MoorDyn_GetLineFairTen", [Handle; RealVar]);
  ("MD_SaveLineVTK", "MoorDyn_SaveLineVTK", [Handle; Text])
].

(** the functions for which the declarations in Fortran disagree with the C prototypes *)
Definition exceptions : list string :=
  ["MD_SetVerbosity"; "MD_SetLogLevel"; "MD_Log"; "MD_ExternalWaveKinSet"; "MD_GetWavesKin"; "MD_GetFASTtens";
   "MD_SetLineConstantEA"; "MD_SetLinePressBend"].

(** the address of an element of an array, counted from 0 *)
Definition element (base stride : Z) (i : nat) : Z := base + Z.of_nat i * stride.

(** what the caller gives: variables of the right types; an array without gaps, that has an element; characters
    without a null *)
Inductive given {F} (m : mem F) : form -> uarg -> Prop :=
| Gi_handle a h : m a = Some (VPtr F h) -> given m Handle (UVar a)
| Gi_int a z : m a = Some (VInt F z) -> given m IntVal (UVar a)
| Gi_real a f : m a = Some (VDbl F f) -> given m RealVal (UVar a)
| Gi_intvar a z : m a = Some (VInt F z) -> given m IntVar (UVar a)
| Gi_realvar a f : m a = Some (VDbl F f) -> given m RealVar (UVar a)
| Gi_handlevar a h : m a = Some (VPtr F h) -> given m HandleVar (UVar a)
| Gi_reals b n : (0 < n)%nat -> (forall i, (i < n)%nat -> exists f, m (element b 1 i) = Some (VDbl F f)) -> given m Reals (UArr b 1 n)
| Gi_text l : ~ In zero l -> given m Text (UStr l).

(** what the C function gets: the value of what goes in, the address of what comes back, an address from which on
    element after element lies where the caller has it, and the characters without the blanks at their end *)
Inductive handed {F} (m : mem F) : form -> uarg -> aval F -> Prop :=
| Ha_handle a h : m a = Some (VPtr F h) -> handed m Handle (UVar a) (APtr F h)
| Ha_int a z : m a = Some (VInt F z) -> handed m IntVal (UVar a) (AInt F z)
| Ha_real a f : m a = Some (VDbl F f) -> handed m RealVal (UVar a) (ADbl F f)
| Ha_intvar a : handed m IntVar (UVar a) (APtr F a)
| Ha_realvar a : handed m RealVar (UVar a) (APtr F a)
| Ha_handlevar a : handed m HandleVar (UVar a) (APtr F a)
| Ha_reals b stride n p : (forall i, (i < n)%nat -> p + Z.of_nat i = element b stride i) -> handed m Reals (UArr b stride n) (APtr F p)
| Ha_text l r q buf : l = (r ++ repeat " "%char q)%list -> (forall k, r <> (k ++ [" "%char])%list) -> cstr buf = Some r -> handed m Text (UStr l) (AText F buf).
(** the same for all parameters *)
Inductive handed_all {F} (m : mem F) : list form -> list uarg -> list (aval F) -> Prop :=
| Hd_nil : handed_all m [] [] []
| Hd_cons f u v fs us vs : handed m f u v -> handed_all m fs us vs -> handed_all m (f :: fs) (u :: us) (v :: vs).

(** a call that ends as the C function does with the values it gets *)
Definition answers {F S} (lib : string -> list (aval F) -> S -> mem F -> aval F * S * mem F) (n : string) (vs : list (aval F)) (s : S) (m : mem F) : fres F S :=
  let '(v, s', m') := lib n vs s m in FRet F S v s' m'.

(** the call returns *)
Definition returns {F S} (r : fres F S) : Prop := exists v s m, r = FRet F S v s m.

(** a library for the cases: it returns the number of its arguments and remembers the last function called *)
Definition demo_lib (n : string) (vs : list (aval Z)) (s : string) (m : mem Z) : aval Z * string * mem Z := (AInt Z (Z.of_nat (length vs)), n, m).
(** variables for the cases: a handle, a number, a real, and from 100 on reals *)
Definition demo_mem : mem Z := fun a => if a =? 1 then Some (VPtr Z 7) else if a =? 2 then Some (VInt Z 3) else if a =? 3 then Some (VDbl Z 5) else if 100 <=? a then Some (VDbl Z a) else None.
