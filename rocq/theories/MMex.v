(** Model of the wrapper for Matlab: wrappers/matlab/moordyn_matlab.h and wrappers/matlab/MoorDynM_*.cpp.

    Each function that reads its inputs, calls one C function and makes its outputs is a row of a table, read from
    its source; Create and ExternalWaveKinGetCoordinates are written out. The library is the oracle [lib]: what a C
    function answers, for the values it gets; [reach] is how many numbers it reads or writes at an address it gets.
    Simplifications: an error raised through feval and an exception of the Matlab data API are the same; elements
    of character arrays and of other arrays that are not numeric are not taken for numbers; numbers of all types
    become int or double without a look at their range. *)
From Coq Require Import String ZArith List Arith Bool.
Import ListNotations.
Open Scope string_scope.
Open Scope Z_scope.

(** classes of arrays *)
Inductive cls := KDouble | KUInt64 | KInt64 | KInt32 | KChar | KOther.
(** what a function reads from an input: a number, a double, a handle, characters, doubles *)
Inductive mread := RInt (k : nat) | RDbl (k : nat) | RObj (k : nat) | RStr (k : nat) | RVec (k : nat).
(** the size of a local vector: fixed, or that of something read *)
Inductive msize := Fixed (n : nat) | SizeOf (j : nat).
(** an argument of the call: the handle, something read, the address of a double read, a local vector, the address
    of a local int, double or handle *)
Inductive marg := GInst | GRead (j : nat) | GRef (j : nat) | GVec (n : msize) | GInt | GDbl | GObj.
(** what is looked at after the call: the error code, whether a handle is null, nothing *)
Inductive mcheck := CheckCode | CheckObj | NoCheck.
(** an output: the int, the double, the vector as a row, the vector as a square matrix that was handed over as the k-th
    argument; the handle returned *)
Inductive mout := ONum (c : cls) (k : nat) | ODbl (k : nat) | ORow (k : nat) | OMat (n k : nat) | ORet.
(** a function: its name, the numbers of inputs and outputs, what it reads, the C function it calls, with what, and
    what comes after *)
Record mex := Mex { x_name : string; x_in : nat; x_out : nat; x_reads : list mread; x_fun : string; x_args : list marg; x_check : mcheck; x_outs : list mout }.

(** wrappers/matlab, the files and lines given *)
Definition mextable : list mex := [
  (** MoorDynM_Close.cpp l.40-45 *) Mex "MoorDynM_Close" 1 0 [] "MoorDyn_Close" [GInst] CheckCode [];
  (** MoorDynM_ExternalWaveKinGetN.cpp l.40-47 *) Mex "MoorDynM_ExternalWaveKinGetN" 1 1 [] "MoorDyn_ExternalWaveKinGetN" [GInst; GInt] CheckCode [ONum KUInt64 1];
  (** MoorDynM_ExternalWaveKinInit.cpp l.40-47 *) Mex "MoorDynM_ExternalWaveKinInit" 1 1 [] "MoorDyn_ExternalWaveKinInit" [GInst; GInt] CheckCode [ONum KUInt64 1];
  (** MoorDynM_ExternalWaveKinSet.cpp l.40-52 *) Mex "MoorDynM_ExternalWaveKinSet" 4 0 [RVec 1; RVec 2; RDbl 3] "MoorDyn_ExternalWaveKinSet" [GInst; GRead 0; GRead 1; GRead 2] CheckCode [];
  (** MoorDynM_GetAverageDepth.cpp l.40-47 *) Mex "MoorDynM_GetAverageDepth" 1 1 [] "MoorDyn_GetAverageDepth" [GInst; GDbl] CheckCode [ODbl 1];
  (** MoorDynM_GetBody.cpp l.40-52 *) Mex "MoorDynM_GetBody" 2 1 [RInt 1] "MoorDyn_GetBody" [GInst; GRead 0] CheckObj [ORet];
  (** MoorDynM_GetBodyAngVel.cpp l.40-49 *) Mex "MoorDynM_GetBodyAngVel" 1 1 [] "MoorDyn_GetBodyAngVel" [GInst; GVec (Fixed 3)] CheckCode [ORow 1];
  (** MoorDynM_GetBodyAngle.cpp l.40-49 *) Mex "MoorDynM_GetBodyAngle" 1 1 [] "MoorDyn_GetBodyAngle" [GInst; GVec (Fixed 3)] CheckCode [ORow 1];
  (** MoorDynM_GetBodyForce.cpp l.40-49 *) Mex "MoorDynM_GetBodyForce" 1 1 [] "MoorDyn_GetBodyForce" [GInst; GVec (Fixed 6)] CheckCode [ORow 1];
  (** MoorDynM_GetBodyID.cpp l.40-47 *) Mex "MoorDynM_GetBodyID" 1 1 [] "MoorDyn_GetBodyID" [GInst; GInt] CheckCode [ONum KInt64 1];
  (** MoorDynM_GetBodyM.cpp l.40-49 *) Mex "MoorDynM_GetBodyM" 1 1 [] "MoorDyn_GetBodyM" [GInst; GVec (Fixed 36)] CheckCode [OMat 6 1];
  (** MoorDynM_GetBodyPos.cpp l.40-49 *) Mex "MoorDynM_GetBodyPos" 1 1 [] "MoorDyn_GetBodyPos" [GInst; GVec (Fixed 3)] CheckCode [ORow 1];
  (** MoorDynM_GetBodyState.cpp l.40-52 *) Mex "MoorDynM_GetBodyState" 1 2 [] "MoorDyn_GetBodyState" [GInst; GVec (Fixed 6); GVec (Fixed 6)] CheckCode [ORow 1; ORow 2];
  (** MoorDynM_GetBodyType.cpp l.40-47 *) Mex "MoorDynM_GetBodyType" 1 1 [] "MoorDyn_GetBodyType" [GInst; GInt] CheckCode [ONum KInt64 1];
  (** MoorDynM_GetBodyVel.cpp l.40-49 *) Mex "MoorDynM_GetBodyVel" 1 1 [] "MoorDyn_GetBodyVel" [GInst; GVec (Fixed 3)] CheckCode [ORow 1];
  (** MoorDynM_GetDepthAt.cpp l.40-49 *) Mex "MoorDynM_GetDepthAt" 3 1 [RDbl 1; RDbl 2] "MoorDyn_GetDepthAt" [GInst; GRead 0; GRead 1; GDbl] CheckCode [ODbl 3];
  (** MoorDynM_GetLine.cpp l.40-52 *) Mex "MoorDynM_GetLine" 2 1 [RInt 1] "MoorDyn_GetLine" [GInst; GRead 0] CheckObj [ORet];
  (** MoorDynM_GetLineConstantEA.cpp l.40-47 *) Mex "MoorDynM_GetLineConstantEA" 1 1 [] "MoorDyn_GetLineConstantEA" [GInst; GDbl] CheckCode [ODbl 1];
  (** MoorDynM_GetLineFairTen.cpp l.40-48 *) Mex "MoorDynM_GetLineFairTen" 1 1 [] "MoorDyn_GetLineFairTen" [GInst; GDbl] CheckCode [ODbl 1];
  (** MoorDynM_GetLineID.cpp l.40-47 *) Mex "MoorDynM_GetLineID" 1 1 [] "MoorDyn_GetLineID" [GInst; GInt] CheckCode [ONum KInt64 1];
  (** MoorDynM_GetLineMaxTen.cpp l.40-48 *) Mex "MoorDynM_GetLineMaxTen" 1 1 [] "MoorDyn_GetLineMaxTen" [GInst; GDbl] CheckCode [ODbl 1];
  (** MoorDynM_GetLineN.cpp l.40-47 *) Mex "MoorDynM_GetLineN" 1 1 [] "MoorDyn_GetLineN" [GInst; GInt] CheckCode [ONum KUInt64 1];
  (** MoorDynM_GetLineNodeBendStiff.cpp l.40-50 *) Mex "MoorDynM_GetLineNodeBendStiff" 2 1 [RInt 1] "MoorDyn_GetLineNodeBendStiff" [GInst; GRead 0; GVec (Fixed 3)] CheckCode [ORow 2];
  (** MoorDynM_GetLineNodeCurv.cpp l.40-49 *) Mex "MoorDynM_GetLineNodeCurv" 2 1 [RInt 1] "MoorDyn_GetLineNodeCurv" [GInst; GRead 0; GDbl] CheckCode [ODbl 2];
  (** MoorDynM_GetLineNodeDrag.cpp l.40-50 *) Mex "MoorDynM_GetLineNodeDrag" 2 1 [RInt 1] "MoorDyn_GetLineNodeDrag" [GInst; GRead 0; GVec (Fixed 3)] CheckCode [ORow 2];
  (** MoorDynM_GetLineNodeForce.cpp l.40-50 *) Mex "MoorDynM_GetLineNodeForce" 2 1 [RInt 1] "MoorDyn_GetLineNodeForce" [GInst; GRead 0; GVec (Fixed 3)] CheckCode [ORow 2];
  (** MoorDynM_GetLineNodeFroudeKrilov.cpp l.40-50 *) Mex "MoorDynM_GetLineNodeFroudeKrilov" 2 1 [RInt 1] "MoorDyn_GetLineNodeFroudeKrilov" [GInst; GRead 0; GVec (Fixed 3)] CheckCode [ORow 2];
  (** MoorDynM_GetLineNodeM.cpp l.40-50 *) Mex "MoorDynM_GetLineNodeM" 2 1 [RInt 1] "MoorDyn_GetLineNodeM" [GInst; GRead 0; GVec (Fixed 9)] CheckCode [OMat 3 2];
  (** MoorDynM_GetLineNodePos.cpp l.40-50 *) Mex "MoorDynM_GetLineNodePos" 2 1 [RInt 1] "MoorDyn_GetLineNodePos" [GInst; GRead 0; GVec (Fixed 3)] CheckCode [ORow 2];
  (** MoorDynM_GetLineNodeSeabedForce.cpp l.40-50 *) Mex "MoorDynM_GetLineNodeSeabedForce" 2 1 [RInt 1] "MoorDyn_GetLineNodeSeabedForce" [GInst; GRead 0; GVec (Fixed 3)] CheckCode [ORow 2];
  (** MoorDynM_GetLineNodeTen.cpp l.40-50 *) Mex "MoorDynM_GetLineNodeTen" 2 1 [RInt 1] "MoorDyn_GetLineNodeTen" [GInst; GRead 0; GVec (Fixed 3)] CheckCode [ORow 2];
  (** MoorDynM_GetLineNodeVel.cpp l.40-50 *) Mex "MoorDynM_GetLineNodeVel" 2 1 [RInt 1] "MoorDyn_GetLineNodeVel" [GInst; GRead 0; GVec (Fixed 3)] CheckCode [ORow 2];
  (** MoorDynM_GetLineNodeWeight.cpp l.40-50 *) Mex "MoorDynM_GetLineNodeWeight" 2 1 [RInt 1] "MoorDyn_GetLineNodeWeight" [GInst; GRead 0; GVec (Fixed 3)] CheckCode [ORow 2];
  (** MoorDynM_GetLineNumberNodes.cpp l.40-47 *) Mex "MoorDynM_GetLineNumberNodes" 1 1 [] "MoorDyn_GetLineNumberNodes" [GInst; GInt] CheckCode [ONum KUInt64 1];
  (** MoorDynM_GetLineUnstrechedLength.cpp l.40-47 *) Mex "MoorDynM_GetLineUnstrechedLength" 1 1 [] "MoorDyn_GetLineUnstretchedLength" [GInst; GDbl] CheckCode [ODbl 1];
  (** MoorDynM_GetMinDepth.cpp l.40-47 *) Mex "MoorDynM_GetMinDepth" 1 1 [] "MoorDyn_GetMinDepth" [GInst; GDbl] CheckCode [ODbl 1];
  (** MoorDynM_GetNumberBodies.cpp l.40-47 *) Mex "MoorDynM_GetNumberBodies" 1 1 [] "MoorDyn_GetNumberBodies" [GInst; GInt] CheckCode [ONum KUInt64 1];
  (** MoorDynM_GetNumberLines.cpp l.40-47 *) Mex "MoorDynM_GetNumberLines" 1 1 [] "MoorDyn_GetNumberLines" [GInst; GInt] CheckCode [ONum KUInt64 1];
  (** MoorDynM_GetNumberPoints.cpp l.40-47 *) Mex "MoorDynM_GetNumberPoints" 1 1 [] "MoorDyn_GetNumberPoints" [GInst; GInt] CheckCode [ONum KUInt64 1];
  (** MoorDynM_GetNumberRods.cpp l.40-47 *) Mex "MoorDynM_GetNumberRods" 1 1 [] "MoorDyn_GetNumberRods" [GInst; GInt] CheckCode [ONum KUInt64 1];
  (** MoorDynM_GetPoint.cpp l.40-52 *) Mex "MoorDynM_GetPoint" 2 1 [RInt 1] "MoorDyn_GetPoint" [GInst; GRead 0] CheckObj [ORet];
  (** MoorDynM_GetPointAttached.cpp l.40-51 *) Mex "MoorDynM_GetPointAttached" 2 2 [RInt 1] "MoorDyn_GetPointAttached" [GInst; GRead 0; GObj; GInt] CheckCode [ONum KUInt64 2; ONum KInt64 3];
  (** MoorDynM_GetPointForce.cpp l.40-49 *) Mex "MoorDynM_GetPointForce" 1 1 [] "MoorDyn_GetPointForce" [GInst; GVec (Fixed 3)] CheckCode [ORow 1];
  (** MoorDynM_GetPointID.cpp l.40-47 *) Mex "MoorDynM_GetPointID" 1 1 [] "MoorDyn_GetPointID" [GInst; GInt] CheckCode [ONum KInt64 1];
  (** MoorDynM_GetPointM.cpp l.40-49 *) Mex "MoorDynM_GetPointM" 1 1 [] "MoorDyn_GetPointM" [GInst; GVec (Fixed 9)] CheckCode [OMat 3 1];
  (** MoorDynM_GetPointNAttached.cpp l.40-47 *) Mex "MoorDynM_GetPointNAttached" 1 1 [] "MoorDyn_GetPointNAttached" [GInst; GInt] CheckCode [ONum KUInt64 1];
  (** MoorDynM_GetPointPos.cpp l.40-49 *) Mex "MoorDynM_GetPointPos" 1 1 [] "MoorDyn_GetPointPos" [GInst; GVec (Fixed 3)] CheckCode [ORow 1];
  (** MoorDynM_GetPointType.cpp l.40-47 *) Mex "MoorDynM_GetPointType" 1 1 [] "MoorDyn_GetPointType" [GInst; GInt] CheckCode [ONum KInt64 1];
  (** MoorDynM_GetPointVel.cpp l.40-49 *) Mex "MoorDynM_GetPointVel" 1 1 [] "MoorDyn_GetPointVel" [GInst; GVec (Fixed 3)] CheckCode [ORow 1];
  (** MoorDynM_GetRod.cpp l.40-52 *) Mex "MoorDynM_GetRod" 2 1 [RInt 1] "MoorDyn_GetRod" [GInst; GRead 0] CheckObj [ORet];
  (** MoorDynM_GetRodForce.cpp l.40-49 *) Mex "MoorDynM_GetRodForce" 1 1 [] "MoorDyn_GetRodForce" [GInst; GVec (Fixed 6)] CheckCode [ORow 1];
  (** MoorDynM_GetRodID.cpp l.40-47 *) Mex "MoorDynM_GetRodID" 1 1 [] "MoorDyn_GetRodID" [GInst; GInt] CheckCode [ONum KInt64 1];
  (** MoorDynM_GetRodM.cpp l.40-49 *) Mex "MoorDynM_GetRodM" 1 1 [] "MoorDyn_GetRodM" [GInst; GVec (Fixed 36)] CheckCode [OMat 6 1];
  (** MoorDynM_GetRodN.cpp l.40-47 *) Mex "MoorDynM_GetRodN" 1 1 [] "MoorDyn_GetRodN" [GInst; GInt] CheckCode [ONum KUInt64 1];
  (** MoorDynM_GetRodNodePos.cpp l.40-50 *) Mex "MoorDynM_GetRodNodePos" 2 1 [RInt 1] "MoorDyn_GetRodNodePos" [GInst; GRead 0; GVec (Fixed 3)] CheckCode [ORow 2];
  (** MoorDynM_GetRodNodeVel.cpp l.40-50 *) Mex "MoorDynM_GetRodNodeVel" 2 1 [RInt 1] "MoorDyn_GetRodNodeVel" [GInst; GRead 0; GVec (Fixed 3)] CheckCode [ORow 2];
  (** MoorDynM_GetRodNumberNodes.cpp l.40-47 *) Mex "MoorDynM_GetRodNumberNodes" 1 1 [] "MoorDyn_GetRodNumberNodes" [GInst; GInt] CheckCode [ONum KUInt64 1];
  (** MoorDynM_GetRodType.cpp l.40-47 *) Mex "MoorDynM_GetRodType" 1 1 [] "MoorDyn_GetRodType" [GInst; GInt] CheckCode [ONum KInt64 1];
  (** MoorDynM_GetSeafloor.cpp l.40-45 *) Mex "MoorDynM_GetSeafloor" 1 1 [] "MoorDyn_GetSeafloor" [GInst] NoCheck [ORet];
  (** MoorDynM_GetWaves.cpp l.40-51 *) Mex "MoorDynM_GetWaves" 1 1 [] "MoorDyn_GetWaves" [GInst] CheckObj [ORet];
  (** MoorDynM_GetWavesKin.cpp l.40-61 *) Mex "MoorDynM_GetWavesKin" 5 4 [RDbl 1; RDbl 2; RDbl 3; RObj 4] "MoorDyn_GetWavesKin" [GInst; GRead 0; GRead 1; GRead 2; GVec (Fixed 3); GVec (Fixed 3); GDbl; GDbl; GRead 3] CheckCode [ORow 4; ORow 5; ODbl 6; ODbl 7];
  (** MoorDynM_Init.cpp l.40-49 *) Mex "MoorDynM_Init" 3 0 [RVec 1; RVec 2] "MoorDyn_Init" [GInst; GRead 0; GRead 1] CheckCode [];
  (** MoorDynM_Init_NoIC.cpp l.40-49 *) Mex "MoorDynM_Init_NoIC" 3 0 [RVec 1; RVec 2] "MoorDyn_Init_NoIC" [GInst; GRead 0; GRead 1] CheckCode [];
  (** MoorDynM_IsLineConstantEA.cpp l.40-47 *) Mex "MoorDynM_IsLineConstantEA" 1 1 [] "MoorDyn_IsLineConstantEA" [GInst; GInt] CheckCode [ONum KInt64 1];
  (** MoorDynM_IsLinePressBend.cpp l.40-47 *) Mex "MoorDynM_IsLinePressBend" 1 1 [] "MoorDyn_IsLinePressBend" [GInst; GInt] CheckCode [ONum KInt32 1];
  (** MoorDynM_Load.cpp l.40-47 *) Mex "MoorDynM_Load" 2 0 [RStr 0] "MoorDyn_Load" [GInst; GRead 0] CheckCode [];
  (** MoorDynM_Log.cpp l.40-48 *) Mex "MoorDynM_Log" 3 0 [RInt 1; RStr 2] "MoorDyn_Log" [GInst; GRead 0; GRead 1] CheckCode [];
  (** MoorDynM_NCoupledDOF.cpp l.40-47 *) Mex "MoorDynM_NCoupledDOF" 1 1 [] "MoorDyn_NCoupledDOF" [GInst; GInt] CheckCode [ONum KUInt64 1];
  (** MoorDynM_Save.cpp l.40-47 *) Mex "MoorDynM_Save" 2 0 [RStr 0] "MoorDyn_Save" [GInst; GRead 0] CheckCode [];
  (** MoorDynM_SaveBodyVTK.cpp l.40-47 *) Mex "MoorDynM_SaveBodyVTK" 2 0 [RStr 0] "MoorDyn_SaveBodyVTK" [GInst; GRead 0] CheckCode [];
  (** MoorDynM_SaveConnectVTK.cpp l.40-47 *) Mex "MoorDynM_SaveConnectVTK" 2 0 [RStr 1] "MoorDyn_SavePointVTK" [GInst; GRead 0] CheckCode [];
  (** MoorDynM_SaveLineVTK.cpp l.40-47 *) Mex "MoorDynM_SaveLineVTK" 2 0 [RStr 0] "MoorDyn_SaveLineVTK" [GInst; GRead 0] CheckCode [];
  (** MoorDynM_SaveRodVTK.cpp l.40-47 *) Mex "MoorDynM_SaveRodVTK" 2 0 [RStr 0] "MoorDyn_SaveRodVTK" [GInst; GRead 0] CheckCode [];
  (** MoorDynM_SaveVTK.cpp l.40-47 *) Mex "MoorDynM_SaveVTK" 2 0 [RStr 0] "MoorDyn_SaveVTK" [GInst; GRead 0] CheckCode [];
  (** MoorDynM_SetLineConstantEA.cpp l.40-46 *) Mex "MoorDynM_SetLineConstantEA" 2 0 [RDbl 1] "MoorDyn_SetLineConstantEA" [GInst; GRead 0] CheckCode [];
  (** MoorDynM_SetLinePressBend.cpp l.40-46 *) Mex "MoorDynM_SetLinePressBend" 2 0 [RInt 1] "MoorDyn_SetLinePressBend" [GInst; GRead 0] CheckCode [];
  (** MoorDynM_SetLinePressInt.cpp l.40-47 *) Mex "MoorDynM_SetLinePressInt" 2 0 [RVec 1] "MoorDyn_SetLinePressInt" [GInst; GRead 0] CheckCode [];
  (** MoorDynM_SetLogFile.cpp l.40-47 *) Mex "MoorDynM_SetLogFile" 2 0 [RStr 0] "MoorDyn_SetLogFile" [GInst; GRead 0] CheckCode [];
  (** MoorDynM_SetLogLevel.cpp l.40-46 *) Mex "MoorDynM_SetLogLevel" 2 0 [RInt 1] "MoorDyn_SetLogLevel" [GInst; GRead 0] CheckCode [];
  (** MoorDynM_SetVerbosity.cpp l.40-46 *) Mex "MoorDynM_SetVerbosity" 2 0 [RInt 1] "MoorDyn_SetVerbosity" [GInst; GRead 0] CheckCode [];
  (** MoorDynM_Step.cpp l.40-58 *) Mex "MoorDynM_Step" 5 2 [RVec 1; RVec 2; RDbl 3; RDbl 4] "MoorDyn_Step" [GInst; GRead 0; GRead 1; GVec (SizeOf 0); GRef 2; GRef 3] CheckCode [ODbl 4; ORow 3];
  (** MoorDynM_UseBodyVTK.cpp l.40-47 *) Mex "MoorDynM_UseBodyVTK" 2 0 [RStr 0] "MoorDyn_UseBodyVTK" [GInst; GRead 0] CheckCode []
].

Section Mex.
(** doubles *)
Variable F : Type.
(** what the library keeps for itself *)
Variable S : Type.
(** an int of a double, a double of an int, and zero *)
Variable trunc : F -> Z.
Variable ofint : Z -> F.
Variable fzero : F.

(** an element of an array *)
Inductive elem := EZ (z : Z) | EF (f : F).
(** an array: its class, its rows and columns, its elements column after column *)
Record marr := MArr { a_cls : cls; a_rows : nat; a_cols : nat; a_data : list elem }.
(** what a C function gets: a number, a double, characters, doubles, a handle, or the address of something that comes
    back *)
Inductive cin := IInt (z : Z) | IDbl (f : F) | IStr (l : list Z) | IArr (l : list F) | IObj (z : Z) | IOut.
(** what a C function answers: an error code, the handle returned, the system, and the ints, handles and doubles it
    writes at its arguments *)
Record cres := CRes { q_err : Z; q_obj : Z; q_sys : S; q_num : nat -> Z; q_dbl : nat -> nat -> F }.
Variable lib : string -> S -> list cin -> cres.
Variable reach : string -> S -> list cin -> nat -> nat.

(** how a call ends: with outputs, with an error, or with a read or a write beyond the end of a vector *)
Inductive mres := MVal (l : list marr) (s : S) | MErr (s : S) | MUB.

(** whether the elements are numbers *)
Definition numeric (c : cls) : bool := match c with KChar | KOther => false | _ => true end.
(** the first element as an int or a double, as in const int i = inputs[1][0] *)
Definition first_int (a : marr) : option Z :=
  if numeric (a_cls a) then match a_data a with EZ z :: _ => Some z | EF f :: _ => Some (trunc f) | [] => None end else None.
Definition first_dbl (a : marr) : option F :=
  if numeric (a_cls a) then match a_data a with EZ z :: _ => Some (ofint z) | EF f :: _ => Some f | [] => None end else None.
Fixpoint codes (l : list elem) : option (list Z) :=
  match l with [] => Some [] | EZ z :: r => match codes r with Some q => Some (z :: q) | None => None end | _ => None end.
Fixpoint reals (l : list elem) : option (list F) :=
  match l with [] => Some [] | EF f :: r => match reals r with Some q => Some (f :: q) | None => None end | _ => None end.
(** an input read; CharArray and TypedArray of double refuse arrays of other classes *)
Definition read (ins : list marr) (r : mread) : option cin :=
  match r with
  | RInt k => match nth_error ins k with Some a => match first_int a with Some z => Some (IInt z) | None => None end | None => None end
  | RDbl k => match nth_error ins k with Some a => match first_dbl a with Some f => Some (IDbl f) | None => None end | None => None end
  | RObj k => match nth_error ins k with Some a => match first_int a with Some z => Some (IObj z) | None => None end | None => None end
  | RStr k => match nth_error ins k with
              | Some a => match a_cls a with KChar => match codes (a_data a) with Some l => Some (IStr l) | None => None end | _ => None end
              | None => None end
  | RVec k => match nth_error ins k with
              | Some a => match a_cls a with KDouble => match reals (a_data a) with Some l => Some (IArr l) | None => None end | _ => None end
              | None => None end
  end.
Fixpoint reads (ins : list marr) (rs : list mread) : option (list cin) :=
  match rs with
  | [] => Some []
  | r :: rs => match read ins r, reads ins rs with Some v, Some vs => Some (v :: vs) | _, _ => None end
  end.
(** the length of a vector read *)
Definition vec_size (vs : list cin) (n : msize) : nat :=
  match n with Fixed n => n | SizeOf j => match nth_error vs j with Some (IArr l) => length l | _ => O end end.
(** what the C function gets for an argument *)
Definition hand (h : Z) (vs : list cin) (g : marg) : cin :=
  match g with
  | GInst => IObj h
  | GRead j | GRef j => match nth_error vs j with Some v => v | None => IOut end
  | GVec _ | GInt | GDbl | GObj => IOut
  end.
(** how many doubles there are behind an argument; None if it is not a vector *)
Definition room (vs : list cin) (g : marg) : option nat :=
  match g with
  | GVec n => Some (vec_size vs n)
  | GRead j => match nth_error vs j with Some (IArr l) => Some (length l) | _ => None end
  | _ => None
  end.
(** whether the C function stays within the vectors, from the k-th argument on *)
Fixpoint within (far : nat -> nat) (vs : list cin) (k : nat) (gs : list marg) : bool :=
  match gs with
  | [] => true
  | g :: gs => match room vs g with Some n => Nat.leb (far k) n | None => true end && within far vs (Datatypes.S k) gs
  end.
(** a vector of zeros after the call *)
Definition filled (q : cres) (far n k : nat) : list elem :=
  map (fun i => EF (if Nat.ltb i far then q_dbl q k i else fzero)) (seq 0 n).
(** an output *)
Definition output (q : cres) (far : nat -> nat) (vs : list cin) (gs : list marg) (o : mout) : marr :=
  let size k := match nth_error gs k with Some (GVec n) => vec_size vs n | _ => O end in
  match o with
  | ONum c k => MArr c 1 1 [EZ (q_num q k)]
  | ODbl k => MArr KDouble 1 1 [EF (q_dbl q k O)]
  | ORow k => MArr KDouble 1 (size k) (filled q (far k) (size k) k)
  | OMat n k => MArr KDouble n n (filled q (far k) (n * n) k)
  | ORet => MArr KUInt64 1 1 [EZ (q_obj q)]
  end.
(** wrappers/matlab/moordyn_matlab.h l.63-135, and the function between the two macros *)
Definition mexrun (x : mex) (n_out : nat) (ins : list marr) (s : S) : mres :=
  if negb (Nat.eqb (length ins) (x_in x)) then MErr s
  else if negb (Nat.eqb n_out (x_out x)) then MErr s
  else match nth_error ins 0 with
  | None => MErr s
  | Some a =>
      match first_int a with
      | None => MErr s
      | Some h =>
          match reads ins (x_reads x) with
          | None => MErr s
          | Some vs =>
              let gs := map (hand h vs) (x_args x) in
              let far := reach (x_fun x) s gs in
              if within far vs 0 (x_args x) then
                let q := lib (x_fun x) s gs in
                let bad := match x_check x with CheckCode => negb (q_err q =? 0) | CheckObj => q_obj q =? 0 | NoCheck => false end in
                if bad then MErr (q_sys q) else MVal (map (output q far vs (x_args x)) (x_outs x)) (q_sys q)
              else MUB
          end
      end
  end.
(** wrappers/matlab/MoorDynM_ExternalWaveKinGetCoordinates.cpp l.40-53: two calls, and a vector of three times the
    number the first one gives *)
Definition mexcoords (n_out : nat) (ins : list marr) (s : S) : mres :=
  if negb (Nat.eqb (length ins) 1) then MErr s
  else if negb (Nat.eqb n_out 1) then MErr s
  else match nth_error ins 0 with
  | None => MErr s
  | Some a =>
      match first_int a with
      | None => MErr s
      | Some h =>
          let q := lib "MoorDyn_ExternalWaveKinGetN" s [IObj h; IOut] in
          if negb (q_err q =? 0) then MErr (q_sys q)
          else
            let n := (3 * Z.to_nat (q_num q 1))%nat in
            let far := reach "MoorDyn_ExternalWaveKinGetCoordinates" (q_sys q) [IObj h; IOut] 1%nat in
            if Nat.leb far n then
              let r := lib "MoorDyn_ExternalWaveKinGetCoordinates" (q_sys q) [IObj h; IOut] in
              if negb (q_err r =? 0) then MErr (q_sys r)
              else MVal [MArr KDouble 1 n (filled r far n 1)] (q_sys r)
            else MUB
      end
  end.
(** wrappers/matlab/MoorDynM_Create.cpp l.44-84 *)
Definition mexcreate (n_out : nat) (ins : list marr) (s : S) : mres :=
  match ins with
  | [a] =>
      match a_cls a with
      | KChar =>
          if negb (Nat.eqb n_out 1) then MErr s
          else match codes (a_data a) with
          | None => MErr s
          | Some l =>
              let q := lib "MoorDyn_Create" s [IStr l] in
              if q_obj q =? 0 then MErr (q_sys q) else MVal [MArr KUInt64 1 1 [EZ (q_obj q)]] (q_sys q)
          end
      | _ => MErr s
      end
  | _ => MErr s
  end.
(** a call by the name of the function *)
Definition mcall (n : string) (n_out : nat) (ins : list marr) (s : S) : option mres :=
  if String.eqb n "MoorDynM_Create" then Some (mexcreate n_out ins s)
  else if String.eqb n "MoorDynM_ExternalWaveKinGetCoordinates" then Some (mexcoords n_out ins s)
  else match find (fun x => String.eqb (x_name x) n) mextable with
  | Some x => Some (mexrun x n_out ins s)
  | None => None
  end.
End Mex.
