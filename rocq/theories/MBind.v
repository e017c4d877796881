(** Model of the bindings for Fortran, wrappers/fortran/MoorDyn.f90, and for Rust, wrappers/rust/bindings.rs, and
    of the C prototypes they stand for: source/MoorDyn2.h, Waves.h, Seafloor.h, Body.h, Rod.h, Point.h, Line.h.

    A call through a binding puts values where the C function expects its arguments, as the declarations of the
    binding say; the C function takes them as its own prototype says. If the two disagree, in number or in kind,
    the behaviour is undefined. The library is the oracle [lib]: what a C function returns and leaves behind, for
    the values it gets. Simplifications: every variable and every element of an array takes one address; const is
    dropped; an array of arrays is an array; which object a pointer to an object is for is not looked at, as in
    Fortran all of them are type(c_ptr); int and unsigned int differ in nothing. *)
From Coq Require Import String Ascii ZArith List Arith Bool.
Import ListNotations.
Open Scope string_scope.
Open Scope Z_scope.

(** types in the C prototypes; source/MoorDyn2.h l.48 and the like make handles pointers to objects *)
Inductive cty := CInt | CUInt | CDbl | CFlt | CChar | CSize | CU64 | CObj (kind : string) | CPtr (t : cty).
(** a prototype: name, parameters, result *)
Record cproto := CProto { p_name : string; p_params : list cty; p_ret : cty }.

(** the C prototypes, at the places given *)
Definition cprotos : list cproto := [
  (** MoorDyn2.h l.74 *) CProto "MoorDyn_Create" [CPtr CChar] (CPtr (CObj "MoorDyn"));
  (** MoorDyn2.h l.83 *) CProto "MoorDyn_NCoupledDOF" [CPtr (CObj "MoorDyn"); CPtr CUInt] CInt;
  (** MoorDyn2.h l.97 *) CProto "MoorDyn_SetVerbosity" [CPtr (CObj "MoorDyn"); CInt] CInt;
  (** MoorDyn2.h l.105 *) CProto "MoorDyn_SetLogFile" [CPtr (CObj "MoorDyn"); CPtr CChar] CInt;
  (** MoorDyn2.h l.120 *) CProto "MoorDyn_SetLogLevel" [CPtr (CObj "MoorDyn"); CInt] CInt;
  (** MoorDyn2.h l.139 *) CProto "MoorDyn_Log" [CPtr (CObj "MoorDyn"); CInt; CPtr CChar] CInt;
  (** MoorDyn2.h l.157 *) CProto "MoorDyn_Init" [CPtr (CObj "MoorDyn"); CPtr CDbl; CPtr CDbl] CInt;
  (** MoorDyn2.h l.175-177 *) CProto "MoorDyn_Init_NoIC" [CPtr (CObj "MoorDyn"); CPtr CDbl; CPtr CDbl] CInt;
  (** MoorDyn2.h l.191-196 *) CProto "MoorDyn_Step" [CPtr (CObj "MoorDyn"); CPtr CDbl; CPtr CDbl; CPtr CDbl; CPtr CDbl; CPtr CDbl] CInt;
  (** MoorDyn2.h l.203 *) CProto "MoorDyn_Close" [CPtr (CObj "MoorDyn")] CInt;
  (** MoorDyn2.h l.212 *) CProto "MoorDyn_GetWaves" [CPtr (CObj "MoorDyn")] (CPtr (CObj "MoorDynWaves"));
  (** MoorDyn2.h l.222 *) CProto "MoorDyn_GetSeafloor" [CPtr (CObj "MoorDyn")] (CPtr (CObj "MoorDynSeafloor"));
  (** MoorDyn2.h l.239 *) CProto "MoorDyn_ExternalWaveKinInit" [CPtr (CObj "MoorDyn"); CPtr CUInt] CInt;
  (** MoorDyn2.h l.251 *) CProto "MoorDyn_ExternalWaveKinGetN" [CPtr (CObj "MoorDyn"); CPtr CUInt] CInt;
  (** MoorDyn2.h l.265-266 *) CProto "MoorDyn_ExternalWaveKinGetCoordinates" [CPtr (CObj "MoorDyn"); CPtr CDbl] CInt;
  (** MoorDyn2.h l.298-301 *) CProto "MoorDyn_ExternalWaveKinSet" [CPtr (CObj "MoorDyn"); CPtr CDbl; CPtr CDbl; CDbl] CInt;
  (** MoorDyn2.h l.335 *) CProto "MoorDyn_GetNumberBodies" [CPtr (CObj "MoorDyn"); CPtr CUInt] CInt;
  (** MoorDyn2.h l.344 *) CProto "MoorDyn_GetBody" [CPtr (CObj "MoorDyn"); CUInt] (CPtr (CObj "MoorDynBody"));
  (** MoorDyn2.h l.354 *) CProto "MoorDyn_GetNumberRods" [CPtr (CObj "MoorDyn"); CPtr CUInt] CInt;
  (** MoorDyn2.h l.361 *) CProto "MoorDyn_GetRod" [CPtr (CObj "MoorDyn"); CUInt] (CPtr (CObj "MoorDynRod"));
  (** MoorDyn2.h l.371 *) CProto "MoorDyn_GetNumberPoints" [CPtr (CObj "MoorDyn"); CPtr CUInt] CInt;
  (** MoorDyn2.h l.378 *) CProto "MoorDyn_GetPoint" [CPtr (CObj "MoorDyn"); CUInt] (CPtr (CObj "MoorDynPoint"));
  (** MoorDyn2.h l.388 *) CProto "MoorDyn_GetNumberLines" [CPtr (CObj "MoorDyn"); CPtr CUInt] CInt;
  (** MoorDyn2.h l.395 *) CProto "MoorDyn_GetLine" [CPtr (CObj "MoorDyn"); CUInt] (CPtr (CObj "MoorDynLine"));
  (** MoorDyn2.h l.411-416 *) CProto "MoorDyn_GetFASTtens" [CPtr (CObj "MoorDyn"); CPtr CInt; CPtr CFlt; CPtr CFlt; CPtr CFlt; CPtr CFlt] CInt;
  (** MoorDyn2.h l.424 *) CProto "MoorDyn_GetDt" [CPtr (CObj "MoorDyn"); CPtr CDbl] CInt;
  (** MoorDyn2.h l.432 *) CProto "MoorDyn_SetDt" [CPtr (CObj "MoorDyn"); CDbl] CInt;
  (** MoorDyn2.h l.440 *) CProto "MoorDyn_GetCFL" [CPtr (CObj "MoorDyn"); CPtr CDbl] CInt;
  (** MoorDyn2.h l.448 *) CProto "MoorDyn_SetCFL" [CPtr (CObj "MoorDyn"); CDbl] CInt;
  (** MoorDyn2.h l.457-459 *) CProto "MoorDyn_GetTimeScheme" [CPtr (CObj "MoorDyn"); CPtr CChar; CPtr CSize] CInt;
  (** MoorDyn2.h l.467 *) CProto "MoorDyn_SetTimeScheme" [CPtr (CObj "MoorDyn"); CPtr CChar] CInt;
  (** MoorDyn2.h l.483 *) CProto "MoorDyn_Serialize" [CPtr (CObj "MoorDyn"); CPtr CSize; CPtr CU64] CInt;
  (** MoorDyn2.h l.496 *) CProto "MoorDyn_Deserialize" [CPtr (CObj "MoorDyn"); CPtr CU64] CInt;
  (** MoorDyn2.h l.509 *) CProto "MoorDyn_Save" [CPtr (CObj "MoorDyn"); CPtr CChar] CInt;
  (** MoorDyn2.h l.522 *) CProto "MoorDyn_Load" [CPtr (CObj "MoorDyn"); CPtr CChar] CInt;
  (** MoorDyn2.h l.539 *) CProto "MoorDyn_SaveVTK" [CPtr (CObj "MoorDyn"); CPtr CChar] CInt;
  (** Waves.h l.69-77 *) CProto "MoorDyn_GetWavesKin" [CPtr (CObj "MoorDynWaves"); CDbl; CDbl; CDbl; CPtr CDbl; CPtr CDbl; CPtr CDbl; CPtr CDbl; CPtr (CObj "MoorDynSeafloor")] CInt;
  (** Waves.h l.86 *) CProto "WaveNumber" [CDbl; CDbl; CDbl] CDbl;
  (** Seafloor.h l.24-27 *) CProto "MoorDyn_GetDepthAt" [CPtr (CObj "MoorDynSeafloor"); CDbl; CDbl; CPtr CDbl] CInt;
  (** Seafloor.h l.38-39 *) CProto "MoorDyn_GetAverageDepth" [CPtr (CObj "MoorDynSeafloor"); CPtr CDbl] CInt;
  (** Seafloor.h l.47 *) CProto "MoorDyn_GetMinDepth" [CPtr (CObj "MoorDynSeafloor"); CPtr CDbl] CInt;
  (** Body.h l.56 *) CProto "MoorDyn_GetBodyID" [CPtr (CObj "MoorDynBody"); CPtr CInt] CInt;
  (** Body.h l.65 *) CProto "MoorDyn_GetBodyType" [CPtr (CObj "MoorDynBody"); CPtr CInt] CInt;
  (** Body.h l.74 *) CProto "MoorDyn_GetBodyState" [CPtr (CObj "MoorDynBody"); CPtr CDbl; CPtr CDbl] CInt;
  (** Body.h l.82 *) CProto "MoorDyn_GetBodyPos" [CPtr (CObj "MoorDynBody"); CPtr CDbl] CInt;
  (** Body.h l.90 *) CProto "MoorDyn_GetBodyAngle" [CPtr (CObj "MoorDynBody"); CPtr CDbl] CInt;
  (** Body.h l.98 *) CProto "MoorDyn_GetBodyVel" [CPtr (CObj "MoorDynBody"); CPtr CDbl] CInt;
  (** Body.h l.106 *) CProto "MoorDyn_GetBodyAngVel" [CPtr (CObj "MoorDynBody"); CPtr CDbl] CInt;
  (** Body.h l.114 *) CProto "MoorDyn_GetBodyForce" [CPtr (CObj "MoorDynBody"); CPtr CDbl] CInt;
  (** Body.h l.122 *) CProto "MoorDyn_GetBodyM" [CPtr (CObj "MoorDynBody"); CPtr CDbl] CInt;
  (** Body.h l.133 *) CProto "MoorDyn_SaveBodyVTK" [CPtr (CObj "MoorDynBody"); CPtr CChar] CInt;
  (** Body.h l.150 *) CProto "MoorDyn_UseBodyVTK" [CPtr (CObj "MoorDynBody"); CPtr CChar] CInt;
  (** Rod.h l.56 *) CProto "MoorDyn_GetRodID" [CPtr (CObj "MoorDynRod"); CPtr CInt] CInt;
  (** Rod.h l.64 *) CProto "MoorDyn_GetRodType" [CPtr (CObj "MoorDynRod"); CPtr CInt] CInt;
  (** Rod.h l.73 *) CProto "MoorDyn_GetRodForce" [CPtr (CObj "MoorDynRod"); CPtr CDbl] CInt;
  (** Rod.h l.81 *) CProto "MoorDyn_GetRodM" [CPtr (CObj "MoorDynRod"); CPtr CDbl] CInt;
  (** Rod.h l.91 *) CProto "MoorDyn_GetRodN" [CPtr (CObj "MoorDynRod"); CPtr CUInt] CInt;
  (** Rod.h l.100 *) CProto "MoorDyn_GetRodNumberNodes" [CPtr (CObj "MoorDynRod"); CPtr CUInt] CInt;
  (** Rod.h l.109-111 *) CProto "MoorDyn_GetRodNodePos" [CPtr (CObj "MoorDynRod"); CUInt; CPtr CDbl] CInt;
  (** Rod.h l.120-122 *) CProto "MoorDyn_GetRodNodeVel" [CPtr (CObj "MoorDynRod"); CUInt; CPtr CDbl] CInt;
  (** Rod.h l.133 *) CProto "MoorDyn_SaveRodVTK" [CPtr (CObj "MoorDynRod"); CPtr CChar] CInt;
  (** Point.h l.58 *) CProto "MoorDyn_GetPointID" [CPtr (CObj "MoorDynPoint"); CPtr CInt] CInt;
  (** Point.h l.67 *) CProto "MoorDyn_GetPointType" [CPtr (CObj "MoorDynPoint"); CPtr CInt] CInt;
  (** Point.h l.76 *) CProto "MoorDyn_GetPointPos" [CPtr (CObj "MoorDynPoint"); CPtr CDbl] CInt;
  (** Point.h l.85 *) CProto "MoorDyn_GetPointVel" [CPtr (CObj "MoorDynPoint"); CPtr CDbl] CInt;
  (** Point.h l.94 *) CProto "MoorDyn_GetPointForce" [CPtr (CObj "MoorDynPoint"); CPtr CDbl] CInt;
  (** Point.h l.103 *) CProto "MoorDyn_GetPointM" [CPtr (CObj "MoorDynPoint"); CPtr CDbl] CInt;
  (** Point.h l.112 *) CProto "MoorDyn_GetPointNAttached" [CPtr (CObj "MoorDynPoint"); CPtr CUInt] CInt;
  (** Point.h l.123-126 *) CProto "MoorDyn_GetPointAttached" [CPtr (CObj "MoorDynPoint"); CUInt; CPtr (CPtr (CObj "MoorDynLine")); CPtr CInt] CInt;
  (** Point.h l.137 *) CProto "MoorDyn_SavePointVTK" [CPtr (CObj "MoorDynPoint"); CPtr CChar] CInt;
  (** Line.h l.56 *) CProto "MoorDyn_GetLineID" [CPtr (CObj "MoorDynLine"); CPtr CInt] CInt;
  (** Line.h l.66 *) CProto "MoorDyn_GetLineN" [CPtr (CObj "MoorDynLine"); CPtr CUInt] CInt;
  (** Line.h l.75 *) CProto "MoorDyn_GetLineNumberNodes" [CPtr (CObj "MoorDynLine"); CPtr CUInt] CInt;
  (** Line.h l.84 *) CProto "MoorDyn_GetLineUnstretchedLength" [CPtr (CObj "MoorDynLine"); CPtr CDbl] CInt;
  (** Line.h l.93 *) CProto "MoorDyn_SetLineUnstretchedLength" [CPtr (CObj "MoorDynLine"); CDbl] CInt;
  (** Line.h l.103 *) CProto "MoorDyn_SetLineUnstretchedLengthVel" [CPtr (CObj "MoorDynLine"); CDbl] CInt;
  (** Line.h l.115 *) CProto "MoorDyn_IsLineConstantEA" [CPtr (CObj "MoorDynLine"); CPtr CInt] CInt;
  (** Line.h l.127 *) CProto "MoorDyn_GetLineConstantEA" [CPtr (CObj "MoorDynLine"); CPtr CDbl] CInt;
  (** Line.h l.139 *) CProto "MoorDyn_SetLineConstantEA" [CPtr (CObj "MoorDynLine"); CDbl] CInt;
  (** Line.h l.149 *) CProto "MoorDyn_IsLinePressBend" [CPtr (CObj "MoorDynLine"); CPtr CInt] CInt;
  (** Line.h l.160 *) CProto "MoorDyn_SetLinePressBend" [CPtr (CObj "MoorDynLine"); CInt] CInt;
  (** Line.h l.171 *) CProto "MoorDyn_SetLinePressInt" [CPtr (CObj "MoorDynLine"); CPtr CDbl] CInt;
  (** Line.h l.180-182 *) CProto "MoorDyn_GetLineNodePos" [CPtr (CObj "MoorDynLine"); CUInt; CPtr CDbl] CInt;
  (** Line.h l.191-193 *) CProto "MoorDyn_GetLineNodeVel" [CPtr (CObj "MoorDynLine"); CUInt; CPtr CDbl] CInt;
  (** Line.h l.212-214 *) CProto "MoorDyn_GetLineNodeForce" [CPtr (CObj "MoorDynLine"); CUInt; CPtr CDbl] CInt;
  (** Line.h l.243-245 *) CProto "MoorDyn_GetLineNodeTen" [CPtr (CObj "MoorDynLine"); CUInt; CPtr CDbl] CInt;
  (** Line.h l.267-269 *) CProto "MoorDyn_GetLineNodeBendStiff" [CPtr (CObj "MoorDynLine"); CUInt; CPtr CDbl] CInt;
  (** Line.h l.294-296 *) CProto "MoorDyn_GetLineNodeWeight" [CPtr (CObj "MoorDynLine"); CUInt; CPtr CDbl] CInt;
  (** Line.h l.335-337 *) CProto "MoorDyn_GetLineNodeDrag" [CPtr (CObj "MoorDynLine"); CUInt; CPtr CDbl] CInt;
  (** Line.h l.379-381 *) CProto "MoorDyn_GetLineNodeFroudeKrilov" [CPtr (CObj "MoorDynLine"); CUInt; CPtr CDbl] CInt;
  (** Line.h l.413-415 *) CProto "MoorDyn_GetLineNodeSeabedForce" [CPtr (CObj "MoorDynLine"); CUInt; CPtr CDbl] CInt;
  (** Line.h l.427-429 *) CProto "MoorDyn_GetLineNodeCurv" [CPtr (CObj "MoorDynLine"); CUInt; CPtr CDbl] CInt;
  (** Line.h l.440-442 *) CProto "MoorDyn_GetLineNodeM" [CPtr (CObj "MoorDynLine"); CUInt; CPtr CDbl] CInt;
  (** Line.h l.450 *) CProto "MoorDyn_GetLineFairTen" [CPtr (CObj "MoorDynLine"); CPtr CDbl] CInt;
  (** Line.h l.458 *) CProto "MoorDyn_GetLineMaxTen" [CPtr (CObj "MoorDynLine"); CPtr CDbl] CInt;
  (** Line.h l.469 *) CProto "MoorDyn_SaveLineVTK" [CPtr (CObj "MoorDynLine"); CPtr CChar] CInt
].

(** types of wrappers/fortran/MoorDyn.f90: integer(c_int), real(c_double), type(c_ptr), character(kind=c_char) *)
Inductive fty := FInt | FDbl | FPtr | FChar.
(** a dummy argument with the attribute value, or without it: then its address is handed over *)
Inductive fpass := ByVal (t : fty) | ByRef (t : fty).
(** a function of the interface block: its name, the symbol it is bound to, its dummy arguments and its result *)
Record fiface := FIface { i_name : string; i_symbol : string; i_dummies : list fpass; i_ret : fty }.
(** wrappers/fortran/MoorDyn.f90 l.78-702, at the lines given; f(star) of characters is ByRef FChar *)
Definition ifaces : list fiface := [
  (** l.84-88 *) FIface "MoorDyn_Create" "MoorDyn_Create" [ByRef FChar] FPtr;
  (** l.90-94 *) FIface "MD_NCoupledDOF" "MoorDyn_NCoupledDOF" [ByVal FPtr; ByRef FInt] FInt;
  (** l.96-100 *) FIface "MD_SetVerbosity" "MD_SetVerbosity" [ByVal FPtr; ByRef FInt] FInt;
  (** l.102-107 *) FIface "MoorDyn_SetLogFile" "MoorDyn_SetLogFile" [ByVal FPtr; ByRef FChar] FInt;
  (** l.109-113 *) FIface "MD_SetLogLevel" "MoorDyn_SetLogLevel" [ByVal FPtr; ByRef FInt] FInt;
  (** l.115-121 *) FIface "MoorDyn_Log" "MoorDyn_Log" [ByVal FPtr; ByRef FInt; ByRef FChar] FInt;
  (** l.123-129 *) FIface "MoorDyn_Init" "MoorDyn_Init" [ByVal FPtr; ByVal FPtr; ByVal FPtr] FInt;
  (** l.131-137 *) FIface "MoorDyn_Init_NoIC" "MoorDyn_Init_NoIC" [ByVal FPtr; ByVal FPtr; ByVal FPtr] FInt;
  (** l.139-148 *) FIface "MoorDyn_Step" "MoorDyn_Step" [ByVal FPtr; ByVal FPtr; ByVal FPtr; ByVal FPtr; ByRef FDbl; ByRef FDbl] FInt;
  (** l.150-153 *) FIface "MD_Close" "MoorDyn_Close" [ByVal FPtr] FInt;
  (** l.155-158 *) FIface "MD_GetWaves" "MoorDyn_GetWaves" [ByVal FPtr] FPtr;
  (** l.160-163 *) FIface "MD_GetSeafloor" "MoorDyn_GetSeafloor" [ByVal FPtr] FPtr;
  (** l.165-169 *) FIface "MD_ExternalWaveKinInit" "MoorDyn_ExternalWaveKinInit" [ByVal FPtr; ByRef FInt] FInt;
  (** l.171-175 *) FIface "MD_ExternalWaveKinGetN" "MoorDyn_ExternalWaveKinGetN" [ByVal FPtr; ByRef FInt] FInt;
  (** l.177-182 *) FIface "MoorDyn_ExternalWaveKinGetCoordinates" "MoorDyn_ExternalWaveKinGetCoordinates" [ByVal FPtr; ByVal FPtr] FInt;
  (** l.184-191 *) FIface "MoorDyn_ExternalWaveKinSet" "MoorDyn_ExternalWaveKinSet" [ByVal FPtr; ByVal FPtr; ByVal FPtr; ByRef FDbl] FInt;
  (** l.193-197 *) FIface "MD_GetNumberBodies" "MoorDyn_GetNumberBodies" [ByVal FPtr; ByRef FInt] FInt;
  (** l.199-203 *) FIface "MD_GetBody" "MoorDyn_GetBody" [ByVal FPtr; ByVal FInt] FPtr;
  (** l.205-209 *) FIface "MD_GetNumberRods" "MoorDyn_GetNumberRods" [ByVal FPtr; ByRef FInt] FInt;
  (** l.211-215 *) FIface "MD_GetRod" "MoorDyn_GetRod" [ByVal FPtr; ByVal FInt] FPtr;
  (** l.217-221 *) FIface "MD_GetNumberPoints" "MoorDyn_GetNumberPoints" [ByVal FPtr; ByRef FInt] FInt;
  (** l.223-227 *) FIface "MD_GetPoint" "MoorDyn_GetPoint" [ByVal FPtr; ByVal FInt] FPtr;
  (** l.229-233 *) FIface "MD_GetNumberLines" "MoorDyn_GetNumberLines" [ByVal FPtr; ByRef FInt] FInt;
  (** l.235-239 *) FIface "MD_GetLine" "MoorDyn_GetLine" [ByVal FPtr; ByVal FInt] FPtr;
  (** l.241-250 *) FIface "MoorDyn_GetFASTtens" "MoorDyn_GetFASTtens" [ByVal FPtr; ByRef FInt; ByVal FPtr; ByVal FPtr; ByVal FPtr; ByVal FPtr] FInt;
  (** l.252-257 *) FIface "MoorDyn_Save" "MoorDyn_Save" [ByVal FPtr; ByRef FChar] FInt;
  (** l.259-264 *) FIface "MoorDyn_Load" "MoorDyn_Load" [ByVal FPtr; ByRef FChar] FInt;
  (** l.266-271 *) FIface "MoorDyn_SaveVTK" "MoorDyn_SaveVTK" [ByVal FPtr; ByRef FChar] FInt;
  (** l.276-289 *) FIface "MoorDyn_GetWavesKin" "MoorDyn_GetWavesKin" [ByVal FPtr; ByVal FDbl; ByVal FDbl; ByVal FDbl; ByVal FDbl; ByVal FPtr; ByVal FPtr; ByRef FDbl; ByRef FDbl; ByVal FPtr] FInt;
  (** l.294-300 *) FIface "MD_GetDepthAt" "MoorDyn_GetDepthAt" [ByVal FPtr; ByVal FDbl; ByVal FDbl; ByRef FDbl] FInt;
  (** l.302-306 *) FIface "MD_GetAverageDepth" "MoorDyn_GetAverageDepth" [ByVal FPtr; ByRef FDbl] FInt;
  (** l.308-312 *) FIface "MD_GetMinDepth" "MoorDyn_GetMinDepth" [ByVal FPtr; ByRef FDbl] FInt;
  (** l.317-321 *) FIface "MD_GetBodyID" "MoorDyn_GetBodyID" [ByVal FPtr; ByRef FInt] FInt;
  (** l.323-327 *) FIface "MD_GetBodyType" "MoorDyn_GetBodyType" [ByVal FPtr; ByRef FInt] FInt;
  (** l.329-335 *) FIface "MoorDyn_GetBodyState" "MoorDyn_GetBodyState" [ByVal FPtr; ByVal FPtr; ByVal FPtr] FInt;
  (** l.337-342 *) FIface "MoorDyn_GetBodyPos" "MoorDyn_GetBodyPos" [ByVal FPtr; ByVal FPtr] FInt;
  (** l.344-349 *) FIface "MoorDyn_GetBodyAngle" "MoorDyn_GetBodyAngle" [ByVal FPtr; ByVal FPtr] FInt;
  (** l.351-356 *) FIface "MoorDyn_GetBodyVel" "MoorDyn_GetBodyVel" [ByVal FPtr; ByVal FPtr] FInt;
  (** l.358-363 *) FIface "MoorDyn_GetBodyAngVel" "MoorDyn_GetBodyAngVel" [ByVal FPtr; ByVal FPtr] FInt;
  (** l.365-370 *) FIface "MoorDyn_GetBodyForce" "MoorDyn_GetBodyForce" [ByVal FPtr; ByVal FPtr] FInt;
  (** l.372-377 *) FIface "MoorDyn_GetBodyM" "MoorDyn_GetBodyM" [ByVal FPtr; ByVal FPtr] FInt;
  (** l.379-384 *) FIface "MoorDyn_SaveBodyVTK" "MoorDyn_SaveBodyVTK" [ByVal FPtr; ByRef FChar] FInt;
  (** l.386-391 *) FIface "MoorDyn_UseBodyVTK" "MoorDyn_UseBodyVTK" [ByVal FPtr; ByRef FChar] FInt;
  (** l.396-400 *) FIface "MD_GetRodID" "MoorDyn_GetRodID" [ByVal FPtr; ByRef FInt] FInt;
  (** l.402-406 *) FIface "MD_GetRodType" "MoorDyn_GetRodType" [ByVal FPtr; ByRef FInt] FInt;
  (** l.408-413 *) FIface "MoorDyn_GetRodForce" "MoorDyn_GetRodForce" [ByVal FPtr; ByVal FPtr] FInt;
  (** l.415-420 *) FIface "MoorDyn_GetRodM" "MoorDyn_GetRodM" [ByVal FPtr; ByVal FPtr] FInt;
  (** l.422-426 *) FIface "MD_GetRodN" "MoorDyn_GetRodN" [ByVal FPtr; ByRef FInt] FInt;
  (** l.428-432 *) FIface "MD_GetRodNumberNodes" "MoorDyn_GetRodNumberNodes" [ByVal FPtr; ByRef FInt] FInt;
  (** l.434-440 *) FIface "MoorDyn_GetRodNodePos" "MoorDyn_GetRodNodePos" [ByVal FPtr; ByVal FInt; ByVal FPtr] FInt;
  (** l.442-448 *) FIface "MoorDyn_GetRodNodeVel" "MoorDyn_GetRodNodeVel" [ByVal FPtr; ByVal FInt; ByVal FPtr] FInt;
  (** l.450-455 *) FIface "MoorDyn_SaveRodVTK" "MoorDyn_SaveRodVTK" [ByVal FPtr; ByRef FChar] FInt;
  (** l.460-464 *) FIface "MD_GetPointID" "MoorDyn_GetPointID" [ByVal FPtr; ByRef FInt] FInt;
  (** l.466-470 *) FIface "MD_GetPointType" "MoorDyn_GetPointType" [ByVal FPtr; ByRef FInt] FInt;
  (** l.472-477 *) FIface "MoorDyn_GetPointPos" "MoorDyn_GetPointPos" [ByVal FPtr; ByVal FPtr] FInt;
  (** l.479-484 *) FIface "MoorDyn_GetPointVel" "MoorDyn_GetPointVel" [ByVal FPtr; ByVal FPtr] FInt;
  (** l.486-491 *) FIface "MoorDyn_GetPointForce" "MoorDyn_GetPointForce" [ByVal FPtr; ByVal FPtr] FInt;
  (** l.493-498 *) FIface "MoorDyn_GetPointM" "MoorDyn_GetPointM" [ByVal FPtr; ByVal FPtr] FInt;
  (** l.500-504 *) FIface "MD_GetPointNAttached" "MoorDyn_GetPointNAttached" [ByVal FPtr; ByRef FInt] FInt;
  (** l.506-512 *) FIface "MD_GetPointAttached" "MoorDyn_GetPointAttached" [ByVal FPtr; ByVal FInt; ByRef FPtr; ByRef FInt] FInt;
  (** l.514-519 *) FIface "MoorDyn_SavePointVTK" "MoorDyn_SavePointVTK" [ByVal FPtr; ByRef FChar] FInt;
  (** l.524-528 *) FIface "MD_GetLineID" "MoorDyn_GetLineID" [ByVal FPtr; ByRef FInt] FInt;
  (** l.530-534 *) FIface "MD_GetLineN" "MoorDyn_GetLineN" [ByVal FPtr; ByRef FInt] FInt;
  (** l.536-540 *) FIface "MD_GetLineNumberNodes" "MoorDyn_GetLineNumberNodes" [ByVal FPtr; ByRef FInt] FInt;
  (** l.542-546 *) FIface "MD_IsLineConstantEA" "MoorDyn_IsLineConstantEA" [ByVal FPtr; ByRef FInt] FInt;
  (** l.548-552 *) FIface "MD_GetLineConstantEA" "MoorDyn_GetLineConstantEA" [ByVal FPtr; ByRef FDbl] FInt;
  (** l.554-558 *) FIface "MD_SetLineConstantEA" "MoorDyn_SetLineConstantEA" [ByVal FPtr; ByRef FDbl] FInt;
  (** l.560-564 *) FIface "MD_IsLinePressBend" "MoorDyn_IsLinePressBend" [ByVal FPtr; ByRef FInt] FInt;
  (** l.566-570 *) FIface "MD_SetLinePressBend" "MoorDyn_SetLinePressBend" [ByVal FPtr; ByRef FInt] FInt;
  (** l.572-577 *) FIface "MoorDyn_SetLinePressInt" "MoorDyn_SetLinePressInt" [ByVal FPtr; ByVal FPtr] FInt;
  (** l.579-583 *) FIface "MD_GetLineUnstretchedLength" "MoorDyn_GetLineUnstretchedLength" [ByVal FPtr; ByRef FDbl] FInt;
  (** l.585-589 *) FIface "MD_SetLineUnstretchedLength" "MoorDyn_SetLineUnstretchedLength" [ByVal FPtr; ByVal FDbl] FInt;
  (** l.591-595 *) FIface "MD_SetLineUnstretchedLengthVel" "MoorDyn_SetLineUnstretchedLengthVel" [ByVal FPtr; ByVal FDbl] FInt;
  (** l.597-603 *) FIface "MoorDyn_GetLineNodePos" "MoorDyn_GetLineNodePos" [ByVal FPtr; ByVal FInt; ByVal FPtr] FInt;
  (** l.605-611 *) FIface "MoorDyn_GetLineNodeVel" "MoorDyn_GetLineNodeVel" [ByVal FPtr; ByVal FInt; ByVal FPtr] FInt;
  (** l.613-619 *) FIface "MoorDyn_GetLineNodeForce" "MoorDyn_GetLineNodeForce" [ByVal FPtr; ByVal FInt; ByVal FPtr] FInt;
  (** l.621-627 *) FIface "MoorDyn_GetLineNodeTen" "MoorDyn_GetLineNodeTen" [ByVal FPtr; ByVal FInt; ByVal FPtr] FInt;
  (** l.629-635 *) FIface "MoorDyn_GetLineNodeBendStiff" "MoorDyn_GetLineNodeBendStiff" [ByVal FPtr; ByVal FInt; ByVal FPtr] FInt;
  (** l.637-643 *) FIface "MoorDyn_GetLineNodeWeight" "MoorDyn_GetLineNodeWeight" [ByVal FPtr; ByVal FInt; ByVal FPtr] FInt;
  (** l.645-651 *) FIface "MoorDyn_GetLineNodeDrag" "MoorDyn_GetLineNodeDrag" [ByVal FPtr; ByVal FInt; ByVal FPtr] FInt;
  (** l.653-659 *) FIface "MoorDyn_GetLineNodeFroudeKrilov" "MoorDyn_GetLineNodeFroudeKrilov" [ByVal FPtr; ByVal FInt; ByVal FPtr] FInt;
  (** l.661-667 *) FIface "MoorDyn_GetLineNodeSeabedForce" "MoorDyn_GetLineNodeSeabedForce" [ByVal FPtr; ByVal FInt; ByVal FPtr] FInt;
  (** l.669-674 *) FIface "MD_GetLineNodeCurv" "MoorDyn_GetLineNodeCurv" [ByVal FPtr; ByVal FInt; ByRef FDbl] FInt;
  (** l.676-682 *) FIface "MoorDyn_GetLineNodeM" "MoorDyn_GetLineNodeM" [ByVal FPtr; ByVal FInt; ByVal FPtr] FInt;
  (** l.684-688 *) FIface "MD_GetLineFairTen" "MoorDyn_GetLineFairTen" [ByVal FPtr; ByRef FDbl] FInt;
  (** l.690-694 *) FIface "MD_GetLineMaxTen" "MoorDyn_GetLineMaxTen" [ByVal FPtr; ByRef FDbl] FInt;
  (** l.696-701 *) FIface "MoorDyn_SaveLineVTK" "MoorDyn_SaveLineVTK" [ByVal FPtr; ByRef FChar] FInt
].

(** a dummy argument of a function behind contains: a scalar, real(c_double), target :: x(:), or character(star) *)
Inductive fdummy := DScalar (d : fpass) | DArray | DString.
(** what such a function hands over: a dummy argument as it is, c_loc of one, trim of one with a null behind *)
Inductive fexpr := EDummy (k : nat) | ELoc (k : nat) | ETrimNul (k : nat).
(** a function behind contains: its name, its dummy arguments, the function it calls and with what *)
Record fproc := FProc { f_name : string; f_dummies : list fdummy; f_iface : string; f_args : list fexpr }.
(** wrappers/fortran/MoorDyn.f90 l.705-1064, at the lines given *)
Definition fprocs : list fproc := [
  (** l.710-714 *) FProc "MD_Create" [DString] "MoorDyn_Create" [ETrimNul 0];
  (** l.716-721 *) FProc "MD_SetLogFile" [DScalar (ByRef FPtr); DString] "MoorDyn_SetLogFile" [EDummy 0; ETrimNul 1];
  (** l.723-729 *) FProc "MD_Log" [DScalar (ByRef FPtr); DScalar (ByRef FInt); DString] "MoorDyn_Log" [EDummy 0; EDummy 1; ETrimNul 2];
  (** l.731-737 *) FProc "MD_Init" [DScalar (ByRef FPtr); DArray; DArray] "MoorDyn_Init" [EDummy 0; ELoc 1; ELoc 2];
  (** l.739-745 *) FProc "MD_Init_NoIC" [DScalar (ByRef FPtr); DArray; DArray] "MoorDyn_Init_NoIC" [EDummy 0; ELoc 1; ELoc 2];
  (** l.747-756 *) FProc "MD_Step" [DScalar (ByRef FPtr); DArray; DArray; DArray; DScalar (ByRef FDbl); DScalar (ByRef FDbl)] "MoorDyn_Step" [EDummy 0; ELoc 1; ELoc 2; ELoc 3; EDummy 4; EDummy 5];
  (** l.758-763 *) FProc "MD_ExternalWaveKinGetCoordinates" [DScalar (ByRef FPtr); DArray] "MoorDyn_ExternalWaveKinGetCoordinates" [EDummy 0; ELoc 1];
  (** l.765-772 *) FProc "MD_ExternalWaveKinSet" [DScalar (ByRef FPtr); DArray; DArray; DScalar (ByRef FDbl)] "MoorDyn_ExternalWaveKinSet" [EDummy 0; ELoc 1; ELoc 2; EDummy 3];
  (** l.774-783 *) FProc "MD_GetFASTtens" [DScalar (ByRef FPtr); DScalar (ByRef FInt); DArray; DArray; DArray; DArray] "MoorDyn_GetFASTtens" [EDummy 0; EDummy 1; ELoc 2; ELoc 3; ELoc 4; ELoc 5];
  (** l.785-790 *) FProc "MD_Save" [DScalar (ByRef FPtr); DString] "MoorDyn_Save" [EDummy 0; ETrimNul 1];
  (** l.792-797 *) FProc "MD_Load" [DScalar (ByRef FPtr); DString] "MoorDyn_Load" [EDummy 0; ETrimNul 1];
  (** l.799-804 *) FProc "MD_SaveVTK" [DScalar (ByRef FPtr); DString] "MoorDyn_SaveVTK" [EDummy 0; ETrimNul 1];
  (** l.809-822 *) FProc "MD_GetWavesKin" [DScalar (ByRef FPtr); DScalar (ByVal FDbl); DScalar (ByVal FDbl); DScalar (ByVal FDbl); DScalar (ByVal FDbl); DArray; DArray; DScalar (ByRef FDbl); DScalar (ByRef FDbl); DScalar (ByRef FPtr)] "MoorDyn_GetWavesKin" [EDummy 0; EDummy 1; EDummy 2; EDummy 3; EDummy 4; ELoc 5; ELoc 6; EDummy 7; EDummy 8; EDummy 9];
  (** l.827-833 *) FProc "MD_GetBodyState" [DScalar (ByRef FPtr); DArray; DArray] "MoorDyn_GetBodyState" [EDummy 0; ELoc 1; ELoc 2];
  (** l.835-840 *) FProc "MD_GetBodyPos" [DScalar (ByRef FPtr); DArray] "MoorDyn_GetBodyPos" [EDummy 0; ELoc 1];
  (** l.842-847 *) FProc "MD_GetBodyAngle" [DScalar (ByRef FPtr); DArray] "MoorDyn_GetBodyAngle" [EDummy 0; ELoc 1];
  (** l.849-854 *) FProc "MD_GetBodyVel" [DScalar (ByRef FPtr); DArray] "MoorDyn_GetBodyVel" [EDummy 0; ELoc 1];
  (** l.856-861 *) FProc "MD_GetBodyAngVel" [DScalar (ByRef FPtr); DArray] "MoorDyn_GetBodyAngVel" [EDummy 0; ELoc 1];
  (** l.863-868 *) FProc "MD_GetBodyForce" [DScalar (ByRef FPtr); DArray] "MoorDyn_GetBodyForce" [EDummy 0; ELoc 1];
  (** l.870-875 *) FProc "MD_GetBodyM" [DScalar (ByRef FPtr); DArray] "MoorDyn_GetBodyM" [EDummy 0; ELoc 1];
  (** l.877-882 *) FProc "MD_SaveBodyVTK" [DScalar (ByRef FPtr); DString] "MoorDyn_SaveBodyVTK" [EDummy 0; ETrimNul 1];
  (** l.884-889 *) FProc "MD_UseBodyVTK" [DScalar (ByRef FPtr); DString] "MoorDyn_UseBodyVTK" [EDummy 0; ETrimNul 1];
  (** l.894-899 *) FProc "MD_GetRodForce" [DScalar (ByRef FPtr); DArray] "MoorDyn_GetRodForce" [EDummy 0; ELoc 1];
  (** l.901-906 *) FProc "MD_GetRodM" [DScalar (ByRef FPtr); DArray] "MoorDyn_GetRodM" [EDummy 0; ELoc 1];
  (** l.908-914 *) FProc "MD_GetRodNodePos" [DScalar (ByRef FPtr); DScalar (ByVal FInt); DArray] "MoorDyn_GetRodNodePos" [EDummy 0; EDummy 1; ELoc 2];
  (** l.916-922 *) FProc "MD_GetRodNodeVel" [DScalar (ByRef FPtr); DScalar (ByVal FInt); DArray] "MoorDyn_GetRodNodeVel" [EDummy 0; EDummy 1; ELoc 2];
  (** l.924-929 *) FProc "MD_SaveRodVTK" [DScalar (ByRef FPtr); DString] "MoorDyn_SaveRodVTK" [EDummy 0; ETrimNul 1];
  (** l.934-939 *) FProc "MD_GetPointPos" [DScalar (ByRef FPtr); DArray] "MoorDyn_GetPointPos" [EDummy 0; ELoc 1];
  (** l.941-946 *) FProc "MD_GetPointVel" [DScalar (ByRef FPtr); DArray] "MoorDyn_GetPointVel" [EDummy 0; ELoc 1];
  (** l.948-953 *) FProc "MD_GetPointForce" [DScalar (ByRef FPtr); DArray] "MoorDyn_GetPointForce" [EDummy 0; ELoc 1];
  (** l.955-960 *) FProc "MD_GetPointM" [DScalar (ByRef FPtr); DArray] "MoorDyn_GetPointM" [EDummy 0; ELoc 1];
  (** l.962-967 *) FProc "MD_SavePointVTK" [DScalar (ByRef FPtr); DString] "MoorDyn_SavePointVTK" [EDummy 0; ETrimNul 1];
  (** l.972-977 *) FProc "MD_SetLinePressInt" [DScalar (ByRef FPtr); DArray] "MoorDyn_SetLinePressInt" [EDummy 0; ELoc 1];
  (** l.979-985 *) FProc "MD_GetLineNodePos" [DScalar (ByRef FPtr); DScalar (ByVal FInt); DArray] "MoorDyn_GetLineNodePos" [EDummy 0; EDummy 1; ELoc 2];
  (** l.987-993 *) FProc "MD_GetLineNodeVel" [DScalar (ByRef FPtr); DScalar (ByVal FInt); DArray] "MoorDyn_GetLineNodeVel" [EDummy 0; EDummy 1; ELoc 2];
  (** l.995-1001 *) FProc "MD_GetLineNodeForce" [DScalar (ByRef FPtr); DScalar (ByVal FInt); DArray] "MoorDyn_GetLineNodeForce" [EDummy 0; EDummy 1; ELoc 2];
  (** l.1003-1009 *) FProc "MD_GetLineNodeTen" [DScalar (ByRef FPtr); DScalar (ByVal FInt); DArray] "MoorDyn_GetLineNodeTen" [EDummy 0; EDummy 1; ELoc 2];
  (** l.1011-1017 *) FProc "MD_GetLineNodeBendStiff" [DScalar (ByRef FPtr); DScalar (ByVal FInt); DArray] "MoorDyn_GetLineNodeBendStiff" [EDummy 0; EDummy 1; ELoc 2];
  (** l.1019-1025 *) FProc "MD_GetLineNodeWeight" [DScalar (ByRef FPtr); DScalar (ByVal FInt); DArray] "MoorDyn_GetLineNodeWeight" [EDummy 0; EDummy 1; ELoc 2];
  (** l.1027-1033 *) FProc "MD_GetLineNodeDrag" [DScalar (ByRef FPtr); DScalar (ByVal FInt); DArray] "MoorDyn_GetLineNodeDrag" [EDummy 0; EDummy 1; ELoc 2];
  (** l.1035-1041 *) FProc "MD_GetLineNodeFroudeKrilov" [DScalar (ByRef FPtr); DScalar (ByVal FInt); DArray] "MoorDyn_GetLineNodeFroudeKrilov" [EDummy 0; EDummy 1; ELoc 2];
  (** l.1043-1049 *) FProc "MD_GetLineNodeSeabedForce" [DScalar (ByRef FPtr); DScalar (ByVal FInt); DArray] "MoorDyn_GetLineNodeSeabedForce" [EDummy 0; EDummy 1; ELoc 2];
  (** l.1051-1057 *) FProc "MD_GetLineNodeM" [DScalar (ByRef FPtr); DScalar (ByVal FInt); DArray] "MoorDyn_GetLineNodeM" [EDummy 0; EDummy 1; ELoc 2];
  (** l.1059-1064 *) FProc "MD_SaveLineVTK" [DScalar (ByRef FPtr); DString] "MoorDyn_SaveLineVTK" [EDummy 0; ETrimNul 1]
].

(** wrappers/rust/bindings.rs, at the lines given: f64 is CDbl, f32 is CFlt, c_int is CInt, c_uint is CUInt *)
Definition rprotos : list cproto := [
  (** l.26-35 *) CProto "MoorDyn_GetWavesKin" [CPtr (CObj "MoorDynWaves"); CDbl; CDbl; CDbl; CPtr CDbl; CPtr CDbl; CPtr CDbl; CPtr CDbl] CInt;
  (** l.39 *) CProto "WaveNumber" [CDbl; CDbl; CDbl] CDbl;
  (** l.50-53 *) CProto "MoorDyn_GetLineID" [CPtr (CObj "MoorDynLine"); CPtr CInt] CInt;
  (** l.57-60 *) CProto "MoorDyn_GetLineN" [CPtr (CObj "MoorDynLine"); CPtr CUInt] CInt;
  (** l.64-67 *) CProto "MoorDyn_GetLineNumberNodes" [CPtr (CObj "MoorDynLine"); CPtr CUInt] CInt;
  (** l.71 *) CProto "MoorDyn_GetLineUnstretchedLength" [CPtr (CObj "MoorDynLine"); CPtr CDbl] CInt;
  (** l.75-79 *) CProto "MoorDyn_GetLineNodePos" [CPtr (CObj "MoorDynLine"); CUInt; CPtr CDbl] CInt;
  (** l.83-87 *) CProto "MoorDyn_GetLineNodeTen" [CPtr (CObj "MoorDynLine"); CUInt; CPtr CDbl] CInt;
  (** l.91-95 *) CProto "MoorDyn_GetLineNodeCurv" [CPtr (CObj "MoorDynLine"); CUInt; CPtr CDbl] CInt;
  (** l.99 *) CProto "MoorDyn_GetLineFairTen" [CPtr (CObj "MoorDynLine"); CPtr CDbl] CInt;
  (** l.103 *) CProto "MoorDyn_GetLineMaxTen" [CPtr (CObj "MoorDynLine"); CPtr CDbl] CInt;
  (** l.107-110 *) CProto "MoorDyn_SaveLineVTK" [CPtr (CObj "MoorDynLine"); CPtr CChar] CInt;
  (** l.121-124 *) CProto "MoorDyn_GetPointID" [CPtr (CObj "MoorDynPoint"); CPtr CInt] CInt;
  (** l.128-131 *) CProto "MoorDyn_GetPointType" [CPtr (CObj "MoorDynPoint"); CPtr CInt] CInt;
  (** l.135 *) CProto "MoorDyn_GetPointPos" [CPtr (CObj "MoorDynPoint"); CPtr CDbl] CInt;
  (** l.139 *) CProto "MoorDyn_GetPointVel" [CPtr (CObj "MoorDynPoint"); CPtr CDbl] CInt;
  (** l.143 *) CProto "MoorDyn_GetPointForce" [CPtr (CObj "MoorDynPoint"); CPtr CDbl] CInt;
  (** l.147-150 *) CProto "MoorDyn_GetPointNAttached" [CPtr (CObj "MoorDynPoint"); CPtr CUInt] CInt;
  (** l.154-159 *) CProto "MoorDyn_GetPointAttached" [CPtr (CObj "MoorDynPoint"); CUInt; CPtr (CPtr (CObj "MoorDynLine")); CPtr CInt] CInt;
  (** l.170-171 *) CProto "MoorDyn_GetRodID" [CPtr (CObj "MoorDynRod"); CPtr CInt] CInt;
  (** l.175-178 *) CProto "MoorDyn_GetRodType" [CPtr (CObj "MoorDynRod"); CPtr CInt] CInt;
  (** l.182 *) CProto "MoorDyn_GetRodN" [CPtr (CObj "MoorDynRod"); CPtr CUInt] CInt;
  (** l.186-189 *) CProto "MoorDyn_GetRodNumberNodes" [CPtr (CObj "MoorDynRod"); CPtr CUInt] CInt;
  (** l.193-197 *) CProto "MoorDyn_GetRodNodePos" [CPtr (CObj "MoorDynRod"); CUInt; CPtr CDbl] CInt;
  (** l.208-211 *) CProto "MoorDyn_GetBodyID" [CPtr (CObj "MoorDynBody"); CPtr CInt] CInt;
  (** l.215-218 *) CProto "MoorDyn_GetBodyType" [CPtr (CObj "MoorDynBody"); CPtr CInt] CInt;
  (** l.222-223 *) CProto "MoorDyn_GetBodyState" [CPtr (CObj "MoorDynBody"); CPtr CDbl; CPtr CDbl] CInt;
  (** l.234 *) CProto "MoorDyn_Create" [CPtr CChar] (CPtr (CObj "MoorDyn"));
  (** l.238-241 *) CProto "MoorDyn_NCoupledDOF" [CPtr (CObj "MoorDyn"); CPtr CUInt] CInt;
  (** l.245-248 *) CProto "MoorDyn_SetVerbosity" [CPtr (CObj "MoorDyn"); CInt] CInt;
  (** l.252-255 *) CProto "MoorDyn_SetLogFile" [CPtr (CObj "MoorDyn"); CPtr CChar] CInt;
  (** l.259-262 *) CProto "MoorDyn_SetLogLevel" [CPtr (CObj "MoorDyn"); CInt] CInt;
  (** l.266-270 *) CProto "MoorDyn_Log" [CPtr (CObj "MoorDyn"); CInt; CPtr CChar] CInt;
  (** l.274 *) CProto "MoorDyn_Init" [CPtr (CObj "MoorDyn"); CPtr CDbl; CPtr CDbl] CInt;
  (** l.278-282 *) CProto "MoorDyn_Init_NoIC" [CPtr (CObj "MoorDyn"); CPtr CDbl; CPtr CDbl] CInt;
  (** l.286-293 *) CProto "MoorDyn_Step" [CPtr (CObj "MoorDyn"); CPtr CDbl; CPtr CDbl; CPtr CDbl; CPtr CDbl; CPtr CDbl] CInt;
  (** l.297 *) CProto "MoorDyn_Close" [CPtr (CObj "MoorDyn")] CInt;
  (** l.301 *) CProto "MoorDyn_GetWaves" [CPtr (CObj "MoorDyn")] (CPtr (CObj "MoorDynWaves"));
  (** l.305-308 *) CProto "MoorDyn_ExternalWaveKinInit" [CPtr (CObj "MoorDyn"); CPtr CUInt] CInt;
  (** l.312-315 *) CProto "MoorDyn_ExternalWaveKinGetN" [CPtr (CObj "MoorDyn"); CPtr CUInt] CInt;
  (** l.319-322 *) CProto "MoorDyn_ExternalWaveKinGetCoordinates" [CPtr (CObj "MoorDyn"); CPtr CDbl] CInt;
  (** l.326-331 *) CProto "MoorDyn_ExternalWaveKinSet" [CPtr (CObj "MoorDyn"); CPtr CDbl; CPtr CDbl; CDbl] CInt;
  (** l.335-338 *) CProto "MoorDyn_GetNumberBodies" [CPtr (CObj "MoorDyn"); CPtr CUInt] CInt;
  (** l.342 *) CProto "MoorDyn_GetBody" [CPtr (CObj "MoorDyn"); CUInt] (CPtr (CObj "MoorDynBody"));
  (** l.346-349 *) CProto "MoorDyn_GetNumberRods" [CPtr (CObj "MoorDyn"); CPtr CUInt] CInt;
  (** l.353 *) CProto "MoorDyn_GetRod" [CPtr (CObj "MoorDyn"); CUInt] (CPtr (CObj "MoorDynRod"));
  (** l.357-360 *) CProto "MoorDyn_GetNumberPoints" [CPtr (CObj "MoorDyn"); CPtr CUInt] CInt;
  (** l.364 *) CProto "MoorDyn_GetPoint" [CPtr (CObj "MoorDyn"); CUInt] (CPtr (CObj "MoorDynPoint"));
  (** l.368-371 *) CProto "MoorDyn_GetNumberLines" [CPtr (CObj "MoorDyn"); CPtr CUInt] CInt;
  (** l.375 *) CProto "MoorDyn_GetLine" [CPtr (CObj "MoorDyn"); CUInt] (CPtr (CObj "MoorDynLine"));
  (** l.379-386 *) CProto "MoorDyn_GetFASTtens" [CPtr (CObj "MoorDyn"); CPtr CInt; CPtr CFlt; CPtr CFlt; CPtr CFlt; CPtr CFlt] CInt;
  (** l.390-393 *) CProto "MoorDyn_Save" [CPtr (CObj "MoorDyn"); CPtr CChar] CInt;
  (** l.397-400 *) CProto "MoorDyn_Load" [CPtr (CObj "MoorDyn"); CPtr CChar] CInt
].

Section Bind.
(** doubles *)
Variable F : Type.
(** what the library keeps for itself *)
Variable S : Type.

(** what a variable of the caller holds *)
Inductive cell := VInt (z : Z) | VDbl (f : F) | VFlt (f : F) | VPtr (a : Z).
(** the variables of the caller *)
Definition mem := Z -> option cell.
(** a value where a C function expects an argument; AText is the address of characters made for the call *)
Inductive aval := AInt (z : Z) | ADbl (f : F) | APtr (a : Z) | AText (l : list ascii).

(** what a C function does: its result, and what it leaves behind *)
Variable lib : string -> list aval -> S -> mem -> aval * S * mem.

(** how a call ends: it returns, its behaviour is undefined, the program does not link, or it does not compile *)
Inductive fres := FRet (v : aval) (s : S) (m : mem) | FUB | FNoLink | FNoCompile.

(** the characters C sees: those before the first null; None if there is none *)
Fixpoint cstr (l : list ascii) : option (list ascii) :=
  match l with
  | [] => None
  | c :: r => if Ascii.eqb c zero then Some [] else match cstr r with Some q => Some (c :: q) | None => None end
  end.

(** whether there is a variable of the type at the address *)
Definition points (m : mem) (t : cty) (a : Z) : bool :=
  match t, m a with
  | CObj _, _ => true
  | CInt, Some (VInt _) | CUInt, Some (VInt _) | CDbl, Some (VDbl _) | CFlt, Some (VFlt _) | CPtr _, Some (VPtr _) => true
  | _, _ => false
  end.
(** whether a parameter of the type can take the value *)
Definition takes (m : mem) (t : cty) (v : aval) : bool :=
  match t, v with
  | CInt, AInt _ | CUInt, AInt _ | CDbl, ADbl _ => true
  | CPtr CChar, AText l => match cstr l with Some _ => true | None => false end
  | CPtr t, APtr a => points m t a
  | _, _ => false
  end.
(** the same for all parameters: there are as many values as parameters *)
Fixpoint takes_all (m : mem) (ts : list cty) (vs : list aval) : bool :=
  match ts, vs with
  | [], [] => true
  | t :: ts, v :: vs => takes m t v && takes_all m ts vs
  | _, _ => false
  end.

(** a prototype, an interface or a function by its name *)
Definition find_proto (l : list cproto) (n : string) := find (fun p => String.eqb (p_name p) n) l.
Definition find_iface (n : string) := find (fun p => String.eqb (i_name p) n) ifaces.
Definition find_proc (n : string) := find (fun p => String.eqb (f_name p) n) fprocs.

(** a call of a C symbol with the values put where its arguments are expected; the caller expects a pointer
    back, or a number *)
Definition ccall (n : string) (ptr : bool) (vs : list aval) (s : S) (m : mem) : fres :=
  match find_proto cprotos n with
  | None => FNoLink
  | Some p =>
      if takes_all m (p_params p) vs && Bool.eqb ptr match p_ret p with CPtr _ => true | _ => false end
      then let '(v, s', m') := lib n vs s m in FRet v s' m'
      else FUB
  end.

(** what the caller writes as an argument in Fortran: a scalar variable, or a section of an array - its first
    element, the distance of its elements and their number - or characters *)
Inductive uarg := UVar (a : Z) | UArr (base stride : Z) (n : nat) | UStr (l : list ascii).

(** an argument of a call in Fortran: a variable, or the value of an expression *)
Inductive actual := AcVar (a : Z) | AcVal (v : aval).
(** the value of a variable of the type; None if it is not of the type *)
Definition load (m : mem) (t : fty) (a : Z) : option aval :=
  match t, m a with
  | FInt, Some (VInt z) => Some (AInt z)
  | FDbl, Some (VDbl f) => Some (ADbl f)
  | FPtr, Some (VPtr b) => Some (APtr b)
  | _, _ => None
  end.
(** whether the value of an expression is of the type *)
Definition of_type (t : fty) (v : aval) : bool :=
  match t, v with FInt, AInt _ | FDbl, ADbl _ | FPtr, APtr _ | FChar, AText _ => true | _, _ => false end.
(** what is handed over for a dummy argument of the interface block: the value of the argument with the attribute
    value, else its address; None if the compiler refuses the argument *)
Definition pass (m : mem) (d : fpass) (a : actual) : option aval :=
  match d, a with
  | ByVal t, AcVar a => load m t a
  | ByVal t, AcVal v => if of_type t v then Some v else None
  | ByRef t, AcVar a => match load m t a with Some _ => Some (APtr a) | None => None end
  | ByRef FChar, AcVal (AText l) => Some (AText l)
  | ByRef _, AcVal _ => None
  end.
Fixpoint pass_all (m : mem) (ds : list fpass) (l : list actual) : option (list aval) :=
  match ds, l with
  | [], [] => Some []
  | d :: ds, a :: l =>
      match pass m d a, pass_all m ds l with Some v, Some vs => Some (v :: vs) | _, _ => None end
  | _, _ => None
  end.
(** a call of a function of the interface block, wrappers/fortran/MoorDyn.f90 l.78-702 *)
Definition icall (i : fiface) (l : list actual) (s : S) (m : mem) : fres :=
  match pass_all m (i_dummies i) l with
  | None => FNoCompile
  | Some vs => ccall (i_symbol i) match i_ret i with FPtr => true | _ => false end vs s m
  end.

(** trim: the characters without the blanks at the end *)
Fixpoint trim (l : list ascii) : list ascii :=
  match l with
  | [] => []
  | c :: r => match trim r with [] => if Ascii.eqb c " " then [] else [c] | r' => c :: r' end
  end.
(** a dummy argument of a function behind contains, associated with what the caller gives: a scalar by reference
    is the variable of the caller, by value a copy; None if the compiler refuses it. The elements of an array are
    real(c_double). *)
Definition associate (m : mem) (d : fdummy) (u : uarg) : option (uarg * option aval) :=
  match d, u with
  | DScalar (ByRef t), UVar a => match load m t a with Some _ => Some (u, None) | None => None end
  | DScalar (ByVal t), UVar a => match load m t a with Some v => Some (u, Some v) | None => None end
  | DArray, UArr b _ _ => match m b with Some (VDbl _) => Some (u, None) | _ => None end
  | DString, UStr _ => Some (u, None)
  | _, _ => None
  end.
Fixpoint associate_all (m : mem) (ds : list fdummy) (us : list uarg) : option (list (uarg * option aval)) :=
  match ds, us with
  | [], [] => Some []
  | d :: ds, u :: us =>
      match associate m d u, associate_all m ds us with Some q, Some l => Some (q :: l) | _, _ => None end
  | _, _ => None
  end.
(** what an expression of the call is: c_loc is the address of the first element *)
Definition eval (l : list (uarg * option aval)) (e : fexpr) : option actual :=
  match e with
  | EDummy k => match nth_error l k with
                | Some (UVar a, None) => Some (AcVar a) | Some (UVar _, Some v) => Some (AcVal v) | _ => None end
  | ELoc k => match nth_error l k with Some (UArr b _ _, None) => Some (AcVal (APtr b)) | _ => None end
  | ETrimNul k => match nth_error l k with Some (UStr c, None) => Some (AcVal (AText (trim c ++ [zero]))) | _ => None end
  end.
Fixpoint eval_all (l : list (uarg * option aval)) (es : list fexpr) : option (list actual) :=
  match es with
  | [] => Some []
  | e :: es => match eval l e, eval_all l es with Some a, Some q => Some (a :: q) | _, _ => None end
  end.
(** a call of a function behind contains, wrappers/fortran/MoorDyn.f90 l.705-1064 *)
Definition pcall (p : fproc) (us : list uarg) (s : S) (m : mem) : fres :=
  match associate_all m (f_dummies p) us with
  | None => FNoCompile
  | Some l =>
      match eval_all l (f_args p), find_iface (f_iface p) with
      | Some acts, Some i => icall i acts s m
      | _, _ => FNoCompile
      end
  end.
(** the arguments of a function of the interface block that the caller calls itself: variables *)
Fixpoint variables (us : list uarg) : option (list actual) :=
  match us with
  | [] => Some []
  | UVar a :: us => match variables us with Some l => Some (AcVar a :: l) | None => None end
  | _ => None
  end.
(** a call in Fortran, by the name of the function: wrappers/fortran/MoorDyn.f90 l.48-77 *)
Definition fcall (n : string) (us : list uarg) (s : S) (m : mem) : fres :=
  match find_proc n with
  | Some p => pcall p us s m
  | None =>
      match find_iface n, variables us with
      | Some i, Some l => icall i l s m
      | _, _ => FNoCompile
      end
  end.

(** a call in Rust: the values are of the types declared there, wrappers/rust/bindings.rs *)
Definition rcall (n : string) (vs : list aval) (s : S) (m : mem) : fres :=
  match find_proto rprotos n with
  | None => FNoCompile
  | Some p =>
      if takes_all m (p_params p) vs then ccall n match p_ret p with CPtr _ => true | _ => false end vs s m
      else FNoCompile
  end.
End Bind.
