(** What the functions of the Python layer are documented to do, from their documentation strings in
    wrappers/python/moordyn/moordyn.py and the names of the functions of the C interface. *)
From Coq Require Import String ZArith List Arith Bool.
From Verif Require Import MPy SPy.
Import ListNotations.
Open Scope string_scope.
Open Scope Z_scope.

(** the documented types of the arguments behind the handle *)
Inductive dty := TyInt | TyFlt | TyStr.
(** a function: its name, the handle, the other arguments, and the value it returns *)
Record doc := Doc { d_name : string; d_kind : kind; d_types : list dty; d_shape : shape }.
Definition documented : list doc := [
  Doc "NCoupledDOF" KSystem [] RInt;
  Doc "SetVerbosity" KSystem [TyInt] RCode;
  Doc "SetLogFile" KSystem [TyStr] RCode;
  Doc "SetLogLevel" KSystem [TyInt] RCode;
  Doc "ExternalWaveKinInit" KSystem [] RCode;
  Doc "ExternalWaveKinGetN" KSystem [] RInt;
  Doc "GetNumberBodies" KSystem [] RInt;
  Doc "GetNumberRods" KSystem [] RInt;
  Doc "GetNumberPoints" KSystem [] RInt;
  Doc "GetNumberLines" KSystem [] RInt;
  Doc "Save" KSystem [TyStr] RNone;
  Doc "Load" KSystem [TyStr] RNone;
  Doc "SaveVTK" KSystem [TyStr] RCode;
  Doc "GetDepthAt" KSeafloor [TyFlt; TyFlt] RFlt;
  Doc "GetAverageDepth" KSeafloor [] RFlt;
  Doc "GetMinDepth" KSeafloor [] RFlt;
  Doc "GetBodyID" KBody [] RInt;
  Doc "GetBodyType" KBody [] RInt;
  Doc "GetBodyState" KBody [] (RMat 2 6);
  Doc "GetBodyPos" KBody [] (RVec 3);
  Doc "GetBodyAngle" KBody [] (RVec 3);
  Doc "GetBodyVel" KBody [] (RVec 3);
  Doc "GetBodyAngVel" KBody [] (RVec 3);
  Doc "GetBodyForce" KBody [] (RVec 6);
  Doc "GetBodyM" KBody [] (RMat 6 6);
  Doc "SaveBodyVTK" KBody [TyStr] RCode;
  Doc "UseBodyVTK" KBody [TyStr] RCode;
  Doc "GetRodID" KRod [] RInt;
  Doc "GetRodType" KRod [] RInt;
  Doc "GetRodForce" KRod [] (RVec 6);
  Doc "GetRodM" KRod [] (RMat 6 6);
  Doc "GetRodN" KRod [] RInt;
  Doc "GetRodNodePos" KRod [TyInt] (RVec 3);
  Doc "GetRodNodeVel" KRod [TyInt] (RVec 3);
  Doc "SaveRodVTK" KRod [TyStr] RCode;
  Doc "GetPointID" KPoint [] RInt;
  Doc "GetPointType" KPoint [] RInt;
  Doc "GetPointPos" KPoint [] (RVec 3);
  Doc "GetPointVel" KPoint [] (RVec 3);
  Doc "GetPointForce" KPoint [] (RVec 3);
  Doc "GetPointM" KPoint [] (RMat 3 3);
  Doc "GetPointNAttached" KPoint [] RInt;
  Doc "SavePointVTK" KPoint [TyStr] RCode;
  Doc "GetLineID" KLine [] RInt;
  Doc "GetLineN" KLine [] RInt;
  Doc "GetLineUnstretchedLength" KLine [] RFlt;
  Doc "SetLineUnstretchedLength" KLine [TyFlt] RNone;
  Doc "SetLineUnstretchedLengthVel" KLine [TyFlt] RNone;
  Doc "IsLineConstantEA" KLine [] RBool;
  Doc "GetLineConstantEA" KLine [] RFlt;
  Doc "SetLineConstantEA" KLine [TyFlt] RNone;
  Doc "IsLinePressBend" KLine [] RBool;
  Doc "GetLineNodePos" KLine [TyInt] (RVec 3);
  Doc "GetLineNodeVel" KLine [TyInt] (RVec 3);
  Doc "GetLineNodeForce" KLine [TyInt] (RVec 3);
  Doc "GetLineNodeTen" KLine [TyInt] (RVec 3);
  Doc "GetLineNodeBendStiff" KLine [TyInt] (RVec 3);
  Doc "GetLineNodeWeight" KLine [TyInt] (RVec 3);
  Doc "GetLineNodeDrag" KLine [TyInt] (RVec 3);
  Doc "GetLineNodeFroudeKrilov" KLine [TyInt] (RVec 3);
  Doc "GetLineNodeSeabedForce" KLine [TyInt] (RVec 3);
  Doc "GetLineNodeCurv" KLine [TyInt] RFlt;
  Doc "GetLineNodeM" KLine [TyInt] (RMat 3 3);
  Doc "GetLineFairTen" KLine [] RFlt;
  Doc "GetLineMaxTen" KLine [] RFlt;
  Doc "SaveLineVTK" KLine [TyStr] RCode
].

Section Spec.
Context {S F : Type}.
Variable L : lib S F.

(** arguments of the documented types, and what they mean to the C function *)
Inductive typed : list dty -> list (pyv F) -> list (carg F) -> Prop :=
| Ty_nil : typed [] [] []
| Ty_int z ts l cs : 0 <= z <= int_max -> typed ts l cs -> typed (TyInt :: ts) (PInt z :: l) (CInt z :: cs)
| Ty_flt f ts l cs : typed ts l cs -> typed (TyFlt :: ts) (PFlt f :: l) (CDbl f :: cs)
| Ty_num z ts l cs : typed ts l cs -> typed (TyFlt :: ts) (PInt z :: l) (CDbl (l_ofZ L z) :: cs)
| Ty_str s ts l cs : typed ts l cs -> typed (TyStr :: ts) (PStr s :: l) (CStr s :: cs).

(** The function [d] of the Python layer, called on the object [i] of the system [h], does what the C function of
    the same name does: it returns its answer in the documented form and leaves the system as that one does. *)
Definition does (fn : string -> list (pyv F) -> world S F -> @pyres F * option (world S F)) (d : doc) : Prop :=
  forall h i s (w : world S F) args cs,
    w_sys w h = Some s -> w_exc w = None -> typed (d_types d) args cs ->
    let q := l_call L ("MoorDyn_" ++ d_name d) s i cs in
    exists w', fn (d_name d) (PCap (d_kind d) h i :: args) w = (simple_value (d_shape d) q, Some w') /\
      becomes w w' h (c_sys q).
(** the functions that do not *)
Definition exceptions : list string :=
  ["ExternalWaveKinInit"; "ExternalWaveKinGetN"; "UseBodyVTK"; "IsLinePressBend"; "GetLineNodeSeabedForce"].

(** points as lists of lists of three numbers *)
Definition points (l : list (F * F * F)) : pyv F := PLst (map (fun p => PLst [PFlt (fst (fst p)); PFlt (snd (fst p)); PFlt (snd p)]) l).
Fixpoint flat (l : list (F * F * F)) : list F :=
  match l with nil => nil | (a, b, c) :: l => a :: b :: c :: flat l end.
End Spec.
