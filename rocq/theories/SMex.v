(** What a call of the wrapper for Matlab is to do. The C function of the same name gets what the caller gives for
    the parameters that go in; what it puts at the parameters that come out is returned, in order; error codes and
    null handles become errors (docs/drivers.rst l.572-632). The table gives, for each function, the parameters of the
    C prototype behind the handle; it is read from the headers. *)
From Coq Require Import String ZArith List Arith Bool.
From Verif Require Import MMex.
Import ListNotations.
Open Scope string_scope.
Open Scope Z_scope.

(** a parameter: a number, a real, a text, reals, a handle that go in; a real that goes in and comes back; an int, a
    real, some reals, a matrix, as many reals as there are at another parameter, that come out *)
Inductive par := PInt | PReal | PText | PVec | PHandle | PTime | QInt | QReal | QVec (n : nat) | QMat (n : nat) | QLike (k : nat).
(** what a C function returns: an error code, an object or null if it fails, an object or null if there is none *)
Inductive kind := Code | Object | Maybe.
Record doc := Doc { d_name : string; d_fun : string; d_pars : list par; d_kind : kind; d_outs : list nat }.
Definition documented : list doc := [
  (** MoorDyn2.h l.203 *) Doc "MoorDynM_Close" "MoorDyn_Close" [] Code [];
  (** MoorDyn2.h l.251 *) Doc "MoorDynM_ExternalWaveKinGetN" "MoorDyn_ExternalWaveKinGetN" [QInt] Code [1%nat];
  (** MoorDyn2.h l.239 *) Doc "MoorDynM_ExternalWaveKinInit" "MoorDyn_ExternalWaveKinInit" [QInt] Code [1%nat];
  (** MoorDyn2.h l.298-301 *) Doc "MoorDynM_ExternalWaveKinSet" "MoorDyn_ExternalWaveKinSet" [PVec; PVec; PReal] Code [];
  (** Seafloor.h l.38-39 *) Doc "MoorDynM_GetAverageDepth" "MoorDyn_GetAverageDepth" [QReal] Code [1%nat];
  (** MoorDyn2.h l.344 *) Doc "MoorDynM_GetBody" "MoorDyn_GetBody" [PInt] Object [];
  (** Body.h l.106 *) Doc "MoorDynM_GetBodyAngVel" "MoorDyn_GetBodyAngVel" [QVec 3] Code [1%nat];
  (** Body.h l.90 *) Doc "MoorDynM_GetBodyAngle" "MoorDyn_GetBodyAngle" [QVec 3] Code [1%nat];
  (** Body.h l.114 *) Doc "MoorDynM_GetBodyForce" "MoorDyn_GetBodyForce" [QVec 6] Code [1%nat];
  (** Body.h l.56 *) Doc "MoorDynM_GetBodyID" "MoorDyn_GetBodyID" [QInt] Code [1%nat];
  (** Body.h l.122 *) Doc "MoorDynM_GetBodyM" "MoorDyn_GetBodyM" [QMat 6] Code [1%nat];
  (** Body.h l.82 *) Doc "MoorDynM_GetBodyPos" "MoorDyn_GetBodyPos" [QVec 3] Code [1%nat];
  (** Body.h l.74 *) Doc "MoorDynM_GetBodyState" "MoorDyn_GetBodyState" [QVec 6; QVec 6] Code [1%nat; 2%nat];
  (** Body.h l.65 *) Doc "MoorDynM_GetBodyType" "MoorDyn_GetBodyType" [QInt] Code [1%nat];
  (** Body.h l.98 *) Doc "MoorDynM_GetBodyVel" "MoorDyn_GetBodyVel" [QVec 3] Code [1%nat];
  (** Seafloor.h l.24-27 *) Doc "MoorDynM_GetDepthAt" "MoorDyn_GetDepthAt" [PReal; PReal; QReal] Code [3%nat];
  (** MoorDyn2.h l.395 *) Doc "MoorDynM_GetLine" "MoorDyn_GetLine" [PInt] Object [];
  (** Line.h l.127 *) Doc "MoorDynM_GetLineConstantEA" "MoorDyn_GetLineConstantEA" [QReal] Code [1%nat];
  (** Line.h l.450 *) Doc "MoorDynM_GetLineFairTen" "MoorDyn_GetLineFairTen" [QReal] Code [1%nat];
  (** Line.h l.56 *) Doc "MoorDynM_GetLineID" "MoorDyn_GetLineID" [QInt] Code [1%nat];
  (** Line.h l.458 *) Doc "MoorDynM_GetLineMaxTen" "MoorDyn_GetLineMaxTen" [QReal] Code [1%nat];
  (** Line.h l.66 *) Doc "MoorDynM_GetLineN" "MoorDyn_GetLineN" [QInt] Code [1%nat];
  (** Line.h l.267-269 *) Doc "MoorDynM_GetLineNodeBendStiff" "MoorDyn_GetLineNodeBendStiff" [PInt; QVec 3] Code [2%nat];
  (** Line.h l.427-429 *) Doc "MoorDynM_GetLineNodeCurv" "MoorDyn_GetLineNodeCurv" [PInt; QReal] Code [2%nat];
  (** Line.h l.335-337 *) Doc "MoorDynM_GetLineNodeDrag" "MoorDyn_GetLineNodeDrag" [PInt; QVec 3] Code [2%nat];
  (** Line.h l.212-214 *) Doc "MoorDynM_GetLineNodeForce" "MoorDyn_GetLineNodeForce" [PInt; QVec 3] Code [2%nat];
  (** Line.h l.379-381 *) Doc "MoorDynM_GetLineNodeFroudeKrilov" "MoorDyn_GetLineNodeFroudeKrilov" [PInt; QVec 3] Code [2%nat];
  (** Line.h l.440-442 *) Doc "MoorDynM_GetLineNodeM" "MoorDyn_GetLineNodeM" [PInt; QMat 3] Code [2%nat];
  (** Line.h l.180-182 *) Doc "MoorDynM_GetLineNodePos" "MoorDyn_GetLineNodePos" [PInt; QVec 3] Code [2%nat];
  (** Line.h l.413-415 *) Doc "MoorDynM_GetLineNodeSeabedForce" "MoorDyn_GetLineNodeSeabedForce" [PInt; QVec 3] Code [2%nat];
  (** Line.h l.243-245 *) Doc "MoorDynM_GetLineNodeTen" "MoorDyn_GetLineNodeTen" [PInt; QVec 3] Code [2%nat];
  (** Line.h l.191-193 *) Doc "MoorDynM_GetLineNodeVel" "MoorDyn_GetLineNodeVel" [PInt; QVec 3] Code [2%nat];
  (** Line.h l.294-296 *) Doc "MoorDynM_GetLineNodeWeight" "MoorDyn_GetLineNodeWeight" [PInt; QVec 3] Code [2%nat];
  (** Line.h l.75 *) Doc "MoorDynM_GetLineNumberNodes" "MoorDyn_GetLineNumberNodes" [QInt] Code [1%nat];
  (** Line.h l.84 *) Doc "MoorDynM_GetLineUnstrechedLength" "MoorDyn_GetLineUnstretchedLength" [QReal] Code [1%nat];
  (** Seafloor.h l.47 *) Doc "MoorDynM_GetMinDepth" "MoorDyn_GetMinDepth" [QReal] Code [1%nat];
  (** MoorDyn2.h l.335 *) Doc "MoorDynM_GetNumberBodies" "MoorDyn_GetNumberBodies" [QInt] Code [1%nat];
  (** MoorDyn2.h l.388 *) Doc "MoorDynM_GetNumberLines" "MoorDyn_GetNumberLines" [QInt] Code [1%nat];
  (** MoorDyn2.h l.371 *) Doc "MoorDynM_GetNumberPoints" "MoorDyn_GetNumberPoints" [QInt] Code [1%nat];
  (** MoorDyn2.h l.354 *) Doc "MoorDynM_GetNumberRods" "MoorDyn_GetNumberRods" [QInt] Code [1%nat];
  (** MoorDyn2.h l.378 *) Doc "MoorDynM_GetPoint" "MoorDyn_GetPoint" [PInt] Object [];
  (** Point.h l.123-126 *) Doc "MoorDynM_GetPointAttached" "MoorDyn_GetPointAttached" [PInt; QInt; QInt] Code [2%nat; 3%nat];
  (** Point.h l.94 *) Doc "MoorDynM_GetPointForce" "MoorDyn_GetPointForce" [QVec 3] Code [1%nat];
  (** Point.h l.58 *) Doc "MoorDynM_GetPointID" "MoorDyn_GetPointID" [QInt] Code [1%nat];
  (** Point.h l.103 *) Doc "MoorDynM_GetPointM" "MoorDyn_GetPointM" [QMat 3] Code [1%nat];
  (** Point.h l.112 *) Doc "MoorDynM_GetPointNAttached" "MoorDyn_GetPointNAttached" [QInt] Code [1%nat];
  (** Point.h l.76 *) Doc "MoorDynM_GetPointPos" "MoorDyn_GetPointPos" [QVec 3] Code [1%nat];
  (** Point.h l.67 *) Doc "MoorDynM_GetPointType" "MoorDyn_GetPointType" [QInt] Code [1%nat];
  (** Point.h l.85 *) Doc "MoorDynM_GetPointVel" "MoorDyn_GetPointVel" [QVec 3] Code [1%nat];
  (** MoorDyn2.h l.361 *) Doc "MoorDynM_GetRod" "MoorDyn_GetRod" [PInt] Object [];
  (** Rod.h l.73 *) Doc "MoorDynM_GetRodForce" "MoorDyn_GetRodForce" [QVec 6] Code [1%nat];
  (** Rod.h l.56 *) Doc "MoorDynM_GetRodID" "MoorDyn_GetRodID" [QInt] Code [1%nat];
  (** Rod.h l.81 *) Doc "MoorDynM_GetRodM" "MoorDyn_GetRodM" [QMat 6] Code [1%nat];
  (** Rod.h l.91 *) Doc "MoorDynM_GetRodN" "MoorDyn_GetRodN" [QInt] Code [1%nat];
  (** Rod.h l.109-111 *) Doc "MoorDynM_GetRodNodePos" "MoorDyn_GetRodNodePos" [PInt; QVec 3] Code [2%nat];
  (** Rod.h l.120-122 *) Doc "MoorDynM_GetRodNodeVel" "MoorDyn_GetRodNodeVel" [PInt; QVec 3] Code [2%nat];
  (** Rod.h l.100 *) Doc "MoorDynM_GetRodNumberNodes" "MoorDyn_GetRodNumberNodes" [QInt] Code [1%nat];
  (** Rod.h l.64 *) Doc "MoorDynM_GetRodType" "MoorDyn_GetRodType" [QInt] Code [1%nat];
  (** MoorDyn2.h l.222 *) Doc "MoorDynM_GetSeafloor" "MoorDyn_GetSeafloor" [] Maybe [];
  (** MoorDyn2.h l.212 *) Doc "MoorDynM_GetWaves" "MoorDyn_GetWaves" [] Object [];
  (** Waves.h l.69-77 *) Doc "MoorDynM_GetWavesKin" "MoorDyn_GetWavesKin" [PReal; PReal; PReal; QVec 3; QVec 3; QReal; QReal; PHandle] Code [4%nat; 5%nat; 6%nat; 7%nat];
  (** MoorDyn2.h l.157 *) Doc "MoorDynM_Init" "MoorDyn_Init" [PVec; PVec] Code [];
  (** MoorDyn2.h l.175-177 *) Doc "MoorDynM_Init_NoIC" "MoorDyn_Init_NoIC" [PVec; PVec] Code [];
  (** Line.h l.115 *) Doc "MoorDynM_IsLineConstantEA" "MoorDyn_IsLineConstantEA" [QInt] Code [1%nat];
  (** Line.h l.149 *) Doc "MoorDynM_IsLinePressBend" "MoorDyn_IsLinePressBend" [QInt] Code [1%nat];
  (** MoorDyn2.h l.522 *) Doc "MoorDynM_Load" "MoorDyn_Load" [PText] Code [];
  (** MoorDyn2.h l.139 *) Doc "MoorDynM_Log" "MoorDyn_Log" [PInt; PText] Code [];
  (** MoorDyn2.h l.83 *) Doc "MoorDynM_NCoupledDOF" "MoorDyn_NCoupledDOF" [QInt] Code [1%nat];
  (** MoorDyn2.h l.509 *) Doc "MoorDynM_Save" "MoorDyn_Save" [PText] Code [];
  (** Body.h l.133 *) Doc "MoorDynM_SaveBodyVTK" "MoorDyn_SaveBodyVTK" [PText] Code [];
  (** Point.h l.137 *) Doc "MoorDynM_SaveConnectVTK" "MoorDyn_SavePointVTK" [PText] Code [];
  (** Line.h l.469 *) Doc "MoorDynM_SaveLineVTK" "MoorDyn_SaveLineVTK" [PText] Code [];
  (** Rod.h l.133 *) Doc "MoorDynM_SaveRodVTK" "MoorDyn_SaveRodVTK" [PText] Code [];
  (** MoorDyn2.h l.539 *) Doc "MoorDynM_SaveVTK" "MoorDyn_SaveVTK" [PText] Code [];
  (** Line.h l.139 *) Doc "MoorDynM_SetLineConstantEA" "MoorDyn_SetLineConstantEA" [PReal] Code [];
  (** Line.h l.160 *) Doc "MoorDynM_SetLinePressBend" "MoorDyn_SetLinePressBend" [PInt] Code [];
  (** Line.h l.171 *) Doc "MoorDynM_SetLinePressInt" "MoorDyn_SetLinePressInt" [PVec] Code [];
  (** MoorDyn2.h l.105 *) Doc "MoorDynM_SetLogFile" "MoorDyn_SetLogFile" [PText] Code [];
  (** MoorDyn2.h l.120 *) Doc "MoorDynM_SetLogLevel" "MoorDyn_SetLogLevel" [PInt] Code [];
  (** MoorDyn2.h l.97 *) Doc "MoorDynM_SetVerbosity" "MoorDyn_SetVerbosity" [PInt] Code [];
  (** MoorDyn2.h l.191-196 *) Doc "MoorDynM_Step" "MoorDyn_Step" [PVec; PVec; QLike 1; PTime; PReal] Code [4%nat; 3%nat];
  (** Body.h l.150 *) Doc "MoorDynM_UseBodyVTK" "MoorDyn_UseBodyVTK" [PText] Code []
].
(** those that look for the name of the file in the place of the handle *)
Definition misplaced : list string :=
  ["MoorDynM_Load"; "MoorDynM_Save"; "MoorDynM_SaveVTK"; "MoorDynM_SaveBodyVTK"; "MoorDynM_SaveLineVTK"; "MoorDynM_SaveRodVTK"; "MoorDynM_SetLogFile"; "MoorDynM_UseBodyVTK"].

Section Spec.
Context {F S : Type}.
Variable trunc : F -> Z.
Variable ofint : Z -> F.
Notation marr := (marr F).
Notation cin := (cin F).

(** a scalar, whatever its class *)
Inductive scalar : marr -> elem F -> Prop := Scalar : forall c e, numeric c = true -> scalar (MArr F c 1 1 [e]) e.
Definition int_of (e : elem F) : Z := match e with EZ _ z => z | EF _ f => trunc f end.
Definition real_of (e : elem F) : F := match e with EZ _ z => ofint z | EF _ f => f end.
(** the inputs behind the handle that the caller gives for the parameters, and what the C function is to get *)
Inductive fills : list par -> list marr -> list cin -> Prop :=
| fills_nil : fills [] [] []
| fills_int : forall ps l v a e, scalar a e -> fills ps l v -> fills (PInt :: ps) (a :: l) (IInt F (int_of e) :: v)
| fills_real : forall ps l v a e, scalar a e -> fills ps l v -> fills (PReal :: ps) (a :: l) (IDbl F (real_of e) :: v)
| fills_time : forall ps l v a e, scalar a e -> fills ps l v -> fills (PTime :: ps) (a :: l) (IDbl F (real_of e) :: v)
| fills_handle : forall ps l v h, fills ps l v -> fills (PHandle :: ps) (MArr F KUInt64 1 1 [EZ F h] :: l) (IObj F h :: v)
| fills_text : forall ps l v t, fills ps l v -> fills (PText :: ps) (MArr F KChar 1 (length t) (map (EZ F) t) :: l) (IStr F t :: v)
| fills_vec : forall ps l v r c x, (r * c)%nat = length x -> fills ps l v -> fills (PVec :: ps) (MArr F KDouble r c (map (EF F) x) :: l) (IArr F x :: v)
| fills_out : forall ps l v p, match p with QInt | QReal | QVec _ | QMat _ | QLike _ => True | _ => False end -> fills ps l v -> fills (p :: ps) l (IOut F :: v).

(** how many reals the C function may read or write at a parameter *)
Definition may (v : list cin) (k : nat) (p : par) (far : nat) : Prop :=
  match p with
  | PVec => match nth_error v k with Some (IArr _ x) => (far <= length x)%nat | _ => False end
  | QLike j => match nth_error v j with Some (IArr _ x) => far = length x | _ => False end
  | QVec n => far = n
  | QMat n => far = (n * n)%nat
  | _ => True
  end.
(** whether a matrix is the same when turned over *)
Definition symmetric (q : cres F S) (k : nat) (p : par) : Prop :=
  match p with QMat n => forall i j, (i < n)%nat -> (j < n)%nat -> q_dbl F S q k (n * i + j) = q_dbl F S q k (n * j + i) | _ => True end.

(** the element of an array in a row and a column *)
Definition entry (a : marr) (i j : nat) : option (elem F) :=
  if Nat.ltb i (a_rows F a) && Nat.ltb j (a_cols F a) then nth_error (a_data F a) (i + a_rows F a * j) else None.
(** what comes back at a parameter: an int, a real, a row of reals, a square matrix in rows, as C has it *)
Definition shows (v : list cin) (q : cres F S) (k : nat) (p : par) (a : marr) : Prop :=
  match p with
  | QInt => a_rows F a = 1%nat /\ a_cols F a = 1%nat /\ entry a 0 0 = Some (EZ F (q_num F S q k))
  | QReal | PTime => a_cls F a = KDouble /\ a_rows F a = 1%nat /\ a_cols F a = 1%nat /\ entry a 0 0 = Some (EF F (q_dbl F S q k 0))
  | QVec n => a_cls F a = KDouble /\ a_rows F a = 1%nat /\ a_cols F a = n /\ forall i, (i < n)%nat -> entry a 0 i = Some (EF F (q_dbl F S q k i))
  | QLike j => match nth_error v j with
               | Some (IArr _ x) => a_cls F a = KDouble /\ a_rows F a = 1%nat /\ a_cols F a = length x /\ forall i, (i < length x)%nat -> entry a 0 i = Some (EF F (q_dbl F S q k i))
               | _ => False
               end
  | QMat n => a_cls F a = KDouble /\ a_rows F a = n /\ a_cols F a = n /\ forall i j, (i < n)%nat -> (j < n)%nat -> entry a i j = Some (EF F (q_dbl F S q k (n * i + j)))
  | _ => False
  end.
(** the outputs for the parameters in a list *)
Definition returned (d : doc) (v : list cin) (q : cres F S) (l : list marr) : Prop :=
  match d_kind d with
  | Code => Forall2 (fun k a => exists p, nth_error (d_pars d) (k - 1) = Some p /\ shows v q k p a) (d_outs d) l
  | _ => exists a, l = [a] /\ a_cls F a = KUInt64 /\ a_rows F a = 1%nat /\ a_cols F a = 1%nat /\ entry a 0 0 = Some (EZ F (q_obj F S q))
  end.
(** the number of outputs *)
Definition n_outs (d : doc) : nat := match d_kind d with Code => length (d_outs d) | _ => 1 end.
(** the number of inputs behind the handle *)
Definition n_ins (d : doc) : nat := length (filter (fun p => match p with PInt | PReal | PText | PVec | PHandle | PTime => true | _ => false end) (d_pars d)).
(** whether the C function fails *)
Definition fails (d : doc) (q : cres F S) : Prop :=
  match d_kind d with Code => q_err F S q <> 0 | Object => q_obj F S q = 0 | Maybe => False end.
End Spec.
