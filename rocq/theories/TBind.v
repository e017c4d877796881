(** C115: a call through the bindings for Fortran and Rust is a call of the C function. *)
From Coq Require Import String Ascii ZArith List Arith Bool Lia.
From Verif Require Import MBind SBind PBind PBindB.
Import ListNotations.
Open Scope string_scope.
Open Scope Z_scope.

(** Fortran: the C function of the same name gets what the caller gives, and the call ends as that function does.
    Missing: the exceptions and sections of arrays with gaps, see below. *)
Theorem C115_fortran_partial : forall F S (lib : string -> list (aval F) -> S -> mem F -> aval F * S * mem F) n c fs,
  In (n, c, fs) documented -> ~ In n exceptions -> forall us s m, Forall2 (given m) fs us ->
  exists vs, handed_all m fs us vs /\ fcall F S lib n us s m = answers lib c vs s m.
Proof. intros F S lib. exact (documented_call lib). Qed.
Print Assumptions C115_fortran_partial.
Example C115_fortran_ok : length documented = 87%nat /\
  In ("MD_Step", "MoorDyn_Step", [Handle; Reals; Reals; Reals; RealVar; RealVar]) documented /\ ~ In "MD_Step" exceptions /\
  Forall2 (given demo_mem) [Handle; Reals; Reals; Reals; RealVar; RealVar] [UVar 1; UArr 100 1 3; UArr 103 1 3; UArr 106 1 3; UVar 3; UVar 109] /\
  fcall Z string demo_lib "MD_Step" [UVar 1; UArr 100 1 3; UArr 103 1 3; UArr 106 1 3; UVar 3; UVar 109] "" demo_mem = FRet Z string (AInt Z 6) "MoorDyn_Step" demo_mem /\
  Forall2 (given demo_mem) [Handle; Text] [UVar 1; UStr ["a"; " "; "b"; " "; " "]%char] /\
  fcall Z string (fun n vs s m => (nth 1 vs (AInt Z 0), n, m)) "MD_Save" [UVar 1; UStr ["a"; " "; "b"; " "; " "]%char] "" demo_mem = FRet Z string (AText Z ["a"; " "; "b"; zero]%char) "MoorDyn_Save" demo_mem.
Proof.
  split; [reflexivity|]. split; [unfold documented; cbn [In]; tauto|]. split; [unfold exceptions; cbn [In]; intuition discriminate|].
  assert (R : forall b, 100 <= b -> given demo_mem Reals (UArr b 1 3)).
  { intros b Hb. constructor; [lia|]. intros i Hi. unfold element, demo_mem.
    destruct (Z.eqb_spec (b + Z.of_nat i * 1) 1); [lia|]. destruct (Z.eqb_spec (b + Z.of_nat i * 1) 2); [lia|]. destruct (Z.eqb_spec (b + Z.of_nat i * 1) 3); [lia|].
    destruct (Z.leb_spec 100 (b + Z.of_nat i * 1)); [eexists; reflexivity|lia]. }
  split. { repeat (apply Forall2_cons; [first [apply R; lia | econstructor; reflexivity]|]). apply Forall2_nil. }
  split; [reflexivity|]. split; [|reflexivity].
  constructor; [econstructor; reflexivity|]. constructor; [|constructor]. constructor. cbn [In]. intuition discriminate.
Qed.

(** Refuted: no call of one of these functions returns, whatever it is given. Either the program does not link, or the
    compiler refuses the arguments, or the C function gets an address for a number, doubles for floats, or an argument
    too many. *)
Theorem C115_fortran_refuted : forall F S (lib : string -> list (aval F) -> S -> mem F -> aval F * S * mem F) n us s m,
  In n ["MD_SetVerbosity"; "MD_SetLogLevel"; "MD_Log"; "MD_ExternalWaveKinSet"; "MD_GetWavesKin"; "MD_GetFASTtens"; "MD_SetLineConstantEA"; "MD_SetLinePressBend"] ->
  ~ returns (fcall F S lib n us s m).
Proof. intros F S lib n us s m H. exact (exception_call lib n us s m H). Qed.
Print Assumptions C115_fortran_refuted.
Example C115_fortran_case : Forall (fun n => exists c fs, In (n, c, fs) documented) exceptions /\
  fcall Z string demo_lib "MD_SetVerbosity" [UVar 1; UVar 2] "" demo_mem = FNoLink Z string /\
  fcall Z string demo_lib "MD_SetLogLevel" [UVar 1; UVar 2] "" demo_mem = FUB Z string /\
  fcall Z string demo_lib "MD_Log" [UVar 1; UVar 2; UStr ["a"%char]] "" demo_mem = FUB Z string /\
  fcall Z string demo_lib "MD_ExternalWaveKinSet" [UVar 1; UArr 100 1 3; UArr 103 1 3; UVar 3] "" demo_mem = FUB Z string /\
  fcall Z string demo_lib "MD_GetWavesKin" [UVar 1; UVar 3; UVar 3; UVar 3; UVar 3; UArr 100 1 3; UArr 103 1 3; UVar 110; UVar 111; UVar 1] "" demo_mem = FUB Z string /\
  fcall Z string demo_lib "MD_GetFASTtens" [UVar 1; UVar 2; UArr 100 1 3; UArr 103 1 3; UArr 106 1 3; UArr 109 1 3] "" demo_mem = FUB Z string /\
  fcall Z string demo_lib "MD_SetLineConstantEA" [UVar 1; UVar 3] "" demo_mem = FUB Z string /\
  fcall Z string demo_lib "MD_SetLinePressBend" [UVar 1; UVar 2] "" demo_mem = FUB Z string.
Proof.
  split; [|repeat split]. unfold exceptions, documented.
  repeat (apply Forall_cons; [do 2 eexists; cbn [In]; repeat (first [left; reflexivity | right])|]). apply Forall_nil.
Qed.

(** Refuted: of a section of an array with gaps, the C function gets the elements that follow the first one in memory,
    not those of the section. *)
Theorem C115_sections_refuted : forall F S (lib : string -> list (aval F) -> S -> mem F -> aval F * S * mem F) (m : mem F) a h b1 s1 n1 b2 s2 n2 f1 f2 s,
  m a = Some (VPtr F h) -> m b1 = Some (VDbl F f1) -> m b2 = Some (VDbl F f2) -> s1 <> 1 -> (2 <= n1)%nat ->
  fcall F S lib "MD_Init" [UVar a; UArr b1 s1 n1; UArr b2 s2 n2] s m = answers lib "MoorDyn_Init" [APtr F h; APtr F b1; APtr F b2] s m /\
  (forall v, ~ handed m Reals (UArr b1 s1 n1) v).
Proof.
  intros F S lib m a h b1 s1 n1 b2 s2 n2 f1 f2 s Ha H1 H2 Hs Hn. split.
  - exact (gap_init lib m a h b1 s1 n1 b2 s2 n2 f1 f2 s Ha H1 H2).
  - intros v. exact (gap_handed m b1 s1 n1 v Hs Hn).
Qed.
Print Assumptions C115_sections_refuted.
Example C115_sections_case : demo_mem 1 = Some (VPtr Z 7) /\ demo_mem 100 = Some (VDbl Z 100) /\ 2 <> 1 /\
  fcall Z string demo_lib "MD_Init" [UVar 1; UArr 100 2 3; UArr 106 1 3] "" demo_mem = FRet Z string (AInt Z 3) "MoorDyn_Init" demo_mem.
Proof. repeat split. discriminate. Qed.

(** Rust: a call with values that the C prototype takes is a call of the C function with them. Missing:
    MoorDyn_GetWavesKin, see below. *)
Theorem C115_rust_partial : forall F S (lib : string -> list (aval F) -> S -> mem F -> aval F * S * mem F) r,
  In r rprotos -> p_name r <> "MoorDyn_GetWavesKin" ->
  exists c, find_proto cprotos (p_name r) = Some c /\ forall vs s m, takes_all F m (p_params c) vs = true ->
    rcall F S lib (p_name r) vs s m = answers lib (p_name r) vs s m.
Proof. intros F S lib. exact (rust_call lib). Qed.
Print Assumptions C115_rust_partial.
Example C115_rust_ok : length rprotos = 53%nat /\
  takes_all Z demo_mem [CPtr (CObj "MoorDynLine"); CUInt; CPtr CDbl] [APtr Z 7; AInt Z 2; APtr Z 100] = true /\
  rcall Z string demo_lib "MoorDyn_GetLineNodePos" [APtr Z 7; AInt Z 2; APtr Z 100] "" demo_mem = FRet Z string (AInt Z 3) "MoorDyn_GetLineNodePos" demo_mem.
Proof. repeat split. Qed.

(** Refuted: the declaration of MoorDyn_GetWavesKin in Rust lacks the last parameter, the handle of the seafloor. No
    call of it returns: the C function takes for the handle whatever happens to be there. *)
Theorem C115_rust_refuted : forall F S (lib : string -> list (aval F) -> S -> mem F -> aval F * S * mem F) vs s m,
  ~ returns (rcall F S lib "MoorDyn_GetWavesKin" vs s m).
Proof. intros F S lib. exact (rust_waves_kin lib). Qed.
Print Assumptions C115_rust_refuted.
Example C115_rust_case : rcall Z string demo_lib "MoorDyn_GetWavesKin" [APtr Z 7; ADbl Z 1; ADbl Z 2; ADbl Z 3; APtr Z 100; APtr Z 103; APtr Z 106; APtr Z 107] "" demo_mem = FUB Z string.
Proof. reflexivity. Qed.
