(** C116: a function of the wrapper for Matlab answers what the C function answers. *)
From Coq Require Import String ZArith List Arith Bool Lia.
From Verif Require Import MMex SMex PMex.
Import ListNotations.
Open Scope string_scope.
Open Scope Z_scope.

(** for the cases: a library in which numbers stand for reals *)
Definition demo_lib (n : string) (s : string) (v : list (cin Z)) : cres Z string := CRes Z string 0 7 n (fun k => Z.of_nat k) (fun k i => Z.of_nat (100 * k + i)).
Definition demo_reach (n : string) (s : string) (v : list (cin Z)) (k : nat) : nat := match n with "MoorDyn_GetBodyM" => 36 | "MoorDyn_ExternalWaveKinGetCoordinates" => 3 | _ => 3 end%nat.
Definition demo := mcall Z string (fun z => z) (fun z => z) 0 demo_lib demo_reach.
Definition num (z : Z) : marr Z := MArr Z KDouble 1 1 [EF Z z].
Definition system : marr Z := MArr Z KUInt64 1 1 [EZ Z 5].
Definition reals3 : marr Z := MArr Z KDouble 1 3 [EF Z 1; EF Z 2; EF Z 3].

(** The C function of the same name gets what the caller gives, and what it gives back is returned; if it fails, an error
    is raised. Missing: the functions that take the name of a file, vectors that are too short, and matrices that are not
    symmetric, see below. *)
Theorem C116_documented_partial : forall F S trunc ofint fzero (lib : string -> S -> list (cin F) -> cres F S) reach d h args ins s,
  In d documented -> ~ In (d_name d) misplaced -> fills trunc ofint (d_pars d) args ins ->
  let v := IObj F h :: ins in
  let q := lib (d_fun d) s v in
  let c := mcall F S trunc ofint fzero lib reach (d_name d) (n_outs d) (MArr F KUInt64 1 1 [EZ F h] :: args) s in
  (forall k p, nth_error (d_pars d) k = Some p -> may v (Datatypes.S k) p (reach (d_fun d) s v (Datatypes.S k)) /\ symmetric q (Datatypes.S k) p) ->
  (fails d q /\ c = Some (MErr F S (q_sys F S q))) \/
  (~ fails d q /\ exists l, c = Some (MVal F S l (q_sys F S q)) /\ returned d v q l).
Proof. intros F S trunc ofint fzero lib reach d h args ins s. exact (documented_call trunc ofint fzero lib reach d h args ins s). Qed.
Print Assumptions C116_documented_partial.
Example C116_documented_ok : length documented = 82%nat /\
  In (Doc "MoorDynM_Step" "MoorDyn_Step" [PVec; PVec; QLike 1; PTime; PReal] Code [4%nat; 3%nat]) documented /\ ~ In "MoorDynM_Step" misplaced /\
  fills (F := Z) (fun z => z) (fun z => z) [PVec; PVec; QLike 1; PTime; PReal] [reals3; reals3; num 0; num 8] [IArr Z [1; 2; 3]; IArr Z [1; 2; 3]; IOut Z; IDbl Z 0; IDbl Z 8] /\
  (forall k p, nth_error [PVec; PVec; QLike 1; PTime; PReal] k = Some p ->
     may [IObj Z 5; IArr Z [1; 2; 3]; IArr Z [1; 2; 3]; IOut Z; IDbl Z 0; IDbl Z 8] (Datatypes.S k) p 3 /\
     symmetric (demo_lib "MoorDyn_Step" "" []) (Datatypes.S k) p) /\
  demo "MoorDynM_Step" 2 [system; reals3; reals3; num 0; num 8] "" = Some (MVal Z string [num 400; MArr Z KDouble 1 3 [EF Z 300; EF Z 301; EF Z 302]] "MoorDyn_Step").
Proof.
  split; [reflexivity|]. split; [unfold documented; cbn [In]; tauto|]. split; [unfold misplaced; cbn [In]; intuition discriminate|].
  split. { apply (fills_vec _ _ _ _ _ 1%nat 3%nat [1; 2; 3]); [reflexivity|]. apply (fills_vec _ _ _ _ _ 1%nat 3%nat [1; 2; 3]); [reflexivity|].
    apply fills_out; [exact Logic.I|]. apply (fills_time _ _ _ _ _ _ (EF Z 0)); [constructor; reflexivity|]. apply (fills_real _ _ _ _ _ _ (EF Z 8)); [constructor; reflexivity|]. apply fills_nil. }
  split; [|reflexivity]. intros k p H. destruct k as [|[|[|[|[|k]]]]]; cbn in H; try (destruct k; discriminate H); injection H as <-; cbn; auto.
Qed.

(** Creating a system: the name is handed over; a handle comes back, or an error is raised. Anything but one text in and
    one output is an error, and nothing happens. *)
Theorem C116_create : forall F S trunc ofint fzero (lib : string -> S -> list (cin F) -> cres F S) reach,
  (forall t s, let q := lib "MoorDyn_Create" s [IStr F t] in
     mcall F S trunc ofint fzero lib reach "MoorDynM_Create" 1 [MArr F KChar 1 (length t) (map (EZ F) t)] s =
     Some (if q_obj F S q =? 0 then MErr F S (q_sys F S q) else MVal F S [MArr F KUInt64 1 1 [EZ F (q_obj F S q)]] (q_sys F S q))) /\
  (forall o ins s, (o <> 1%nat \/ length ins <> 1%nat \/ forall a, ins = [a] -> a_cls F a <> KChar) ->
     mcall F S trunc ofint fzero lib reach "MoorDynM_Create" o ins s = Some (MErr F S s)).
Proof. intros F S trunc ofint fzero lib reach. split; [exact (create_call trunc ofint fzero lib reach)|exact (create_other trunc ofint fzero lib reach)]. Qed.
Print Assumptions C116_create.
Example C116_create_ok : demo "MoorDynM_Create" 1 [MArr Z KChar 1 2 [EZ Z 97; EZ Z 98]] "" = Some (MVal Z string [MArr Z KUInt64 1 1 [EZ Z 7]] "MoorDyn_Create") /\
  demo "MoorDynM_Create" 1 [num 3] "" = Some (MErr Z string "").
Proof. split; reflexivity. Qed.

(** The coordinates of the points at which the kinematics are wanted: three for each, as many as there are. *)
Theorem C116_coordinates : forall F S trunc ofint fzero (lib : string -> S -> list (cin F) -> cres F S) reach h s n,
  let q := lib "MoorDyn_ExternalWaveKinGetN" s [IObj F h; IOut F] in
  let r := lib "MoorDyn_ExternalWaveKinGetCoordinates" (q_sys F S q) [IObj F h; IOut F] in
  q_num F S q 1 = Z.of_nat n -> reach "MoorDyn_ExternalWaveKinGetCoordinates" (q_sys F S q) [IObj F h; IOut F] 1%nat = (3 * n)%nat ->
  let c := mcall F S trunc ofint fzero lib reach "MoorDynM_ExternalWaveKinGetCoordinates" 1 [MArr F KUInt64 1 1 [EZ F h]] s in
  (q_err F S q <> 0 -> c = Some (MErr F S (q_sys F S q))) /\
  (q_err F S q = 0 -> q_err F S r <> 0 -> c = Some (MErr F S (q_sys F S r))) /\
  (q_err F S q = 0 -> q_err F S r = 0 -> exists a, c = Some (MVal F S [a] (q_sys F S r)) /\ a_cls F a = KDouble /\ a_rows F a = 1%nat /\ a_cols F a = (3 * n)%nat /\
     forall i, (i < 3 * n)%nat -> entry a 0 i = Some (EF F (q_dbl F S r 1 i))).
Proof. intros F S trunc ofint fzero lib reach h s n. exact (coords_call trunc ofint fzero lib reach h s n). Qed.
Print Assumptions C116_coordinates.
Example C116_coordinates_ok : demo "MoorDynM_ExternalWaveKinGetCoordinates" 1 [system] "" = Some (MVal Z string [MArr Z KDouble 1 3 [EF Z 100; EF Z 101; EF Z 102]] "MoorDyn_ExternalWaveKinGetCoordinates") /\
  q_num Z string (demo_lib "MoorDyn_ExternalWaveKinGetN" "" [IObj Z 5; IOut Z]) 1 = Z.of_nat 1 /\ demo_reach "MoorDyn_ExternalWaveKinGetCoordinates" "" [IObj Z 5; IOut Z] 1 = (3 * 1)%nat.
Proof. repeat split. Qed.

(** A call with another number of inputs or outputs is an error, and nothing happens; so is one with an array that is empty
    or holds no numbers in the place of the handle. *)
Theorem C116_counts : forall F S trunc ofint fzero (lib : string -> S -> list (cin F) -> cres F S) reach d, In d documented ->
  (forall o ins s, length ins <> (1 + n_ins d)%nat \/ o <> n_outs d -> mcall F S trunc ofint fzero lib reach (d_name d) o ins s = Some (MErr F S s)) /\
  (forall o a args s, numeric (a_cls F a) = false \/ a_data F a = [] -> mcall F S trunc ofint fzero lib reach (d_name d) o (a :: args) s = Some (MErr F S s)).
Proof.
  intros F S trunc ofint fzero lib reach d Hd. split; intros.
  - apply (documented_count trunc ofint fzero lib reach d); assumption.
  - apply (documented_no_handle trunc ofint fzero lib reach d); assumption.
Qed.
Print Assumptions C116_counts.
Example C116_counts_ok : demo "MoorDynM_Step" 1 [system; reals3; reals3; num 0; num 8] "" = Some (MErr Z string "") /\
  demo "MoorDynM_Step" 2 [system; reals3; reals3; num 0] "" = Some (MErr Z string "") /\
  demo "MoorDynM_Close" 0 [MArr Z KUInt64 0 0 []] "" = Some (MErr Z string "") /\ demo "MoorDynM_Close" 0 [system] "" = Some (MVal Z string [] "MoorDyn_Close").
Proof. repeat split. Qed.

(** Refuted: the functions that take the name of a file look for it in the place of the handle; with a handle there they
    raise an error, whatever else they are given, and the library is never called. *)
Theorem C116_files_refuted : forall F S trunc ofint fzero (lib : string -> S -> list (cin F) -> cres F S) reach n o r c l args s,
  In n ["MoorDynM_Load"; "MoorDynM_Save"; "MoorDynM_SaveVTK"; "MoorDynM_SaveBodyVTK"; "MoorDynM_SaveLineVTK"; "MoorDynM_SaveRodVTK"; "MoorDynM_SetLogFile"; "MoorDynM_UseBodyVTK"] ->
  mcall F S trunc ofint fzero lib reach n o (MArr F KUInt64 r c l :: args) s = Some (MErr F S s).
Proof. intros F S trunc ofint fzero lib reach n o r c l args s H. exact (misplaced_call trunc ofint fzero lib reach n o r c l args s H). Qed.
Print Assumptions C116_files_refuted.
Example C116_files_case : In (Doc "MoorDynM_Save" "MoorDyn_Save" [PText] Code []) documented /\
  demo "MoorDynM_Save" 0 [system; MArr Z KChar 1 1 [EZ Z 97]] "" = Some (MErr Z string "") /\
  demo "MoorDynM_SaveConnectVTK" 0 [system; MArr Z KChar 1 1 [EZ Z 97]] "" = Some (MVal Z string [] "MoorDyn_SavePointVTK").
Proof. split; [unfold documented; cbn [In]; tauto|]. split; reflexivity. Qed.

(** Refuted: the length of a vector is never looked at; the C function reads beyond the end of one that is too short. *)
Theorem C116_lengths_refuted : forall F S trunc ofint fzero (lib : string -> S -> list (cin F) -> cres F S) reach d h args ins s k x,
  In d documented -> ~ In (d_name d) misplaced -> fills trunc ofint (d_pars d) args ins ->
  nth_error (d_pars d) k = Some PVec -> nth_error ins k = Some (IArr F x) -> (length x < reach (d_fun d) s (IObj F h :: ins) (Datatypes.S k))%nat ->
  mcall F S trunc ofint fzero lib reach (d_name d) (n_outs d) (MArr F KUInt64 1 1 [EZ F h] :: args) s = Some (MUB F S).
Proof. intros F S trunc ofint fzero lib reach d h args ins s k x. exact (short_vector trunc ofint fzero lib reach d h args ins s k x). Qed.
Print Assumptions C116_lengths_refuted.
Example C116_lengths_case : demo "MoorDynM_Step" 2 [system; reals3; num 1; num 0; num 8] "" = Some (MUB Z string) /\
  demo "MoorDynM_Init" 0 [system; reals3; num 1] "" = Some (MUB Z string) /\ demo "MoorDynM_Init_NoIC" 0 [system; num 1; reals3] "" = Some (MUB Z string) /\
  demo "MoorDynM_SetLinePressInt" 0 [system; num 1] "" = Some (MUB Z string) /\ demo "MoorDynM_ExternalWaveKinSet" 0 [system; num 1; num 1; num 0] "" = Some (MUB Z string) /\
  In (Doc "MoorDynM_SetLinePressInt" "MoorDyn_SetLinePressInt" [PVec] Code []) documented.
Proof. do 5 (split; [reflexivity|]). unfold documented; cbn [In]; tauto. Qed.

(** Refuted: a matrix comes back with rows and columns exchanged. *)
Theorem C116_matrix_refuted : forall F S trunc ofint fzero (lib : string -> S -> list (cin F) -> cres F S) reach d h args ins s,
  In d documented -> fills trunc ofint (d_pars d) args ins -> forall k n,
  let v := IObj F h :: ins in let q := lib (d_fun d) s v in
  nth_error (d_pars d) k = Some (QMat n) -> reach (d_fun d) s v (Datatypes.S k) = (n * n)%nat -> q_err F S q = 0 ->
  exists a, mcall F S trunc ofint fzero lib reach (d_name d) (n_outs d) (MArr F KUInt64 1 1 [EZ F h] :: args) s = Some (MVal F S [a] (q_sys F S q)) /\
    a_rows F a = n /\ a_cols F a = n /\
    (forall i j, (i < n)%nat -> (j < n)%nat -> entry a i j = Some (EF F (q_dbl F S q (Datatypes.S k) (n * j + i)))) /\
    (forall i j, (i < n)%nat -> (j < n)%nat -> q_dbl F S q (Datatypes.S k) (n * i + j) <> q_dbl F S q (Datatypes.S k) (n * j + i) -> ~ returned d v q [a]).
Proof.
  intros F S trunc ofint fzero lib reach d h args ins s Hd Hf k n v q Hk Hr Hq.
  destruct (matrix_call trunc ofint fzero lib reach d h args ins s Hd Hf k n Hk Hr Hq) as (a & E & Er & Ec & Ee).
  exists a. split; [exact E|]. split; [exact Er|]. split; [exact Ec|]. split; [exact Ee|]. intros i j Hi Hj Hn Hret.
  assert (Q : nth_error (d_pars d) k = Some (QMat n) -> d_kind d = Code /\ d_outs d = [Datatypes.S k]).
  { pose proof matrices as M. rewrite Forall_forall in M. exact (M d Hd k n). }
  destruct (Q Hk) as [Q1 Q2]. unfold returned in Hret. rewrite Q1, Q2 in Hret. inversion Hret as [|k' a' l1 l2 (p & Hp & Hs)]; subst.
  replace (Datatypes.S k - 1)%nat with k in Hp by lia. rewrite Hk in Hp. injection Hp as <-. cbn [shows] in Hs. destruct Hs as (_ & _ & _ & Hs).
  specialize (Hs i j Hi Hj). rewrite (Ee i j Hi Hj) in Hs. injection Hs as Hs. apply Hn. symmetry. exact Hs.
Qed.
Print Assumptions C116_matrix_refuted.
Example C116_matrix_case : In (Doc "MoorDynM_GetBodyM" "MoorDyn_GetBodyM" [QMat 6] Code [1%nat]) documented /\
  match demo "MoorDynM_GetBodyM" 1 [system] "" with Some (MVal _ _ [a] _) => entry a 0 1 = Some (EF Z 106) /\ entry a 1 0 = Some (EF Z 101) | _ => False end.
Proof. split; [unfold documented; cbn [In]; tauto|]. split; reflexivity. Qed.

(** Refuted: any number is taken for a handle, also that of a system that was closed. *)
Theorem C116_handles_refuted : forall F S trunc ofint fzero (lib : string -> S -> list (cin F) -> cres F S) reach d o a e args s,
  In d documented -> ~ In (d_name d) misplaced -> scalar a e ->
  mcall F S trunc ofint fzero lib reach (d_name d) o (a :: args) s =
  mcall F S trunc ofint fzero lib reach (d_name d) o (MArr F KUInt64 1 1 [EZ F (int_of trunc e)] :: args) s.
Proof. intros F S trunc ofint fzero lib reach d o a e args s. exact (any_handle trunc ofint fzero lib reach d o a e args s). Qed.
Print Assumptions C116_handles_refuted.
Example C116_handles_case : demo "MoorDynM_Close" 0 [num 42] "" = Some (MVal Z string [] "MoorDyn_Close") /\ scalar (num 42) (EF Z 42) /\
  In (Doc "MoorDynM_Close" "MoorDyn_Close" [] Code []) documented.
Proof. split; [reflexivity|]. split; [constructor; reflexivity|]. unfold documented; cbn [In]; tauto. Qed.
