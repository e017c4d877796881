(** C119: the files of a system. *)
From Coq Require Import String Ascii List Arith ZArith Bool Lia.
From Verif Require Import MErr MStr MOut MPath SPath PPath.
Import ListNotations.
Open Scope Z_scope.

(** The path of the input file is split into its directory and its name without the extension, wherever there are dots and
    separators in it; without a path it is Mooring/lines.txt. *)
Theorem C119_names : forall s d f t, s <> [] -> Z.of_nat (length s) < 2 ^ 63 -> splits s d f -> stem f t -> set_names (Some s) = Ok (Names s t d).
Proof. exact names_ok. Qed.
Print Assumptions C119_names.
Theorem C119_default : set_names None = set_names (Some (ot "Mooring/lines.txt")) /\ set_names (Some []) = set_names (Some (ot "Mooring/lines.txt")).
Proof. split; reflexivity. Qed.
Print Assumptions C119_default.
Example C119_case_names : splits (ot "../a.b/moor") (ot "../a.b/") (ot "moor") /\ stem (ot "moor") (ot "moor") /\ splits (ot "x.y.txt") [] (ot "x.y.txt") /\ stem (ot "x.y.txt") (ot "x.y") /\
  set_names (Some (ot "../a.b/moor")) = Ok (Names (ot "../a.b/moor") (ot "moor") (ot "../a.b/")).
Proof.
  split; [split; [reflexivity|split; [repeat constructor|right; exists (ot "../a.b"), "/"%char; split; reflexivity]]|]. split; [left; split; [repeat constructor|reflexivity]|].
  split; [split; [reflexivity|split; [repeat constructor|left; reflexivity]]|]. split; [right; exists (ot "txt"), "."%char; repeat split; repeat constructor|reflexivity].
Qed.

(** Every output file is in the directory of the input file and has its name with the ending of the object; no two objects have the
    same file. *)
Theorem C119_outputs : forall s d f t w cwd, splits s d f -> stem f t -> place cwd (written_file (Names s t d) w) = place cwd d ++ [t ++ written_name w].
Proof. exact written_place. Qed.
Print Assumptions C119_outputs.
Theorem C119_distinct : forall ns w w', written_file ns w = written_file ns w' -> w = w'.
Proof. intros ns w w' H. unfold written_file in H. do 2 apply app_inv_head in H. exact (written_inj w w' H). Qed.
Print Assumptions C119_distinct.

(** The files of curves and of 4D currents are looked for in the directory of the input file, and so are all the files of waves and
    currents if the path of the input file has a directory. Missing: input files given without a directory. *)
Theorem C119_companions_partial : forall s d f t c cwd, splits s d f -> (d <> [] \/ match c with CCurve e => relative e | C4D => True | _ => False end) -> (forall e, c <> CSeafloor e) ->
  place cwd (companion_file (Names s t d) c) = beside cwd d (given c).
Proof. exact companions_place. Qed.
Print Assumptions C119_companions_partial.
Example C119_case_companions : beside [ot "home"] (ot "sub/") (given CGrid) = [ot "home"; ot "sub"; ot "water_grid.txt"].
Proof. reflexivity. Qed.

(** REFUTED for input files given without a directory: the files of waves and currents are looked for in the root directory, not
    beside the input file. *)
Theorem C119_waves_refuted : forall s f t c cwd, splits s [] f -> cwd <> [] -> In c [CFrequencies; CElevation; CGrid; CSteady; CDynamic] ->
  place cwd (companion_file (Names s t []) c) = steps (given c) /\ place cwd (companion_file (Names s t []) c) <> beside cwd [] (given c).
Proof. exact waves_root. Qed.
Print Assumptions C119_waves_refuted.
Example C119_case_waves : splits (ot "lines.txt") [] (ot "lines.txt") /\ set_names (Some (ot "lines.txt")) = Ok (Names (ot "lines.txt") (ot "lines") []) /\
  place [ot "home"] (companion_file (Names (ot "lines.txt") (ot "lines") []) CFrequencies) = [ot "wave_frequencies.txt"].
Proof. split; [split; [reflexivity|split; [repeat constructor|left; reflexivity]]|split; reflexivity]. Qed.

(** REFUTED: a file of a curve given with its full path is not looked for there. *)
Theorem C119_full_path_refuted : forall s d f t g cwd, splits s d f -> place cwd d <> [] -> d <> [] ->
  place cwd (companion_file (Names s t d) (CCurve ("/"%char :: g))) = place cwd d ++ steps g /\ place cwd (companion_file (Names s t d) (CCurve ("/"%char :: g))) <> place cwd ("/"%char :: g).
Proof. exact absolute_curve. Qed.
Print Assumptions C119_full_path_refuted.
Example C119_case_full : splits (ot "sub/lines.txt") (ot "sub/") (ot "lines.txt") /\ place [ot "home"] (ot "sub/") <> [].
Proof. split; [split; [reflexivity|split; [repeat constructor|right; exists (ot "sub"), "/"%char; split; reflexivity]]|discriminate]. Qed.

(** REFUTED: the input file is overwritten by the main output exactly if its extension is out *)
Theorem C119_input_kept_refuted : forall s d f t, splits s d f -> (written_file (Names s t d) WMain = s <-> f = t ++ ot ".out").
Proof. exact overwritten. Qed.
Print Assumptions C119_input_kept_refuted.
Example C119_case_input : set_names (Some (ot "a/moor.out")) = Ok (Names (ot "a/moor.out") (ot "moor") (ot "a/")) /\ written_file (Names (ot "a/moor.out") (ot "moor") (ot "a/")) WMain = ot "a/moor.out".
Proof. split; reflexivity. Qed.
