(** The file of wave frequencies: spectrumFromFile, source/Waves/WaveSpectrum.cpp l.75-127, and the check of the first frequency,
    Waves.cpp l.370-373 and Waves/WaveGrid.cpp l.368-371. Numbers are exact reals; std::stod is any function. *)
From Coq Require Import String Ascii List Arith Reals.
From Verif Require Import MErr MStr MStateOps MInterp MCur.
Import ListNotations.
Open Scope R_scope.

(** FrequencyComponent, WaveSpectrum.hpp: the amplitude is a complex number *)
Record component := Component { k_omega : R; k_re : R; k_im : R; k_beta : R }.

Section Freq.
Variable stod : str -> outcome R.

(** catch (std::exception&): every exception of the block becomes an input_file_error, l.120-124 *)
Definition caught {A} (x : outcome A) : outcome A := match x with Throw _ => Throw ExInputFile | _ => x end.
(** one line of the file, l.97-124 *)
Definition spectrum_line (line : str) : outcome component :=
  let entries := split line in
  if Nat.ltb (length entries) 3 then Throw ExInputFile else
  caught (
    freq <- (e <- vget entries 0 ;; stod e) ;;
    r <- (e <- vget entries 1 ;; stod e) ;;
    i <- (e <- vget entries 2 ;; stod e) ;;
    beta <- (if Nat.eqb (length entries) 4 then e <- vget entries 3 ;; stod e else Ok 0) ;;
    if Rlt_dec (2 * PI) beta then Throw ExInputFile else if Rlt_dec beta (- (2 * PI)) then Throw ExInputFile else
    Ok (Component freq r i beta)).
(** spectrumFromFile on the contents of the file; a file that cannot be read is [None] *)
Definition spectrum_from_file (contents : option str) : outcome (list component) :=
  match contents with
  | None => Throw ExInputFile
  | Some text => let lines := file_to_lines text in if Nat.ltb (length lines) 2 then Throw ExInputFile else oeach spectrum_line lines
  end.
(** Waves::setup and constructWaveGridSpectrumData: the first frequency *)
Definition wave_components (contents : option str) : outcome (list component) :=
  l <- spectrum_from_file contents ;; first <- vget l 0 ;;
  if Req_EM_T (k_omega first) 0 then Ok l else Throw ExInvalidValue.
End Freq.
