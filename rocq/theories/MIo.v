(* Model: the table readers of misfit/general/io.py and the tables shipped in misfit/lib. *)
From Coq Require Import String Ascii Reals List Bool.
From Verif Require Import PyFloat PyBase.
Import ListNotations.
Local Open Scope R_scope.

(** np.where(data[key] == k)[0], ValueError when empty, else the first match
    (misfit/general/io.py:39-43, 59-63, 77-81, 96-100, 115-119).  A table is the list of its rows:
    key column and the other columns.  Reading the file (astropy.io.ascii) is not modelled. *)
Fixpoint lookup {A} (t : list (string * A)) (k : string) : res A :=
  match t with
  | [] => Err ValueError
  | (k', a) :: t => if String.eqb k' k then Ok a else lookup t k
  end.

(** str.split(',') (misfit/general/io.py:46) *)
Fixpoint split_comma (s : string) : list string :=
  match s with
  | EmptyString => [EmptyString]
  | String c s' =>
      if Ascii.eqb c ","%char then EmptyString :: split_comma s'
      else match split_comma s' with
           | [] => [String c EmptyString]
           | w :: ws => String c w :: ws
           end
  end.

(** The tables in misfit/lib read by the code: line_names_cat.dat, line_wavelengths_ratios.dat
    (restwave, strength), trim_wavelengths_1D.param, full_range_restwave_2D.param,
    line_range_restwave_2D.param, mask_lines_range_restwave_2D.param and
    band_sky_cutoff_mosfire.dat. The readers are misfit/general/io.py:26-121. *)
Record lib : Type := mkLib {
  b_names : list (string * string);
  b_lines : list (string * (R * R));
  b_trim1 : list (string * (R * R));
  b_full : list (string * (R * R));
  b_line : list (string * (R * R));
  b_mask : list (string * (R * R));
  b_sky : list (string * (R * string))
}.

(** misfit/general/io.py:25-48 [read_line_names] *)
Definition read_line_names (t : list (string * string)) (name : string) : res (list string) :=
  do s <- lookup t name; Ok (split_comma s).
(** misfit/general/io.py:52-67 [read_restwave] *)
Definition read_restwave (t : list (string * (R * R))) (l : string) : res R :=
  do r <- lookup t l; Ok (fst r).
(** misfit/general/io.py:69-86 [read_line_ratio] *)
Definition read_line_ratio (t : list (string * (R * R))) (l : string) : res R :=
  do r <- lookup t l; Ok (snd r).
(** misfit/general/io.py:89-105 [read_wave_range] *)
Definition read_wave_range (t : list (string * (R * R))) (l : string) : res (fl * fl) :=
  do r <- lookup t l; Ok (Fin (fst r), Fin (snd r)).
(** misfit/general/io.py:107-121 [read_skyline_band_cutoff] *)
Definition read_skyline_band_cutoff (t : list (string * (R * string))) (band : string) : res (fl * string) :=
  do r <- lookup t band; Ok (Fin (fst r), snd r).

(** misfit/lib/line_names_cat.dat:1-7 *)
Definition lib_names : list (string * string) :=
  [("Halpha", "HA6565"); ("Hbeta", "HB4863"); ("OIII", "OIII5008,OIII4960");
   ("NII", "NII6550,NII6585"); ("SII", "SII6733,SII6718"); ("OII", "OII3727,OII3730")]%string.

(** misfit/lib/line_wavelengths_ratios.dat:1-11 *)
Definition lib_lines : list (string * (R * R)) :=
  [("HA6565"%string, (656460 / 100, 1)); ("HB4863"%string, (486271 / 100, 1));
   ("OIII5008"%string, (500824 / 100, 1)); ("OIII4960"%string, (4960295 / 1000, 333333 / 1000000));
   ("NII6550"%string, (654986 / 100, 333333 / 1000000)); ("NII6585"%string, (658527 / 100, 1));
   ("SII6718"%string, (6718294 / 1000, 261111 / 1000000)); ("SII6733"%string, (6732673 / 1000, 1));
   ("OII3727"%string, (372710 / 100, 1)); ("OII3730"%string, (372986 / 100, 233333 / 1000000))].

(** misfit/lib/trim_wavelengths_1D.param:1-8 *)
Definition lib_trim1 : list (string * (R * R)) :=
  [("HA6565"%string, (6480, 6650)); ("HB4863"%string, (4800, 4920)); ("OIII5008"%string, (4950, 5060));
   ("Halpha"%string, (6480, 6650)); ("Hbeta"%string, (4800, 4920)); ("OIII"%string, (4930, 5060))].

(** misfit/lib/full_range_restwave_2D.param:1-6 *)
Definition lib_full : list (string * (R * R)) :=
  [("HA6565"%string, (645460 / 100, 667460 / 100)); ("HB4863"%string, (478771 / 100, 493271 / 100));
   ("OIII5008"%string, (488024 / 100, 511824 / 100))].

(** misfit/lib/line_range_restwave_2D.param:1-6 *)
Definition lib_line : list (string * (R * R)) :=
  [("HA6565"%string, (655560 / 100, 657360 / 100)); ("HB4863"%string, (485671 / 100, 486871 / 100));
   ("OIII5008"%string, (500229 / 100, 501524 / 100))].

(** misfit/lib/mask_lines_range_restwave_2D.param:1-6 *)
Definition lib_mask : list (string * (R * R)) :=
  [("HA6565"%string, (653360 / 100, 659960 / 100)); ("HB4863"%string, (485271 / 100, 487271 / 100));
   ("OIII5008"%string, (492824 / 100, 503824 / 100))].

(** misfit/lib/band_sky_cutoff_mosfire.dat:1-5 *)
Definition lib_sky : list (string * (R * string)) :=
  [("K"%string, (2, "timesMedianErr"%string)); ("H"%string, (3, "timesMedianErr"%string));
   ("J"%string, (3, "timesMedianErr"%string)); ("Y"%string, (3, "timesMedianErr"%string))].

(** misfit/lib as shipped. misfit/lib/line_names_cat.dat and the other files cited above. *)
Definition shipped : lib := mkLib lib_names lib_lines lib_trim1 lib_full lib_line lib_mask lib_sky.
