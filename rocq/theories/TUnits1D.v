(* Property theorems: a 1-D line fit in other units (C133). *)
From Coq Require Import String Reals List Bool Arith ZArith.
From Verif Require Import PyFloat PyBase Arr PyNum MIo MTrim MFit1D SKernels SMask STrim SPost SFit1D SUnits1D PFit1DEx PUnits1D PUnits1D2 PUnits1D3.
Import ListNotations.
Local Open Scope R_scope.

(** C133: a fit in other units of wavelength and flux is the old fit, in the new units: same redshift and dispersion, converted fluxes, continuum, model, errors and saved realisations, same exception if any. *)
Theorem C133_units : forall a b T' M rnd c o st, 0 < a -> 0 < b -> lines_in a (t_lib c) T' -> follows_units a b M ->
  (o_reload_errors o = true -> forall m, f_file st = Some m -> cols m <> 1%nat) ->
  fit M rnd (cfg_in a b T' c) o (fit_in a b (length (t_names c)) st) =
  (fit_in a b (length (t_names c)) (fst (fit M rnd c o st)), snd (fit M rnd c o st)).
Proof. exact fit_units. Qed.
Print Assumptions C133_units.

Example C133_units_example : forall rnd, exists s', fit (tryM []) rnd (ex_cfg1 ones3) (ex_opts true) (ex_st1 1) = (s', Ok tt) /\
  fit (tryM []) rnd (cfg_in 10 3 (lib_in 10 shipped) (ex_cfg1 ones3)) (ex_opts true) (fit_in 10 3 1 (ex_st1 1)) = (fit_in 10 3 1 s', Ok tt) /\
  f_flux (fit_in 10 3 1 (ex_st1 1)) = Some [Fin 30] /\ f_vd (fit_in 10 3 1 s') = f_vd s'.
Proof. exact units_ex. Qed.

Example C133_optimiser_example : forall a b,
  0 < a -> 0 < b -> follows_units a b halving /\ insensitive halving /\ exists rf rf' p, halving rf p <> halving rf' p.
Proof. exact halving_follows. Qed.

(** C133: converting the wavelengths of the line table converts the lines of every set. *)
Theorem C133_library : forall a T, lines_in a T (lib_in a T).
Proof. exact lib_lines. Qed.
Print Assumptions C133_library.

(** C133: the dispersion corrected for the instrument and its errors are the same in all units. *)
Theorem C133_corrected : forall a b T' c noErrors err_file st, 0 < a -> 0 < b ->
  inst_corr (cfg_in a b T' c) noErrors err_file (fit_in a b (length (t_names c)) st) =
  (fit_in a b (length (t_names c)) (fst (inst_corr c noErrors err_file st)), snd (inst_corr c noErrors err_file st)).
Proof. exact corr_units. Qed.
Print Assumptions C133_corrected.

(** C133: multiplying all flux errors by one factor leaves the best fit as it is. *)
Theorem C133_error_scale : forall M rnd k c o st, 0 < k -> insensitive M -> o_noErrors o = true ->
  fit M rnd (with_errors k c) o st = fit M rnd c o st.
Proof. exact fit_errors. Qed.
Print Assumptions C133_error_scale.

Example C133_error_scale_example : forall rnd,
  exists s', fit (tryM []) rnd (with_errors 2 (ex_cfg1 ones3)) (ex_opts true) (ex_st1 1) = (s', Ok tt) /\
  s_err (t_spec (with_errors 2 (ex_cfg1 ones3))) <> s_err (t_spec (ex_cfg1 ones3)).
Proof. exact errors_ex. Qed.
