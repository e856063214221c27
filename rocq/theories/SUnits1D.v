(* Specification vocabulary: a 1-D line fit in other units of wavelength and flux. *)
From Coq Require Import String Reals List Bool Arith.
From Verif Require Import PyFloat PyBase Arr PyNum MTrim MIo MFit1D.
Import ListNotations.
Local Open Scope R_scope.

(** Throughout, wavelengths are multiplied by [a] and flux densities by [b]; the flux of a line is then
    [a * b] times the old one and the coefficient of the [i]-th power in the continuum [b / a ^ i] times. *)
Definition par_times (k : R) (p : par) : par := mkPar (fmul (Fin k) (p_val p)) (fmul (Fin k) (p_lo p)) (fmul (Fin k) (p_hi p)).
Definition cont_factor (a b : R) (i : nat) : R := b / a ^ i.
Definition prm_in (a b : R) (q : prm) : prm :=
  mkPrm (m_z q) (m_vd q) (map (par_times (a * b)) (m_flux q)) (mapi (fun i p => par_times (cont_factor a b i) p) (m_cont q)).

(** An optimiser that follows the units: for residuals that are the same function of the converted
    parameters it returns the converted result. *)
Definition follows_units (a b : R) (M : optimiser) : Prop := forall rf rf' p,
  (forall q, rf' (prm_in a b q) = rf q) ->
  M rf' (prm_in a b p) = match M rf p with Ok r => Ok (prm_in a b r) | Err e => Err e end.

(** Line lists with the wavelengths converted. *)
Definition lines_in (a : R) (T T' : lib) : Prop := forall n,
  line_set T' n = match line_set T n with Ok l => Ok (map (fun wr => (a * fst wr, snd wr)) l) | Err e => Err e end.

(** Lists of values, converted by one factor or by one factor per position. *)
Definition times (k : R) (l : list fl) : list fl := map (fmul (Fin k)) l.
Definition coeffs_in (a b : R) (l : list fl) : list fl := mapi (fun i c => fmul (Fin (cont_factor a b i)) c) l.
Definition pair_times (k : R) (e : fl * fl) : fl * fl := (fmul (Fin k) (fst e), fmul (Fin k) (snd e)).

(** The spectrum and the set-up of the fit in the new units. *)
Definition spec_in (a b : R) (s : sp1) : sp1 :=
  mkSp1 (s_wave s) (option_map (times a) (s_obs s)) (s_rest s) (option_map (times b) (s_flux s)) (option_map (times b) (s_err s))
        (s_mask s) (s_profile s) (s_trimo s) (s_trimr s).
Definition cfg_in (a b : R) (T' : lib) (c : cfg1) : cfg1 :=
  mkCfg1 T' (t_names c) (map (map (Rmult a)) (t_restw c)) (t_gz c) (t_order c) (fmul (Fin a) (t_del c)) (t_nmc c)
         (t_inst c) (t_sres c) (spec_in a b (t_spec c)) (t_id c) (t_label c).

(** Factor of column [j] of the saved values of a fit with [n] line sets: redshift, dispersion, fluxes,
    continuum. *)
Definition column_factor (a b : R) (n j : nat) : R :=
  if Nat.ltb j 2 then 1 else if Nat.ltb j (n + 2) then a * b else cont_factor a b (j - (n + 2)).

(** Values and errors of a fit, in the new units. *)
Definition errs_in (a b : R) (e : errs1) : errs1 :=
  mkErrs1 (e_z e) (e_vd e) (map (pair_times (a * b)) (e_flux e)) (mapi (fun i x => pair_times (cont_factor a b i) x) (e_cont e)).
Definition file_in (a b : R) (n : nat) (m : arr2 fl) : arr2 fl :=
  mk2 (rows m) (cols m) (fun i j => fmul (Fin (column_factor a b n j)) (at2 m i j)).
Definition fit_in (a b : R) (n : nat) (s : st1) : st1 :=
  mkSt1 (f_z s) (f_vd s) (option_map (times (a * b)) (f_flux s)) (option_map (coeffs_in a b) (f_cont s))
        (option_map (times b) (f_model s)) (option_map (errs_in a b) (f_errs s)) (option_map (file_in a b n) (f_file s))
        (f_corr s) (f_corr_err s).

(** The line tables with the wavelengths converted. *)
Definition table_in (a : R) (t : list (string * (R * R))) : list (string * (R * R)) := map (fun e => (fst e, (a * fst (snd e), snd (snd e)))) t.
Definition lib_in (a : R) (T : lib) : lib := mkLib (b_names T) (table_in a (b_lines T)) (b_trim1 T) (b_full T) (b_line T) (b_mask T) (b_sky T).

(** An optimiser that minimises a sum of squares does not notice a common positive factor of all residuals. *)
Definition insensitive (M : optimiser) : Prop := forall k rf rf' p, 0 < k ->
  (forall q, rf' q = match rf q with Ok l => Ok (times k l) | Err e => Err e end) -> M rf' p = M rf p.
(** The set-up with all flux errors multiplied by [k]. *)
Definition with_errors (k : R) (c : cfg1) : cfg1 :=
  mkCfg1 (t_lib c) (t_names c) (t_restw c) (t_gz c) (t_order c) (t_del c) (t_nmc c) (t_inst c) (t_sres c)
    (mkSp1 (s_wave (t_spec c)) (s_obs (t_spec c)) (s_rest (t_spec c)) (s_flux (t_spec c)) (option_map (times k) (s_err (t_spec c)))
           (s_mask (t_spec c)) (s_profile (t_spec c)) (s_trimo (t_spec c)) (s_trimr (t_spec c))) (t_id c) (t_label c).
