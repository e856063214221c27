(* Specification vocabulary for the 1-D line fits. *)
From Coq Require Import String Ascii Reals List Bool Arith.
From Verif Require Import PyFloat PyBase Arr PyNum MKernels SMask MIo MTrim MFit1D.
Import ListNotations.
Local Open Scope R_scope.

(** Squared distance from [mu] to the sampled wavelength nearest to it. *)
Definition gap2 (xs : list R) (mu : R) : R :=
  match xs with
  | [] => 0
  | x :: l => fold_right (fun y a => Rmin ((y - mu) ^ 2) a) ((x - mu) ^ 2) l
  end.

(** A Gaussian line of centre [mu] and width [sig], at wavelength [x], scaled so that its value at the
    nearest sample of [xs] is the peak flux / (sig sqrt(2 pi)) of a line carrying [flux]. *)
Definition line_value (xs : list R) (mu sig flux x : R) : R :=
  flux / (sig * sqrt (2 * PI)) * exp ((gap2 xs mu - (x - mu) ^ 2) / (2 * sig ^ 2)).

(** The Gaussian carrying [flux]. *)
Definition true_gaussian (mu sig flux x : R) : R :=
  flux / (sig * sqrt (2 * PI)) * exp (- (x - mu) ^ 2 / (2 * sig ^ 2)).

(** Width in wavelength of a line at [mu] with dispersion [vd] km/s. *)
Definition width (vd mu : R) : R := vd / c_kms * mu.

(** Contribution of one line set (rest wavelengths and relative strengths). *)
Definition set_value (xs : list R) (z vd flux : R) (ls : list (R * R)) (x : R) : R :=
  rsum (map (fun l => let mu := fst l * (1 + z) in line_value xs mu (width vd mu) (flux * snd l) x) ls).

(** Polynomial continuum, coefficients in units of 1e-18. *)
Definition cont_value (cs : list R) (x : R) : R :=
  rsumn (length cs) (fun i => nth i cs 0 * / 10 ^ 18 * x ^ i).

(** The whole spectrum: line sets with their fluxes, and the continuum. *)
Definition spectrum_value (xs : list R) (z vd : R) (sets : list (R * list (R * R))) (cs : list R) (x : R) : R :=
  rsum (map (fun s => set_value xs z vd (fst s) (snd s) x) sets) + cont_value cs x.

(** [sets] are the lines of the sets called [names] in the tables, with fluxes [fl]. *)
Definition known_sets (T : lib) (names : list string) (fs : list R) (sets : list (R * list (R * R))) : Prop :=
  length fs = length names /\ map fst sets = fs /\
  Forall2 (fun n s => line_set T n = Ok (snd s)) names sets.

(** Every rest wavelength is positive. *)
Definition positive_lines (sets : list (R * list (R * R))) : Prop :=
  forall s w r, In s sets -> In (w, r) (snd s) -> 0 < w.

(** Parameters holding these numbers, with whatever bounds. *)
Definition holds (q : prm) (z vd : R) (fs cs : list R) : Prop :=
  p_val (m_z q) = Fin z /\ p_val (m_vd q) = Fin vd /\
  map p_val (m_flux q) = map Fin fs /\ map p_val (m_cont q) = map Fin cs.

(** The optimiser returns the parameters it was given, with values within their bounds. *)
Definition within_par (a b : par) : Prop :=
  p_lo b = p_lo a /\ p_hi b = p_hi a /\ fleb (p_lo a) (p_val b) = true /\ fleb (p_val b) (p_hi a) = true.
Definition within_prm (p r : prm) : Prop :=
  within_par (m_z p) (m_z r) /\ within_par (m_vd p) (m_vd r) /\
  Forall2 within_par (m_flux p) (m_flux r) /\ Forall2 within_par (m_cont p) (m_cont r).
Definition respects_bounds (M : optimiser) : Prop := forall rf p r, M rf p = Ok r -> within_prm p r.

(** Some number is within the bounds of every parameter. *)
Definition feasible_par (a : par) : Prop := exists v, fleb (p_lo a) (Fin v) = true /\ fleb (Fin v) (p_hi a) = true.
Definition feasible (p : prm) : Prop :=
  feasible_par (m_z p) /\ feasible_par (m_vd p) /\ Forall feasible_par (m_flux p) /\ Forall feasible_par (m_cont p).

(** An optimiser that answers whenever the bounds can be met. *)
Definition answers (M : optimiser) : Prop := forall rf p, feasible p -> exists r, M rf p = Ok r.

(** The mask value of a used pixel. *)
Definition used (mask : list fl) (i : nat) : Prop := nth_error mask i = Some (Fin 1).

(** Pixels in use, in order. *)
Definition used_pixels (mask : list fl) (ks : list nat) : Prop := ascending ks /\ forall i, In i ks <-> used mask i.

(** Some used pixel is at least as near to [mu] as every pixel. *)
Definition nearest_used (xs : list R) (mask : list fl) (mu : R) : Prop :=
  exists k x, used mask k /\ nth_error xs k = Some x /\ forall y, In y xs -> (x - mu) ^ 2 <= (y - mu) ^ 2.

(** Bounds of a parameter that is not limited. *)
Definition no_bounds (p : par) : Prop := p_lo p = NInf /\ p_hi p = PInf.

(** A fit that can be run: positive-or-zero instrument width, known line sets, starting values, a
    spectrum with pixels. *)
Definition runnable (c : cfg1) (s : st1) : Prop :=
  (exists i, t_inst c = Some (Fin i) /\ 0 <= i) /\
  (exists w l ls gz del, t_restw c = (w :: l) :: ls /\ 0 < w /\ t_gz c = Fin gz /\ t_del c = Fin del /\ 0 <= del) /\
  t_names c <> [] /\ (forall n, In n (t_names c) -> exists l, line_set (t_lib c) n = Ok l) /\
  (exists fs, f_flux s = Some fs /\ length (t_names c) <= length fs)%nat /\
  (forall cs, f_cont s = Some cs -> t_order c + 1 <= length cs)%nat /\
  (exists x, s_obs (t_spec c) = Some x /\ x <> []) /\
  (exists data err, s_flux (t_spec c) = Some data /\ s_err (t_spec c) = Some err /\ length data = length err).

(** All best-fit values, and all their errors, in one order. *)
Definition best_values (s : st1) : list fl :=
  f_z s :: f_vd s :: (match f_flux s with Some l => l | None => [] end) ++ (match f_cont s with Some l => l | None => [] end).
Definition all_errs (e : errs1) : list (fl * fl) := e_z e :: e_vd e :: e_flux e ++ e_cont e.

(** The optimiser returns numbers. *)
Definition finite_answers (M : optimiser) : Prop := forall rf p r, M rf p = Ok r ->
  isfinite (p_val (m_z r)) = true /\ isfinite (p_val (m_vd r)) = true /\
  Forall (fun a => isfinite (p_val a) = true) (m_flux r) /\ Forall (fun a => isfinite (p_val a) = true) (m_cont r).

(** A dispersion sample with the instrument width taken out, zero when unresolved. *)
Definition corrected (i x : R) : R := if Rle_dec (i * i) (x * x) then sqrt (x * x - i * i) else 0.

(** Everything but the corrected dispersion and its errors is as before. *)
Definition same_fit (s s' : st1) : Prop :=
  f_z s' = f_z s /\ f_vd s' = f_vd s /\ f_flux s' = f_flux s /\ f_cont s' = f_cont s /\
  f_model s' = f_model s /\ f_errs s' = f_errs s /\ f_file s' = f_file s.

(** First row of a table with key [k]. *)
Definition first_row {A} (t : list (string * A)) (k : string) (a : A) : Prop :=
  exists pre post, t = pre ++ (k, a) :: post /\ ~ In k (map fst pre).

(** No comma in a word; words joined by commas. *)
Fixpoint no_comma (s : string) : Prop :=
  match s with EmptyString => True | String c s => c <> ","%char /\ no_comma s end.
Definition joined (ws : list string) : string := String.concat "," ws.

(** [lo <= a <= hi] for a window. *)
Definition in_window (w : R * R) (a : R) : Prop := fst w <= a <= snd w.
(** One window inside another. *)
Definition inside_window (a b : R * R) : Prop := fst b <= fst a /\ snd a <= snd b.

(** The same set-up, for a galaxy with another ID and label. *)
Definition with_id (i : galid) (l : bool) (c : cfg1) : cfg1 :=
  mkCfg1 (t_lib c) (t_names c) (t_restw c) (t_gz c) (t_order c) (t_del c) (t_nmc c) (t_inst c) (t_sres c) (t_spec c) i l.

(** The same best fit. *)
Definition same_best (s s' : st1) : Prop :=
  f_z s = f_z s' /\ f_vd s = f_vd s' /\ f_flux s = f_flux s' /\ f_cont s = f_cont s' /\ f_model s = f_model s'.
