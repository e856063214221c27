(* Model: fitting emission lines to a 1-D spectrum (misfit/fit/fit1D.py,
   misfit/model/emission_lines_model.py). *)
From Coq Require Import String Reals List Bool Arith ZArith.
From Verif Require Import PyFloat PyBase Arr PyNum MKernels MMask MAper1D MPost MIo MTrim.
Import ListNotations.
Local Open Scope R_scope.

(** np.power(x, n) for a whole exponent (misfit/model/emission_lines_model.py:127) *)
Fixpoint fpown (x : fl) (n : nat) : fl := match n with O => Fin 1 | S n => fmul x (fpown x n) end.

(** a += b for arrays of one length (misfit/model/emission_lines_model.py:122, 127, 263) *)
Definition vadd (a b : list fl) : list fl := map (fun p => fadd (fst p) (snd p)) (combine a b).

(** misfit/model/emission_lines_model.py:272-283 [gaussian_line] *)
Definition gaussian_line (x : list fl) (mu vel_sig flux : fl) : res (list fl) :=
  let sig := fmul (fdiv vel_sig (Fin c_kms)) mu in
  let gaus := map (fun v => norm_pdf (fsub v mu) sig) x in
  let scale := fdiv flux (fmul sig (Fin (sqrt (2 * PI)))) in
  do m <- np_max gaus;
  Ok (map (fun g => fmul (fdiv g m) scale) gaus).

(** for line in ...: profile += profile_func(...) (misfit/model/emission_lines_model.py:260-266) *)
Fixpoint add_lines (x : list fl) (z vd flux : fl) (ls : list (R * R)) (profile : list fl) : res (list fl) :=
  match ls with
  | [] => Ok profile
  | (w, r) :: ls =>
      do g <- gaussian_line x (fmul (Fin w) (fadd (Fin 1) z)) vd (fmul flux (Fin r));
      add_lines x z vd flux ls (vadd profile g)
  end.

(** map with exceptions: a loop that appends to a list. E.g. misfit/fit/fit1D.py:165-182. *)
Fixpoint mapM {A B} (f : A -> res B) (l : list A) : res (list B) :=
  match l with [] => Ok [] | a :: l => do b <- f a; do r <- mapM f l; Ok (b :: r) end.

(** EmissionLines1DModel.setAttr, misfit/model/emission_lines_model.py:223-245, for a model built
    with its name only (line 120): rest wavelength and relative strength of every line of the set. *)
Definition line_set (T : lib) (name : string) : res (list (R * R)) :=
  do ls <- read_line_names (b_names T) name;
  mapM (fun l => do w <- read_restwave (b_lines T) l; do r <- read_line_ratio (b_lines T) l; Ok (w, r)) ls.

(** EmissionLines1DModel.make1DProfile (misfit/model/emission_lines_model.py:249-266), built and
    evaluated as on lines 120-121. *)
Definition line_profile (T : lib) (name : string) (x : list fl) (z vd flux : fl) : res (list fl) :=
  do ls <- line_set T name;
  add_lines x z vd flux ls (repeat (Fin 0) (length x)).

(** An lmfit parameter: value and bounds; no bound is an infinite one. misfit/fit/fit1D.py:210-227. *)
Record par : Type := mkPar { p_val : fl; p_lo : fl; p_hi : fl }.
(** params.add(name, value=v) misfit/fit/fit1D.py:217, 224, 227. *)
Definition unbounded (v : fl) : par := mkPar v NInf PInf.
(** params.add(name, value=v, min=0.) misfit/fit/fit1D.py:215, 221. *)
Definition nonneg (v : fl) : par := mkPar v (Fin 0) PInf.

(** The lmfit Parameters of a 1-D fit (misfit/fit/fit1D.py:206-229): z, vel_disp, flux0..., cont_coeff0... *)
Record prm : Type := mkPrm { m_z : par; m_vd : par; m_flux : list par; m_cont : list par }.

(** params[name].value, KeyError if there is no such parameter. misfit/model/emission_lines_model.py:99-108. *)
Definition pval (l : list par) (i : nat) : res fl :=
  match nth_error l i with Some p => Ok (p_val p) | None => Err KeyError end.

(** for i in range(n): np.append(arr, params[name+str(i)].value) *)
Definition pvals (l : list par) (n : nat) : res (list fl) := mapM (pval l) (seq 0 n).

(** misfit/model/emission_lines_model.py:119-122 *)
Fixpoint add_sets (T : lib) (x : list fl) (z vd : fl) (sets : list (string * fl)) (profile : list fl)
  : res (list fl) :=
  match sets with
  | [] => Ok profile
  | (name, flux) :: sets =>
      do p <- line_profile T name x z vd flux;
      add_sets T x z vd sets (vadd profile p)
  end.

(** misfit/model/emission_lines_model.py:126-127 *)
Fixpoint add_cont (x : list fl) (i : nat) (cs : list fl) (profile : list fl) : list fl :=
  match cs with
  | [] => profile
  | c :: cs => add_cont x (S i) cs (vadd profile (map (fun w => fmul c (fpown w i)) x))
  end.

(** EmissionLinesSpectrum1DModel.make1DProfile (misfit/model/emission_lines_model.py:94-132).  The
    parameter values recorded on the model object (lines 111-115) are never read by the package and
    are left out. *)
Definition spectrum_model (T : lib) (names : list string) (order : nat) (q : prm) (x : list fl) : res (list fl) :=
  do cs <- pvals (m_cont q) (order + 1);
  let cont := map (fun c => fmul c (Fin (/ 10 ^ 18))) cs in
  do fs <- pvals (m_flux q) (length names);
  do p <- add_sets T x (p_val (m_z q)) (p_val (m_vd q)) (combine names fs) (repeat (Fin 0) (length x));
  Ok (add_cont x 0 cont p).

(** np.where(mask == 1)[0] (misfit/model/emission_lines_model.py:136); a mask of None equals nothing *)
Definition good_inds (mask : option (list fl)) : list nat :=
  match mask with None => [] | Some m => where_ (fun v => feqb v (Fin 1)) m end.

(** residual1DProfile (misfit/model/emission_lines_model.py:134-143).  The model is made on the good
    pixels, so that it has their number. *)
Definition residual (T : lib) (names : list string) (order : nat) (x : list fl) (data err mask : option (list fl))
  (q : prm) : res (list fl) :=
  let good := good_inds mask in
  do xg <- take x good;
  do model <- spectrum_model T names order q xg;
  do dg <- take_o data good;
  do eg <- take_o err good;
  let r := map (fun t => fdiv (fsub (fst t) (fst (snd t))) (snd (snd t))) (combine model (combine dg eg)) in
  Ok (map (fun v => if isfinite v then v else Fin 0) r).

(** lmfit.minimize(residual, params).params: an arbitrary function of the residual function and the
    starting parameters; lmfit's promise that results stay within the bounds is a hypothesis of the
    theorems that need it. misfit/fit/fit1D.py:305-322, 469. *)
Definition optimiser : Type := (prm -> res (list fl)) -> prm -> res prm.

(** galaxy.ID, None by default (misfit/galaxy.py:183); only whether it can be printed matters. *)
Inductive galid : Type := IdNone | IdInt | IdText.

(** The print of misfit/fit/fit1D.py:372: "{:d}" of None is a TypeError, of a string a ValueError. *)
Definition print_id (i : galid) : res unit :=
  match i with IdInt => Ok tt | IdNone => Err TypeError | IdText => Err ValueError end.

(** FitEmissionLines1D: what a fit reads (misfit/fit/fit1D.py:120-203).  [t_spec] is
    galaxy.spec1D_trim; [t_sres] is the attribute galaxy.spec1D.instrument_resolution, which no code
    sets (None: AttributeError).  [t_id] is galaxy.ID and [t_label]
    whether galaxy.maskname or galaxy.field is set.  A vel_disp or flux_arr entry of None is not
    modelled. *)
Record cfg1 : Type := mkCfg1 {
  t_lib : lib;
  t_names : list string;
  t_restw : list (list R);
  t_gz : fl;
  t_order : nat;
  t_del : fl;
  t_nmc : nat;
  t_inst : option fl;
  t_sres : option fl;
  t_spec : sp1;
  t_id : galid;
  t_label : bool
}.

(** Lower and upper errors of z, vel_disp, flux_arr and cont_coeff. misfit/fit/fit1D.py:497-504. *)
Record errs1 : Type := mkErrs1 { e_z : fl * fl; e_vd : fl * fl; e_flux : list (fl * fl); e_cont : list (fl * fl) }.

(** What a fit writes: attributes of the object and the file of Monte Carlo values; None for
    attributes that do not exist yet. misfit/fit/fit1D.py:293-365, 497-504, 589-650. *)
Record st1 : Type := mkSt1 {
  f_z : fl;
  f_vd : fl;
  f_flux : option (list fl);
  f_cont : option (list fl);
  f_model : option (list fl);
  f_errs : option errs1;
  f_file : option (arr2 fl);
  f_corr : option fl;
  f_corr_err : option (fl * fl)
}.

(** attribute assignments (misfit/fit/fit1D.py:293, 350, 353, 354, 360, 365, 503-516, 650, 601-604, 634-637) *)
Definition set_cont v s := mkSt1 (f_z s) (f_vd s) (f_flux s) v (f_model s) (f_errs s) (f_file s) (f_corr s) (f_corr_err s).
(** self.final_model = ..., misfit/fit/fit1D.py:350. *)
Definition set_model v s := mkSt1 (f_z s) (f_vd s) (f_flux s) (f_cont s) v (f_errs s) (f_file s) (f_corr s) (f_corr_err s).
(** self.z = ..., misfit/fit/fit1D.py:353. *)
Definition set_z v s := mkSt1 v (f_vd s) (f_flux s) (f_cont s) (f_model s) (f_errs s) (f_file s) (f_corr s) (f_corr_err s).
(** self.vel_disp = ..., misfit/fit/fit1D.py:354. *)
Definition set_vd v s := mkSt1 (f_z s) v (f_flux s) (f_cont s) (f_model s) (f_errs s) (f_file s) (f_corr s) (f_corr_err s).
(** self.flux_arr = ..., misfit/fit/fit1D.py:365. *)
Definition set_flux v s := mkSt1 (f_z s) (f_vd s) v (f_cont s) (f_model s) (f_errs s) (f_file s) (f_corr s) (f_corr_err s).
(** The four error attributes, misfit/fit/fit1D.py:503-507 and 513-516. *)
Definition set_errs v s := mkSt1 (f_z s) (f_vd s) (f_flux s) (f_cont s) (f_model s) v (f_file s) (f_corr s) (f_corr_err s).
(** The saved matrix, misfit/fit/fit1D.py:639-650. *)
Definition set_file v s := mkSt1 (f_z s) (f_vd s) (f_flux s) (f_cont s) (f_model s) (f_errs s) v (f_corr s) (f_corr_err s).
(** The corrected dispersion, misfit/fit/fit1D.py:601-604. *)
Definition set_corr v s := mkSt1 (f_z s) (f_vd s) (f_flux s) (f_cont s) (f_model s) (f_errs s) (f_file s) v (f_corr_err s).
(** Its errors, misfit/fit/fit1D.py:634, 637. *)
Definition set_corr_err v s := mkSt1 (f_z s) (f_vd s) (f_flux s) (f_cont s) (f_model s) (f_errs s) (f_file s) (f_corr s) v.

(** self.restwave_arr[0][0]. misfit/fit/fit1D.py:211-212. *)
Definition first_wave (c : cfg1) : res R := do l <- getn (t_restw c) 0; getn l 0.

(** The z parameter (misfit/fit/fit1D.py:211-212, 452-453) *)
Definition z_par (c : cfg1) (z : fl) : res par :=
  do w <- first_wave c;
  Ok (mkPar z (fsub (t_gz c) (fdiv (t_del c) (Fin w))) (fadd (t_gz c) (fdiv (t_del c) (Fin w)))).

(** [arr[i] for i in range(n)] of an attribute that may be None. misfit/fit/fit1D.py:219-227. *)
Definition items (o : option (list fl)) (n : nat) : res (list fl) :=
  mapM (fun i => match o with None => Err TypeError | Some l => getn l i end) (seq 0 n).

(** misfit/fit/fit1D.py:206-229 [make_params] *)
Definition make_params (c : cfg1) (s : st1) (flux_bound vd_bound : bool) : res prm :=
  do z <- z_par c (f_z s);
  do fs <- items (f_flux s) (length (t_names c));
  do cs <- items (f_cont s) (t_order c + 1);
  Ok (mkPrm z (if vd_bound then nonneg (f_vd s) else unbounded (f_vd s))
            (map (if flux_bound then nonneg else unbounded) fs) (map unbounded cs)).

(** What the fit call is given: the flags and whether the two file names are set.
    misfit/fit/fit1D.py:231-240. *)
Record opts1 : Type := mkOpts1 {
  o_reload_errors : bool; o_noErrors : bool; o_noPlot : bool; o_plot_file : bool; o_err_file : bool
}.

(** The residual function of the current spectrum with flux values [data]. misfit/fit/fit1D.py:305-308. *)
Definition resid_fun (c : cfg1) (x : list fl) (data err mask : option (list fl)) : prm -> res (list fl) :=
  residual (t_lib c) (t_names c) (t_order c) x data err mask.

(** misfit/fit/fit1D.py:299-324: the first fit and, when it gave a negative dispersion or first
    flux, the bounded one. *)
Definition best_params (M : optimiser) (c : cfg1) (s : st1) (x : list fl) (data err mask : option (list fl)) : res prm :=
  let rf := resid_fun c x data err mask in
  do p <- make_params c s false false;
  do r <- M rf p;
  do f0 <- pval (m_flux r) 0;
  let v := p_val (m_vd r) in
  if fltb v (Fin 0) && fltb f0 (Fin 0) then do p' <- make_params c s true true; M rf p'
  else if fltb v (Fin 0) then do p' <- make_params c s false true; M rf p'
  else if fltb f0 (Fin 0) then do p' <- make_params c s true false; M rf p'
  else Ok r.

(** All values of a parameter set in the order z, vel_disp, flux..., cont_coeff...
    misfit/fit/fit1D.py:366-369, 479-487. *)
Definition all_values (c : cfg1) (q : prm) : res (list fl) :=
  do fs <- pvals (m_flux q) (length (t_names c));
  do cs <- pvals (m_cont q) (t_order c + 1);
  Ok (p_val (m_z q) :: p_val (m_vd q) :: fs ++ cs).

(** One Monte Carlo realisation (misfit/fit/fit1D.py:441-488): [rnd] are the standard normal
    numbers drawn for it; drawing the curve is not modelled, making it is. *)
Definition mc_row (M : optimiser) (c : cfg1) (o : opts1) (s : st1) (x : list fl)
  (data err mask : option (list fl)) (rnd : nat -> fl) : res (list fl) :=
  do data <- need AttributeError data;
  do err' <- need TypeError err;
  do _ <- (if Nat.eqb (length data) (length err') then Ok tt else Err ValueError);
  let perturbed := mapi (fun i d => fadd d (fmul (lnth err' i) (rnd i))) data in
  do z <- z_par c (f_z s);
  do fs <- items (f_flux s) (length (t_names c));
  do cs <- items (f_cont s) (t_order c + 1);
  do r <- M (resid_fun c x (Some perturbed) err mask)
            (mkPrm z (unbounded (f_vd s)) (map unbounded fs) (map unbounded cs));
  do _ <- (if o_noPlot o then Ok [] else spectrum_model (t_lib c) (t_names c) (t_order c) r x);
  all_values c r.

(** np.percentile(m, q, axis=0): one value per column; IndexError for no rows *)
Definition percentiles (m : arr2 fl) (q : R) : res (list fl) :=
  if Nat.eqb (rows m) 0 then Err IndexError
  else Ok (map (fun j => percentile q (col m j)) (seq 0 (cols m))).

(** a - b for one-dimensional arrays, the shorter of length one being broadcast.
    misfit/fit/fit1D.py:499-500. *)
Definition bsub (a b : list fl) : res (list fl) :=
  if Nat.eqb (length a) (length b) then Ok (map (fun p => fsub (fst p) (snd p)) (combine a b))
  else match a, b with
       | _, [y] => Ok (map (fun x => fsub x y) a)
       | [x], _ => Ok (map (fun y => fsub x y) b)
       | _, _ => Err ValueError
       end.

(** The matrix of [n] Monte Carlo rows with [k] columns. misfit/fit/fit1D.py:436-487. *)
Definition matrix (k : nat) (l : list (list fl)) : arr2 fl :=
  mk2 (length l) k (fun i j => lnth (nth i l []) j).

(** misfit/fit/fit1D.py:639-650 [save_mc_sim_matrix] *)
Definition save_mc (named : bool) (m : arr2 fl) : ST st1 unit :=
  if named then modS (set_file (Some m)) else raise ValueError.
(** misfit/fit/fit1D.py:651-660 [load_mc_sim_matrix]; OSError when there is no file *)
Definition load_mc (named : bool) : ST st1 (arr2 fl) :=
  if named then sdo s <- getS; liftR (need OSError (f_file s)) else raise ValueError.

(** misfit/fit/fit1D.py:231-582 [fit].  Printing and drawing are not modelled apart from the
    exceptions for a galaxy without a number (line 372), a missing plot file name (line 390) and a
    title made from a missing name (lines 571-574). *)
Definition fit (M : optimiser) (rnd : nat -> nat -> fl) (c : cfg1) (o : opts1) : ST st1 unit :=
  sdo i <- liftR (need TypeError (t_inst c));
  sdo _ <- (if fltb i (Fin 0) then raise ValueError else ret tt);
  sdo s0 <- getS;
  sdo _ <- (match f_cont s0 with
            | None => modS (set_cont (Some (repeat (Fin 0) (t_order c + 1))))
            | Some _ => ret tt
            end);
  sdo s <- getS;
  sdo _ <- liftR (make_params c s false false);
  sdo x <- liftR (need AttributeError (s_obs (t_spec c)));
  let data := s_flux (t_spec c) in
  let err := s_err (t_spec c) in
  let mask := s_mask (t_spec c) in
  sdo r <- liftR (best_params M c s x data err mask);
  sdo fm <- liftR (spectrum_model (t_lib c) (t_names c) (t_order c) r x);
  sdo _ <- modS (set_model (Some fm));
  sdo _ <- modS (set_z (p_val (m_z r)));
  sdo _ <- modS (set_vd (p_val (m_vd r)));
  sdo cs <- liftR (pvals (m_cont r) (t_order c + 1));
  sdo _ <- modS (set_cont (Some cs));
  sdo fs <- liftR (pvals (m_flux r) (length (t_names c)));
  sdo _ <- modS (set_flux (Some fs));
  let true_ := p_val (m_z r) :: p_val (m_vd r) :: fs ++ cs in
  let n := length (t_names c) in
  sdo _ <- liftR (print_id (t_id c));
  sdo _ <- (if negb (o_noPlot o) && negb (o_plot_file o) then raise ValueError else ret tt);
  if o_noErrors o
  then
    sdo _ <- modS (set_errs (Some (mkErrs1 (Fin 0, Fin 0) (Fin 0, Fin 0) (repeat (Fin 0, Fin 0) n)
                                           (repeat (Fin 0, Fin 0) (t_order c + 1)))));
    if negb (o_noPlot o) && negb (t_label c) then raise TypeError else ret tt
  else
    sdo m <- (if o_reload_errors o then load_mc (o_err_file o)
              else sdo s' <- getS;
                   sdo l <- liftR (mapM (fun i => mc_row M c o s' x data err mask (rnd i)) (seq 0 (t_nmc c)));
                   let m := matrix (length true_) l in
                   sdo _ <- save_mc (o_err_file o) m; ret m);
    sdo lo <- liftR (percentiles m (15865 / 1000));
    sdo hi <- liftR (percentiles m (84135 / 1000));
    sdo e0 <- liftR (bsub true_ lo);
    sdo e1 <- liftR (bsub hi true_);
    let e := combine e0 e1 in
    sdo _ <- modS (set_errs (Some (mkErrs1 (nth 0 e (NaN, NaN)) (nth 1 e (NaN, NaN))
                                           (firstn n (skipn 2 e)) (firstn (t_order c + 1) (skipn (n + 2) e)))));
    raise ValueError.

(** misfit/fit/fit1D.py:589-637 [calculate_inst_corr_vel_disp] *)
Definition inst_corr (c : cfg1) (noErrors err_file : bool) : ST st1 unit :=
  match t_inst c with
  | None => ret tt
  | Some i =>
      sdo s <- getS;
      let corr := if fgtb (fabs (f_vd s)) (fabs i) then fsqrt (fsub (fsq (f_vd s)) (fsq i)) else Fin 0 in
      sdo _ <- modS (set_corr (Some corr));
      if noErrors then modS (set_corr_err (Some (Fin 0, Fin 0)))
      else
        sdo _ <- (if err_file then ret tt else raise ValueError);
        sdo m <- load_mc err_file;
        sdo _ <- (if Nat.ltb 1 (cols m) then ret tt else raise IndexError);
        sdo i' <- liftR (need AttributeError (t_sres c));
        let v := map (fun x => fsqrt (fsub (fsq x) (fsq i'))) (col m 1) in
        let v' := map (fun x => if isfinite x then x else Fin 0) v in
        sdo _ <- (if Nat.eqb (length v') 0 then raise IndexError else ret tt);
        let lo := percentile (15865 / 1000) v' in
        let hi := percentile (84135 / 1000) v' in
        sdo _ <- (if isfinite (fdiv (fadd lo hi) (Fin 2)) then ret tt else raise ValueError);
        modS (set_corr_err (Some (fsub corr lo, fsub hi corr)))
  end.

(** np.array of a list of lists (misfit/fit/fit1D.py:184): numpy from 1.24 on ([strict]) raises
    ValueError when the lengths differ, earlier versions make an array of lists. *)
Definition ragged (strict : bool) {A} (l : list (list A)) : res (list (list A)) :=
  match l with
  | [] => Ok l
  | a :: l' => if strict && negb (forallb (fun b => Nat.eqb (length b) (length a)) l') then Err ValueError else Ok l
  end.

(** FitEmissionLines1D.setAttr (misfit/fit/fit1D.py:152-184): [lines] and [restw] are the current
    linenames_arr and restwave_arr after the update of line 154; [gaussian] is shape1D == 'gaussian'.
    Returns the new linenames_arr and restwave_arr. *)
Definition set_attr1 (T : lib) (strict gaussian : bool) (names : list string) (lines : option (list (list string)))
  (restw : option (list (list R))) : res (list (list string) * list (list R)) :=
  if negb gaussian then Err ValueError else
  do ls <- match lines with Some ls => Ok ls | None => mapM (read_line_names (b_names T)) names end;
  do ws <- match restw with
           | Some ws => Ok ws
           | None => do ws <- mapM (mapM (read_restwave (b_lines T))) ls; ragged strict ws
           end;
  Ok (ls, ws).

(** setup_spectrum (misfit/fit/fit1D.py:186-203): [file] is the table named by trim_wave_paramfile.
    Without a redshift the trimmed spectrum is None and masking its edges fails.  A spectrum without
    coverage has no mask: np.where(None == 1)[0] is empty. *)
Definition setup_spectrum (T : lib) (spec1D : sp1) (z : znum) (range : option (fl * fl))
  (file : option (list (string * (R * R)))) (names : list string) : res sp1 :=
  do l <- getn names 0;
  do s <- trim_1D (Some spec1D) z range None
            (read_wave_range (match file with Some t => t | None => b_trim1 T end) l);
  do s <- need AttributeError s;
  match s_mask s with
  | None => Ok s
  | Some m =>
      do f <- need TypeError (s_flux s);
      Ok (mkSp1 (s_wave s) (s_obs s) (s_rest s) (s_flux s) (s_err s) (Some (mask_edges_1D (length f) m 10))
                (s_profile s) (s_trimo s) (s_trimr s))
  end.
