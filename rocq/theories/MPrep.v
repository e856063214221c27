(* Model: preparation of a 2-D spectrum for fitting (misfit/galaxy.py:730-813 and
   misfit/general/galaxy_utils.py:279-519, 777-1240, 1328-1473).  lmfit.minimize, np.median and
   the parameter-file readers are arguments. *)
From Coq Require Import Reals List Bool Arith ZArith.
From Verif Require Import PyFloat PyBase Arr PyNum MMask MTrim.
Import ListNotations.
Local Open Scope R_scope.

(** The numpy arrays the caller passed in (flux, error, mask of the 2-D spectrum and the mask of
    the 1-D one), which preparation writes into while the attribute still is that array
    (misfit/general/galaxy_utils.py:715-724, 734, 743, 751, 472, 392).  The flags say whether it still is. *)
Record caller : Type := mkCaller {
  k_flux : arr2 fl; k_err : arr2 fl; k_mask : arr2 fl; k_mask1 : list fl;
  k_a2 : bool; k_am : bool; k_a1 : bool
}.

(** The state of preparation: spectra, slit offset angle (misfit/galaxy.py:793-794), whether
    galaxy.spec2D has been set (misfit/galaxy.py:804), and the caller's arrays. *)
Record env : Type := mkEnv {
  e2 : sp2; e1 : option sp1; e_dpa : option fl; e_reg : bool; e_k : caller
}.

(** Settings and external results: redshift, dither, pixel scale, row cut, weighting, whether
    continuum subtraction is off (misfit/galaxy.py:690-702); the line-set reader
    (misfit/galaxy.py:816-847), the sky-cutoff reader (850-861), range readers
    (misfit/general/galaxy_utils.py:312-335), np.median, the two lmfit continuum fits
    (418-420, 464-465), the fits of misfit/general/galaxy_utils.py:887-1148, 1280 and
    1371, 1448, and the offset-angle computation (1311-1324). *)
Record cfg : Type := mkCfg {
  g_z : fl; g_dither : bool; g_cut : fl; g_wt : weighting; g_nocont : bool;
  g_lines : res unit; g_restw : fl; g_sky : res (fl * bool);
  g_ffull : res (fl * fl); g_fline : res (fl * fl); g_fmline : res (fl * fl);
  g_median : list fl -> fl;
  g_fit1 : bool -> list fl -> list fl -> list fl -> list fl -> res (fl * fl);
  g_fitrow : nat -> fl -> fl -> list fl -> list fl -> list fl -> list fl -> res fl;
  g_vert : arr2 fl -> arr2 fl -> list fl -> option fl -> res vpos;
  g_fit3 : arr2 fl -> arr2 fl -> arr2 fl -> fl * fl * fl;
  g_fity : option fl; g_fitl : option fl;
  g_dpa : res fl
}.

(** attribute assignment on the 2-D spectrum (misfit/galaxy.py:737-804) *)
Definition up2 (f : sp2 -> sp2) : ST env unit :=
  modS (fun e => mkEnv (f (e2 e)) (e1 e) (e_dpa e) (e_reg e) (e_k e)).
(** attribute assignment on the 1-D spectrum (misfit/general/galaxy_utils.py:289-292, 509-512) *)
Definition up1 (f : sp1 -> sp1) : ST env unit :=
  modS (fun e => mkEnv (e2 e) (option_map f (e1 e)) (e_dpa e) (e_reg e) (e_k e)).
(** writing into arrays the caller holds (misfit/general/galaxy_utils.py:715-724, 734, 743, 751, 472, 392) *)
Definition upk (f : caller -> caller) : ST env unit :=
  modS (fun e => mkEnv (e2 e) (e1 e) (e_dpa e) (e_reg e) (f (e_k e))).

(** spec2D.flux = <the same array, written in place> (misfit/general/galaxy_utils.py:298, 472) *)
Definition write_flux (a : arr2 fl) : ST env unit :=
  sdo _ <- upk (fun k => mkCaller (if k_a2 k then a else k_flux k) (k_err k) (k_mask k) (k_mask1 k) (k_a2 k) (k_am k) (k_a1 k));
  up2 (set_q_flux (Some a)).
(** spec2D.flux_err written in place (misfit/general/galaxy_utils.py:299-300) *)
Definition write_err (a : arr2 fl) : ST env unit :=
  sdo _ <- upk (fun k => mkCaller (k_flux k) (if k_a2 k then a else k_err k) (k_mask k) (k_mask1 k) (k_a2 k) (k_am k) (k_a1 k));
  up2 (set_q_err (Some a)).
(** spec2D.spec_mask written in place (misfit/general/galaxy_utils.py:283-285, 296;
    misfit/galaxy.py:780) *)
Definition write_mask (a : arr2 fl) : ST env unit :=
  sdo _ <- upk (fun k => mkCaller (k_flux k) (k_err k) (if k_am k then a else k_mask k) (k_mask1 k) (k_a2 k) (k_am k) (k_a1 k));
  up2 (set_q_mask (Some a)).
(** setter of the 1-D mask (misfit/general/galaxy_utils.py:289, 392, 695-697) *)
Definition set_s_mask (m : list fl) (t : sp1) : sp1 :=
  mkSp1 (s_wave t) (s_obs t) (s_rest t) (s_flux t) (s_err t) (Some m) (s_profile t) (s_trimo t) (s_trimr t).
(** galaxy.spec1D.spec_mask written in place (misfit/general/galaxy_utils.py:289-292, 391-392) *)
Definition write_mask1 (m : list fl) : ST env unit :=
  sdo _ <- upk (fun k => mkCaller (k_flux k) (k_err k) (k_mask k) (if k_a1 k then m else k_mask1 k) (k_a2 k) (k_am k) (k_a1 k));
  up1 (set_s_mask m).

(** misfit/galaxy.py:730-735 [_ensure_mask_weight]. *)
Definition ensure_mask_weight : ST env unit :=
  sdo e <- getS;
  sdo _ <- match q_weight (e2 e) with
           | Some _ => ret tt
           | None => sdo f <- liftR (need AttributeError (q_flux (e2 e)));
                     up2 (set_q_weight (Some (mk2 (rows f) (cols f) (fun _ _ => Fin 1))))
           end;
  match q_mask (e2 e) with
  | Some _ => ret tt
  | None => sdo f <- liftR (need AttributeError (q_flux (e2 e)));
            up2 (set_q_mask (Some (mk2 (rows f) (cols f) (fun _ _ => Fin 1))))
  end.

(** utils.linear_fit (misfit/general/general_utils.py:38-45). *)
Definition line_at (a b : fl) (w : list fl) : list fl := map (fun x => fadd (fmul a x) b) w.

(** image[i,wh] (misfit/general/galaxy_utils.py:460-462) *)
Definition row_at (a : arr2 fl) (i : nat) (wh : list nat) : res (list fl) :=
  if forallb (fun w => Nat.ltb w (cols a)) wh then Ok (map (at2 a i) wh) else Err IndexError.
(** image with row [i] replaced (misfit/general/galaxy_utils.py:468, 472) *)
Definition set_row (a : arr2 fl) (i : nat) (l : list fl) : arr2 fl :=
  mk2 (rows a) (cols a) (fun i' j => if Nat.eqb i' i then lnth l j else at2 a i' j).

(** One row of the continuum subtraction (misfit/general/galaxy_utils.py:455-476); [incl],
    [err] and [mask] are the images, [xs] the wavelengths fitted. *)
Definition cont_row (c : cfg) (slope b1 : fl) (xs : list fl) (wl wr : list nat) (i : nat) : ST env unit :=
  sdo e <- getS;
  let s := e2 e in
  sdo incl <- liftR (need TypeError (q_incl s));
  sdo er <- liftR (need TypeError (q_err s));
  sdo mk <- liftR (need TypeError (q_mask s));
  sdo ct <- liftR (need TypeError (q_cont s));
  sdo fx <- liftR (need TypeError (q_flux s));
  sdo yl <- liftR (row_at incl i wl); sdo yr <- liftR (row_at incl i wr);
  sdo el <- liftR (row_at er i wl); sdo er' <- liftR (row_at er i wr);
  sdo ml <- liftR (row_at mk i wl); sdo mr <- liftR (row_at mk i wr);
  sdo b <- liftR (g_fitrow c i slope b1 xs (yl ++ yr) (el ++ er') (ml ++ mr));
  sdo w <- liftR (need TypeError (q_wave s));
  let cf := line_at slope b w in
  sdo _ <- liftR (if Nat.eqb (length cf) (cols ct) then Ok tt else Err ValueError);
  sdo _ <- up2 (set_q_cont (Some (set_row ct i cf)));
  sdo mx <- liftR (np_max cf);
  sdo _ <- liftR (if isfinite mx then Ok tt else Err ValueError);
  sdo _ <- liftR (if Nat.eqb (cols incl) (length cf) then Ok tt else Err ValueError);
  sdo _ <- liftR (if Nat.eqb (cols incl) (cols fx) then Ok tt else Err ValueError);
  write_flux (set_row fx i (map (fun j => fsub (at2 incl i j) (lnth cf j)) (seq 0 (cols incl)))).

(** The loop over rows (misfit/general/galaxy_utils.py:455-476). *)
Fixpoint cont_rows (c : cfg) (slope b1 : fl) (xs : list fl) (wl wr : list nat) (is : list nat) : ST env unit :=
  match is with
  | [] => ret tt
  | i :: t => sdo _ <- cont_row c slope b1 xs wl wr i; cont_rows c slope b1 xs wl wr t
  end.

(** largest value at the given indices is positive (misfit/general/galaxy_utils.py:396-397) *)
Definition some_unmasked (m : list fl) (wh : list nat) : res bool :=
  do l <- take m wh; do x <- np_max l; Ok (fgtb x (Fin 0)).

(** The range attributes, read from the parameter file when unset
    (misfit/general/galaxy_utils.py:312-335). *)
Definition get_range (cur : option (fl * fl)) (file : res (fl * fl)) : res (fl * fl) :=
  match cur with Some r => Ok r | None => file end.

(** misfit/general/galaxy_utils.py:283-305: masks, filling and the median noise. *)
Definition cont_masks (c : cfg) : ST env unit :=
  sdo e <- getS;
  let s := e2 e in
  sdo fx <- liftR (need AttributeError (q_flux s));
  sdo er <- liftR (need TypeError (q_err s));
  sdo m <- liftR (spec_mask_missing_2D fx er (q_weight s) (q_mask s) true);
  sdo _ <- write_mask m;
  sdo m2 <- (if g_nocont c then ret m else
    sdo e <- getS;
    sdo t <- liftR (need AttributeError (e1 e));
    sdo f1 <- liftR (need TypeError (s_flux t));
    sdo r1 <- liftR (need TypeError (s_err t));
    sdo m1 <- liftR (spec_mask_missing_1D f1 r1 None (s_mask t) false);
    sdo _ <- write_mask1 m1;
    let m1e := mask_edges_1D (length f1) m1 10 in
    sdo _ <- write_mask1 m1e;
    sdo m2 <- liftR (mask_spec2D_from_1D m m1e);
    sdo _ <- write_mask m2;
    ret m2);
  sdo _ <- write_flux (spec_nan_masking fx m2 (Fin (-99)) false false);
  let er2 := spec_nan_masking er m2 (Fin (-99)) true false in
  sdo _ <- write_err er2;
  sdo _ <- liftR (if shape_eqb er2 m2 then Ok tt else Err ValueError);
  up2 (set_q_median (Some (g_median c (map (col_noise er2 m2) (seq 0 (cols er2)))))).

(** The 1-D continuum fit (misfit/general/galaxy_utils.py:357-420): slope and intercept. *)
Definition cont_fit1 (c : cfg) (wl wr : list nat) : ST env (fl * fl * list fl) :=
  sdo e <- getS;
  let s := e2 e in
  sdo ow <- liftR (need AttributeError (q_obs s));
  sdo xl <- liftR (take ow wl); sdo xr <- liftR (take ow wr);
  sdo t <- liftR (need AttributeError (e1 e));
  sdo r1 <- liftR (need TypeError (s_err t));
  sdo m1 <- liftR (need TypeError (s_mask t));
  sdo _ <- liftR (if Nat.eqb (length r1) (length m1) then Ok tt else Err ValueError);
  let noise := map (fun p => fsqrt (fsq (fmul (fst p) (snd p)))) (combine r1 m1) in
  sdo cut <- liftR (need TypeError (q_cutoff s));
  sdo ns <- liftR (wh_skylines_1D noise (fst cut) (q_median s));
  let mt := set_inds m1 (snd ns) (Fin 0) in
  sdo _ <- write_mask1 mt;
  sdo vary <- liftR (match wl, wr with
                     | _ :: _, _ :: _ => do a <- some_unmasked mt wl; do b <- some_unmasked mt wr; Ok (a && b)
                     | _, _ => Ok false
                     end);
  sdo f1 <- liftR (need TypeError (s_flux t));
  sdo yl <- liftR (take f1 wl); sdo yr <- liftR (take f1 wr);
  sdo el <- liftR (take r1 wl); sdo er <- liftR (take r1 wr);
  sdo ml <- liftR (take mt wl); sdo mr <- liftR (take mt wr);
  sdo ab <- liftR (g_fit1 c vary (xl ++ xr) (yl ++ yr) (el ++ er) (ml ++ mr));
  ret (ab, xl ++ xr).

(** Trim to line+continuum region (misfit/general/galaxy_utils.py:498-517). *)
Definition cont_trim (c : cfg) (wf : list nat) : ST env unit :=
  sdo e <- getS;
  let s := e2 e in
  sdo w <- liftR (take_o (q_wave s) wf); sdo _ <- up2 (set_q_wave (Some w));
  sdo a <- liftR (take_cols_o (q_incl s) wf); sdo _ <- up2 (set_q_incl (Some a));
  sdo a <- liftR (take_cols_o (q_cont s) wf); sdo _ <- up2 (set_q_cont (Some a));
  sdo a <- liftR (take_cols_o (q_flux s) wf); sdo _ <- up2 (set_q_flux (Some a));
  sdo a <- liftR (take_cols_o (q_err s) wf); sdo _ <- up2 (set_q_err (Some a));
  sdo a <- liftR (take_cols_o (q_mask s) wf); sdo _ <- up2 (set_q_mask (Some a));
  sdo a <- liftR (take_cols_o (q_weight s) wf); sdo _ <- up2 (set_q_weight (Some a));
  sdo _ <- upk (fun k => mkCaller (k_flux k) (k_err k) (k_mask k) (k_mask1 k) false false (k_a1 k));
  sdo _ <- (if g_nocont c then ret tt else
    sdo t <- liftR (need AttributeError (e1 e));
    sdo w1 <- liftR (take_o (s_wave t) wf);
    sdo f1 <- liftR (take_o (s_flux t) wf);
    sdo r1 <- liftR (take_o (s_err t) wf);
    sdo m1 <- liftR (take_o (s_mask t) wf);
    sdo _ <- up1 (fun t => mkSp1 (Some w1) (s_obs t) (s_rest t) (Some f1) (Some r1) (Some m1) (s_profile t) (s_trimo t) (s_trimr t));
    upk (fun k => mkCaller (k_flux k) (k_err k) (k_mask k) (k_mask1 k) (k_a2 k) (k_am k) false));
  sdo _ <- up2 (set_q_obs (Some w));
  sdo _ <- up2 (set_q_rest (Some (rest_of (g_z c) w)));
  if g_nocont c then ret tt else
    up1 (fun t => mkSp1 (s_wave t) (s_wave t) (option_map (rest_of (g_z c)) (s_wave t)) (s_flux t) (s_err t) (s_mask t) (s_profile t) (s_trimo t) (s_trimr t)).

(** misfit/general/galaxy_utils.py:279-519 [subtract_continuum_2D] (plots left out; the
    ranges are arrays, as the readers return them).  A failing 1-D trim (lines 509-512) leaves all four 1-D arrays as they were; the code would have
    assigned those before the failing one. *)
Definition subtract_continuum (c : cfg) : ST env unit :=
  sdo _ <- cont_masks c;
  sdo e <- getS;
  let s := e2 e in
  sdo rf <- liftR (get_range (q_rfull s) (g_ffull c)); sdo _ <- up2 (set_q_rfull (Some rf));
  sdo rl <- liftR (get_range (q_rline s) (g_fline c)); sdo _ <- up2 (set_q_rline (Some rl));
  sdo rm <- liftR (get_range (q_rmline s) (g_fmline c)); sdo _ <- up2 (set_q_rmline (Some rm));
  sdo _ <- liftR (need AttributeError (q_wave s));
  sdo fx <- liftR (need AttributeError (q_flux s));
  sdo _ <- up2 (set_q_incl (Some fx));
  sdo _ <- up2 (set_q_cont (Some (mk2 (rows fx) (cols fx) (fun _ _ => Fin 0))));
  let fr := to_obs (g_z c) rf in
  let lr := to_obs (g_z c) rm in
  sdo ow <- liftR (need AttributeError (q_obs s));
  let wl := where_ (fun x => fgeb x (fst fr) && fltb x (fst lr)) ow in
  let wr := where_ (fun x => fleb x (snd fr) && fgtb x (snd lr)) ow in
  let wf := where_ (within fr) ow in
  sdo _ <- (if g_nocont c then ret tt else
    sdo p <- cont_fit1 c wl wr;
    cont_rows c (fst (fst p)) (snd (fst p)) (snd p) wl wr (seq 0 (rows fx)));
  cont_trim c wf.

(** misfit/galaxy.py:864-869 [get_skyline_mask]. *)
Definition prep_sky (c : cfg) : ST env unit :=
  sdo e <- getS;
  sdo _ <- match q_qual (e2 e) with
           | Some _ => ret tt
           | None => sdo m <- liftR (need AttributeError (q_mask (e2 e))); up2 (set_q_qual (Some m))
           end;
  sdo e <- getS;
  let s := e2 e in
  sdo ql <- liftR (need AttributeError (q_qual s));
  sdo fx <- liftR (need IndexError (q_flux s));
  sdo er <- liftR (need TypeError (q_err s));
  sdo cut <- liftR (need TypeError (q_cutoff s));
  sdo p <- liftR (mask_skylines_2D fx er ql (fst cut) (snd cut) (q_median s));
  sdo _ <- up2 (set_q_sky (Some (fst (fst p))));
  sdo _ <- up2 (set_q_wh_sky (snd (fst p)));
  up2 (set_q_wh_nosky (snd p)).

(** misfit/galaxy.py:871-877 [get_low_snr_mask] and line 780: spec_mask *= mask_low_snr. *)
Definition prep_low (c : cfg) : ST env unit :=
  sdo e <- getS;
  let s := e2 e in
  sdo ql <- liftR (need AttributeError (q_qual s));
  sdo fx <- liftR (need TypeError (q_flux s));
  sdo er <- liftR (need TypeError (q_err s));
  sdo sk <- liftR (need TypeError (q_sky s));
  sdo p <- liftR (mask_low_snr_rows_2D fx er ql sk (g_cut c));
  sdo _ <- up2 (set_q_low (Some (fst p)));
  sdo _ <- up2 (set_q_low_inds (snd p));
  sdo m <- liftR (need TypeError (q_mask s));
  sdo m' <- liftR (times2 m (fst p));
  up2 (set_q_mask (Some m')).

(** misfit/galaxy.py:912-916 [calculate_fit_weights] via misfit/general/galaxy_utils.py:1243-1306. *)
Definition prep_weights (c : cfg) : ST env unit :=
  sdo e <- getS;
  let s := e2 e in
  sdo fx <- liftR (need TypeError (q_flux s));
  sdo er <- liftR (need TypeError (q_err s));
  sdo sk <- liftR (need TypeError (q_sky s));
  sdo ic <- liftR (need TypeError (q_incl s));
  sdo w <- liftR (fit_weights (g_wt c) fx er sk (q_low_inds s) (g_fit3 c ic er sk));
  sdo _ <- up2 (set_q_wprof (Some (fst w)));
  up2 (set_q_wmat (Some (snd w))).

(** The choice of m0_shift in [get_m0_lam0_pos_2D] (misfit/general/galaxy_utils.py:1361-1428):
    [mu] is the fitted centre, None when the fit raised. *)
Definition choose_shift (ylo yhi ypos m0 shift_fit snr : fl) (mu : option fl) : fl :=
  match mu with
  | None => Fin 0
  | Some mu =>
    if fgeb mu ylo && fleb mu yhi then
      if fleb (fabs (fsub ypos mu)) (Fin 2) then fsub mu m0
      else if fleb (fabs (fsub m0 mu)) (Fin 2) && fleb (fabs shift_fit) (Fin 1) && fgeb snr (Fin 3)
      then fsub mu m0 else Fin 0
    else Fin 0
  end.
(** The choice of lam0 (misfit/general/galaxy_utils.py:1434-1463). *)
Definition choose_lam0 (wmin wmax lam0 : fl) (mu : option fl) : fl :=
  let q := fdiv (fsub wmax wmin) (Fin 4) in
  match mu with
  | None => lam0
  | Some mu =>
    if fgeb mu (fadd wmin q) && fleb mu (fsub wmax q) then
      if fleb (fabs (fsub lam0 mu)) q then mu else lam0
    else lam0
  end.

(** lmfit's test for equal limits (np.isclose with both tolerances 1e-13), used when a parameter is added
    (misfit/general/galaxy_utils.py:1366-1368, 1438-1441, 1520-1522). *)
Definition lm_close (lo hi : fl) : bool :=
  match lo, hi with
  | Fin a, Fin b => Rleb (Rabs (a - b)) (/ 10 ^ 13 + / 10 ^ 13 * Rabs b)
  | _, _ => feqb lo hi
  end.
(** Parameters.add(.., min=lo, max=hi) (misfit/general/galaxy_utils.py:1366, 1438, 1520): equal limits raise
    ValueError. *)
Definition lm_bounds (lo hi : fl) : res unit := if lm_close lo hi then Err ValueError else Ok tt.

(** misfit/general/galaxy_utils.py:1328-1473 [get_m0_lam0_pos_2D] (plots left out): the shapes
    are the prepared ones, so the row positions are 0 .. mlims-1.  The limits of mu are set outside the
    try blocks (1366, 1438). *)
Definition prep_m0_lam0 (c : cfg) : ST env unit :=
  sdo e <- getS;
  let s := e2 e in
  sdo n <- liftR (need TypeError (q_mlims s));
  sdo fx <- liftR (need TypeError (q_flux s));
  sdo w <- liftR (need AttributeError (q_wave s));
  sdo m0 <- liftR (need TypeError (q_m0 s));
  sdo y <- liftR (need TypeError (q_ypos s));
  sdo l0 <- liftR (need TypeError (q_lam0 s));
  let ygood := setdiff_range n (q_low_inds s) in
  match ygood, q_wh_nosky s with
  | _ :: _, _ :: _ =>
      sdo _ <- liftR (lm_bounds (Fin 0) (Fin (INR (n - 1))));
      sdo wmin <- liftR (np_min w); sdo wmax <- liftR (np_max w);
      let q := fdiv (fsub wmax wmin) (Fin 4) in
      sdo _ <- liftR (lm_bounds (fadd wmin q) (fsub wmax q));
      sdo _ <- up2 (set_q_m0_shift (Some (choose_shift (Fin 0) (Fin (INR (n - 1))) y (Fin (IZR m0)) (q_m0_fit s) (q_m0_snr s) (g_fity c))));
      up2 (set_q_lam0 (Some (choose_lam0 wmin wmax l0 (g_fitl c))))
  | _, _ => sdo _ <- up2 (set_q_m0_shift (Some (Fin 0))); up2 (set_q_lam0 (Some l0))
  end.

(** misfit/galaxy.py:807-814 [initialize_derived_variables] for spec_type 'wave'. *)
Definition prep_derived (c : cfg) : ST env unit :=
  sdo e <- getS;
  sdo w <- liftR (need TypeError (q_wave (e2 e)));
  sdo _ <- up2 (set_q_dlam (Some (average (diffs w))));
  match q_lam0 (e2 e) with
  | Some _ => ret tt
  | None => up2 (set_q_lam0 (Some (fmul (g_restw c) (fadd (Fin 1) (g_z c)))))
  end.

(** misfit/galaxy.py:850-861 [initialize_skylevels]. *)
Definition prep_skylevels (c : cfg) : ST env unit :=
  sdo e <- getS;
  match q_cutoff (e2 e) with
  | Some _ => ret tt
  | None => sdo p <- liftR (g_sky c); up2 (set_q_cutoff (Some p))
  end.

(** The wavelength trim of the preparation (misfit/galaxy.py:757-762). *)
Definition prep_trim (c : cfg) : ST env unit :=
  fun e => match trim_2D_inplace (g_z c) (q_rline (e2 e)) None true (g_fline c) (e2 e) with
           | (s', r) => (mkEnv s' (e1 e) (e_dpa e) (e_reg e) (e_k e), r)
           end.
(** The spatial trim of the preparation (misfit/galaxy.py:785). *)
Definition prep_spatial (c : cfg) : ST env unit :=
  fun e => match trim_2D_spatial (g_dither c) (g_cut c) (g_vert c) (e2 e, e1 e) with
           | (st, r) => (mkEnv (fst st) (snd st) (e_dpa e) (e_reg e) (e_k e), r)
           end.
(** misfit/galaxy.py:793-794: the slit offset angle, when unset. *)
Definition prep_dpa (c : cfg) : ST env unit :=
  sdo e <- getS;
  match e_dpa e with
  | Some _ => ret tt
  | None => sdo d <- liftR (g_dpa c);
            modS (fun e => mkEnv (e2 e) (e1 e) (Some d) (e_reg e) (e_k e))
  end.

(** The block run once (misfit/galaxy.py:745-801). *)
Definition prep_body (c : cfg) : ST env unit :=
  sdo _ <- liftR (g_lines c);
  sdo _ <- prep_skylevels c;
  sdo _ <- prep_derived c;
  sdo _ <- ensure_mask_weight;
  sdo _ <- subtract_continuum c;
  sdo _ <- prep_trim c;
  sdo _ <- prep_sky c;
  sdo _ <- prep_low c;
  sdo _ <- prep_spatial c;
  sdo _ <- prep_weights c;
  sdo _ <- prep_dpa c;
  sdo _ <- prep_m0_lam0 c;
  up2 (set_q_prepared true).

(** misfit/galaxy.py:737-804 [fit_prep_calcs] without keyword arguments. *)
Definition fit_prep (c : cfg) : ST env unit :=
  sdo e <- getS;
  sdo _ <- (if q_prepared (e2 e) then ret tt else prep_body c);
  modS (fun e => mkEnv (e2 e) (e1 e) (e_dpa e) true (e_k e)).
