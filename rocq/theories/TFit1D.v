(* Property theorems: fitting emission lines to 1-D spectra, line tables (C55-C59, C66, C90-C94, C105). *)
From Coq Require Import String Ascii Reals List Bool Arith.
From Verif Require Import PyFloat PyBase Arr PyNum MKernels MIo MAper1D MPost MMask MTrim MFit1D SMask STrim SPost SFit1D
  PFit1D PFit1D2 PFit1D3 PFit1D4 PFit1D5 PFit1DEx.
Import ListNotations.
Local Open Scope R_scope.

(** C55: the corrected dispersion and what it leaves alone. *)
Theorem C55_corrected : forall c ef s i v, t_inst c = Some (Fin i) -> f_vd s = Fin v ->
  exists s' k, inst_corr c true ef s = (s', Ok tt) /\ same_fit s s' /\ f_corr s' = Some (Fin k) /\
    f_corr_err s' = Some (Fin 0, Fin 0) /\ 0 <= k <= Rabs v /\
    (Rabs i < Rabs v -> k * k + i * i = v * v) /\ (Rabs v <= Rabs i -> k = 0).
Proof. exact inst_corr_ok. Qed.
Print Assumptions C55_corrected.

Theorem C55_monotone : forall c ef s1 s2 s1' s2' i v1 v2 k1 k2,
  t_inst c = Some (Fin i) -> f_vd s1 = Fin v1 -> f_vd s2 = Fin v2 ->
  Rabs v1 <= Rabs v2 -> inst_corr c true ef s1 = (s1', Ok tt) -> inst_corr c true ef s2 = (s2', Ok tt) ->
  f_corr s1' = Some (Fin k1) -> f_corr s2' = Some (Fin k2) -> k1 <= k2.
Proof. exact inst_corr_monotone. Qed.
Print Assumptions C55_monotone.

(** C55: without an instrument width nothing happens. *)
Theorem C55_no_width : forall c ne ef s, t_inst c = None -> inst_corr c ne ef s = (s, Ok tt).
Proof. exact inst_corr_unset. Qed.
Print Assumptions C55_no_width.

Example C55_example : exists s', inst_corr (ex_cfg1 ones3) true false (ex_st1 1) = (s', Ok tt) /\ f_corr s' = Some (Fin (sqrt (80 * 80 - 50 * 50))).
Proof. exact ex_corr. Qed.

(** C56: without error estimation a fit of valid input completes. *)
Theorem C56_completes : forall M rnd c o s, respects_bounds M -> answers M -> runnable c s -> t_id c = IdInt ->
  o_noErrors o = true -> o_noPlot o = true \/ (o_plot_file o = true /\ t_label c = true) ->
  exists s', fit M rnd c o s = (s', Ok tt).
Proof. exact fit_no_errors_ok. Qed.
Print Assumptions C56_completes.

(** C56: with error estimation it stops with ValueError, the best-fit values, the Monte Carlo file and
    errors spanning the 15.865 to 84.135 per cent range being stored before. *)
Theorem C56_errors : forall M rnd c o s, respects_bounds M -> answers M -> finite_answers M -> runnable c s -> t_id c = IdInt ->
  o_noErrors o = false -> o_reload_errors o = false -> o_err_file o = true -> (0 < t_nmc c)%nat ->
  o_noPlot o = true \/ o_plot_file o = true ->
  exists s' m e, fit M rnd c o s = (s', Err ValueError) /\ f_file s' = Some m /\ rows m = t_nmc c /\
    cols m = length (best_values s') /\ f_errs s' = Some e /\ length (all_errs e) = length (best_values s') /\
    length (best_values s') = (2 + length (t_names c) + (t_order c + 1))%nat /\
    forall j, (j < length (best_values s'))%nat -> spans (15865 / 100000) (84135 / 100000) m (best_values s') (all_errs e) j.
Proof. exact fit_errors. Qed.
Print Assumptions C56_errors.

(** C56: it never returns. *)
Theorem C56_refuted : forall M rnd c o s s', o_noErrors o = false -> fit M rnd c o s <> (s', Ok tt).
Proof. exact fit_with_errors_fails. Qed.
Print Assumptions C56_refuted.

Example C56_example : forall mask, runnable (ex_cfg1 mask) (ex_st1 1).
Proof. exact ex_runnable. Qed.

Example C56_optimiser : respects_bounds (tryM []) /\ answers (tryM []) /\ finite_answers (tryM []).
Proof. exact ex_optimiser. Qed.

(** C57: the redshift is within its range, and what was negative in the unbounded first fit is not
    negative in the result. *)
Theorem C57_physical : forall M rnd c o s s', respects_bounds M -> fit M rnd c o s = (s', Ok tt) ->
  exists w rf p first, first_wave c = Ok w /\ M rf p = Ok first /\
    no_bounds (m_vd p) /\ Forall no_bounds (m_flux p) /\
    fleb (fsub (t_gz c) (fdiv (t_del c) (Fin w))) (f_z s') = true /\
    fleb (f_z s') (fadd (t_gz c) (fdiv (t_del c) (Fin w))) = true /\
    (fltb (p_val (m_vd first)) (Fin 0) = true -> fleb (Fin 0) (f_vd s') = true) /\
    (forall f0, nth_error (map p_val (m_flux first)) 0 = Some f0 -> fltb f0 (Fin 0) = true ->
       forall fs, f_flux s' = Some fs -> Forall (fun f => fleb (Fin 0) f = true) fs).
Proof. exact fit_physical. Qed.
Print Assumptions C57_physical.

(** C57: the dispersion may still be negative ... *)
Theorem C57_dispersion_refuted : exists M rnd c o s s' v, respects_bounds M /\ answers M /\ runnable c s /\
  fit M rnd c o s = (s', Ok tt) /\ f_vd s' = Fin v /\ v < 0.
Proof. exact negative_dispersion. Qed.
Print Assumptions C57_dispersion_refuted.

(** C57: ... and so may the flux of a later line set. *)
Theorem C57_flux_refuted : exists M rnd c o s s' fs, respects_bounds M /\ answers M /\ runnable c s /\
  fit M rnd c o s = (s', Ok tt) /\ f_flux s' = Some fs /\ exists v, In (Fin v) fs /\ v < 0.
Proof. exact negative_second. Qed.
Print Assumptions C57_flux_refuted.

Example C57_example : forall rnd, exists s', fit (tryM []) rnd (ex_cfg1 ones3) (ex_opts true) (ex_st1 1) = (s', Ok tt).
Proof. exact ex_fit. Qed.

(** C58: the template of a line. *)
Theorem C58_template : forall xs mu vd flux, xs <> [] -> 0 < mu -> 0 < vd ->
  gaussian_line (map Fin xs) (Fin mu) (Fin vd) (Fin flux) =
  Ok (map (fun x => Fin (line_value xs mu (width vd mu) flux x)) xs).
Proof. exact gaussian_line_Fin. Qed.
Print Assumptions C58_template.

Theorem C58_linear : forall xs mu sig a f x, line_value xs mu sig (a * f) x = a * line_value xs mu sig f x.
Proof. exact line_value_linear. Qed.
Print Assumptions C58_linear.

Theorem C58_bound : forall xs mu sig f x, 0 < sig -> In x xs -> 0 <= f ->
  0 <= line_value xs mu sig f x <= f / (sig * sqrt (2 * PI)).
Proof. exact line_value_le. Qed.
Print Assumptions C58_bound.

Theorem C58_peak : forall xs mu sig f,
  xs <> [] -> exists x, In x xs /\ line_value xs mu sig f x = f / (sig * sqrt (2 * PI)).
Proof. exact line_value_peak. Qed.
Print Assumptions C58_peak.

(** C58: on a grid containing the centre it is the Gaussian carrying the flux. *)
Theorem C58_exact : forall xs mu sig f x, In mu xs -> line_value xs mu sig f x = true_gaussian mu sig f x.
Proof. exact line_value_exact. Qed.
Print Assumptions C58_exact.

(** C58: the spectrum is the sum of its lines and its continuum. *)
Theorem C58_spectrum : forall T names order q xs z vd fs cs sets, xs <> [] -> 0 < 1 + z -> 0 < vd ->
  holds q z vd fs cs -> length cs = S order -> known_sets T names fs sets -> positive_lines sets ->
  spectrum_model T names order q (map Fin xs) = Ok (map (fun x => Fin (spectrum_value xs z vd sets cs x)) xs).
Proof. exact spectrum_model_Fin. Qed.
Print Assumptions C58_spectrum.

(** C58: the value at a wavelength depends on the other wavelengths. *)
Theorem C58_refuted : exists xs ys mu vd flux x gx gy i j, In x xs /\ In x ys /\
  gaussian_line (map Fin xs) (Fin mu) (Fin vd) (Fin flux) = Ok gx /\
  gaussian_line (map Fin ys) (Fin mu) (Fin vd) (Fin flux) = Ok gy /\
  nth_error xs i = Some x /\ nth_error ys j = Some x /\ nth_error gx i <> nth_error gy j.
Proof. exact template_refuted. Qed.
Print Assumptions C58_refuted.

Example C58_example : known_sets shipped ["Halpha"; "Hbeta"]%string [1; 2] [(1, [(wHa, 1)]); (2, [(486271 / 100, 1)])] /\
  positive_lines [(1, [(wHa, 1)]); (2, [(486271 / 100, 1)])] /\
  holds (mkPrm (unbounded (Fin 0)) (unbounded (Fin 100)) [unbounded (Fin 1); nonneg (Fin 2)] [unbounded (Fin 3)]) 0 100 [1; 2] [3].
Proof. exact ex_known. Qed.

(** C59: one residual for each used pixel, in order, zero if not finite. *)
Theorem C59_residuals : forall T names order x data err mask ks q r, length data = length x -> length err = length x ->
  length mask = length x -> used_pixels mask ks ->
  residual T names order x (Some data) (Some err) (Some mask) q = Ok r ->
  exists model, spectrum_model T names order q (map (fun k => nth k x NaN) ks) = Ok model /\
    length model = length ks /\ length r = length ks /\
    forall j k, nth_error ks j = Some k -> exists m, nth_error model j = Some m /\
      let v := fdiv (fsub m (nth k data NaN)) (nth k err NaN) in
      nth_error r j = Some (match v with Fin a => Fin a | _ => Fin 0 end).
Proof. exact residual_spec. Qed.
Print Assumptions C59_residuals.

(** C59: other pixels do not matter. *)
Theorem C59_masked_ignored : forall T names order x data err x' data' err' mask q,
  length data = length x -> length err = length x -> length mask = length x ->
  length x' = length x -> length data' = length x -> length err' = length x ->
  (forall i, used mask i -> nth_error x i = nth_error x' i /\ nth_error data i = nth_error data' i /\ nth_error err i = nth_error err' i) ->
  residual T names order x (Some data) (Some err) (Some mask) q = residual T names order x' (Some data') (Some err') (Some mask) q.
Proof. exact residual_same. Qed.
Print Assumptions C59_masked_ignored.

(** C59: a dispersion that is not positive fits every spectrum perfectly. *)
Theorem C59_refuted : forall T n names order x data err mask q r ls z vd,
  length data = length x -> length err = length x -> length mask = length x ->
  line_set T n = Ok ls -> ls <> [] -> (forall w r, In (w, r) ls -> 0 < w) ->
  p_val (m_z q) = Fin z -> p_val (m_vd q) = Fin vd -> 0 < 1 + z -> vd <= 0 ->
  residual T (n :: names) order x (Some data) (Some err) (Some mask) q = Ok r -> forall v, In v r -> v = Fin 0.
Proof. exact residual_negative. Qed.
Print Assumptions C59_refuted.

Example C59_example : used_pixels [Fin 0; Fin 1; Fin 1] [1%nat; 2%nat] /\
  nearest_used [wHa - 1; wHa; wHa + 1] [Fin 0; Fin 1; Fin 1] (wHa * (1 + 0)).
Proof. exact ex_nearest. Qed.

(** C66: a lookup gives the first matching row ... *)
Theorem C66_lookup : forall A (t : list (string * A)) k a, lookup t k = Ok a <-> first_row t k a.
Proof. exact (@lookup_ok). Qed.
Print Assumptions C66_lookup.

(** C66: ... and ValueError when there is none. *)
Theorem C66_missing : forall A (t : list (string * A)) k e, lookup t k = Err e <-> e = ValueError /\ ~ In k (map fst t).
Proof. exact (@lookup_err). Qed.
Print Assumptions C66_missing.

(** C66: the list of lines in a row is split at its commas. *)
Theorem C66_split : forall s, joined (split_comma s) = s /\ Forall no_comma (split_comma s).
Proof. exact split_comma_spec. Qed.
Print Assumptions C66_split.

(** C66: every shipped line set. *)
Theorem C66_lines : forall name, In name (map fst (b_names shipped)) ->
  exists ls, line_set shipped name = Ok ls /\ ls <> [] /\
    (forall w r, In (w, r) ls -> 0 < w /\ 0 < r <= 1) /\ exists w, In (w, 1) ls /\ forall w' r, In (w', r) ls -> w' <> w -> r < 1.
Proof. exact shipped_lines. Qed.
Print Assumptions C66_lines.

(** C66: the shipped windows are nested around the line. *)
Theorem C66_windows : forall l, In l (map fst (b_line shipped)) ->
  exists w line mask full, read_restwave (b_lines shipped) l = Ok w /\ lookup (b_line shipped) l = Ok line /\
    lookup (b_mask shipped) l = Ok mask /\ lookup (b_full shipped) l = Ok full /\
    in_window line w /\ inside_window line mask /\ inside_window mask full.
Proof. exact shipped_windows. Qed.
Print Assumptions C66_windows.

(** C66: the masked window covers the companion lines. *)
Theorem C66_companions : forall name l ls,
  In (name, l) [("OIII", "OIII5008"); ("NII", "HA6565")]%string -> line_set shipped name = Ok ls ->
  exists mask, lookup (b_mask shipped) l = Ok mask /\ forall w r, In (w, r) ls -> in_window mask w.
Proof. exact shipped_mask_companions. Qed.
Print Assumptions C66_companions.

(** C66: the shipped 1-D windows. *)
Theorem C66_trim : forall name, In name ["Halpha"; "Hbeta"; "OIII"]%string ->
  exists ls win, line_set shipped name = Ok ls /\ lookup (b_trim1 shipped) name = Ok win /\
    forall w r, In (w, r) ls -> fst win < w < snd win.
Proof. exact shipped_trim. Qed.
Print Assumptions C66_trim.

(** C66: three shipped line sets have no 1-D window. *)
Theorem C66_trim_refuted : forall name, In name ["NII"; "SII"; "OII"]%string ->
  In name (map fst (b_names shipped)) /\ read_wave_range (b_trim1 shipped) name = Err ValueError.
Proof. exact shipped_no_trim. Qed.
Print Assumptions C66_trim_refuted.

(** C66: the sky cutoffs of every band. *)
Theorem C66_sky : forall band, (In band ["Y"; "J"; "H"; "K"]%string /\
    exists x, read_skyline_band_cutoff (b_sky shipped) band = Ok (Fin x, "timesMedianErr"%string) /\ 2 <= x <= 3) \/
  (~ In band ["Y"; "J"; "H"; "K"]%string /\ read_skyline_band_cutoff (b_sky shipped) band = Err ValueError).
Proof. exact shipped_sky. Qed.
Print Assumptions C66_sky.

(** C90: the stored model is the minimised one wherever the pixel nearest to each line is used ... *)
Theorem C90_same_model : forall T names order q xs data err mask z vd fs cs sets ks fm r,
  length data = length xs -> length err = length xs -> length mask = length xs -> used_pixels mask ks ->
  0 < 1 + z -> 0 < vd -> holds q z vd fs cs -> length cs = S order -> known_sets T names fs sets -> positive_lines sets ->
  (forall s w r, In s sets -> In (w, r) (snd s) -> nearest_used xs mask (w * (1 + z))) -> sets <> [] -> (forall s, In s sets -> snd s <> []) ->
  spectrum_model T names order q (map Fin xs) = Ok fm ->
  residual T names order (map Fin xs) (Some data) (Some err) (Some mask) q = Ok r ->
  forall j k, nth_error ks j = Some k -> exists m, nth_error fm k = Some m /\
    let v := fdiv (fsub m (nth k data NaN)) (nth k err NaN) in
    nth_error r j = Some (match v with Fin a => Fin a | _ => Fin 0 end).
Proof. exact final_model_residual. Qed.
Print Assumptions C90_same_model.

(** C90: ... and not otherwise. *)
Theorem C90_refuted : exists T names order q xs data err mask fm r, length data = length xs /\
  length err = length xs /\ length mask = length xs /\
  spectrum_model T names order q (map Fin xs) = Ok fm /\
  residual T names order (map Fin xs) (Some data) (Some err) (Some mask) q = Ok r /\
  used mask 0 /\ Forall (fun e => e = Fin 1) err /\ Forall (fun d => d = Fin 0) data /\ nth_error r 0 <> nth_error fm 0.
Proof. exact final_model_refuted. Qed.
Print Assumptions C90_refuted.

Example C90_example : used_pixels [Fin 0; Fin 1; Fin 1] [1%nat; 2%nat] /\
  nearest_used [wHa - 1; wHa; wHa + 1] [Fin 0; Fin 1; Fin 1] (wHa * (1 + 0)).
Proof. exact ex_nearest. Qed.

(** C91: errors of the corrected dispersion are never estimated ... *)
Theorem C91_refuted : forall c ef s s' i, t_inst c = Some i -> t_sres c = None ->
  inst_corr c false ef s <> (s', Ok tt).
Proof. exact inst_corr_errors_fail. Qed.
Print Assumptions C91_refuted.

(** C91: ... because of a missing attribute; *)
Theorem C91_attribute : forall c s i v m, t_inst c = Some (Fin i) -> t_sres c = None -> f_vd s = Fin v ->
  f_file s = Some m -> (2 <= cols m)%nat ->
  exists s' k, inst_corr c false true s = (s', Err AttributeError) /\ f_corr s' = Some k /\ f_corr_err s' = f_corr_err s.
Proof. exact inst_corr_attribute. Qed.
Print Assumptions C91_attribute.

(** C91: with the attribute attached by hand they span the range of the corrected samples. *)
Theorem C91_errors : forall c s i i' v m, t_inst c = Some (Fin i) -> t_sres c = Some (Fin i') -> f_vd s = Fin v ->
  f_file s = Some m -> (2 <= cols m)%nat -> (0 < rows m)%nat -> col m 1 = map Fin (rcol m 1) ->
  exists s' k lo hi, inst_corr c false true s = (s', Ok tt) /\ same_fit s s' /\ f_corr s' = Some (Fin k) /\
    quantile (15865 / 100000) (map (corrected i') (rcol m 1)) lo /\
    quantile (84135 / 100000) (map (corrected i') (rcol m 1)) hi /\
    f_corr_err s' = Some (Fin (k - lo), Fin (hi - k)).
Proof. exact inst_corr_errors. Qed.
Print Assumptions C91_errors.

(** C92: the spectrum that is fitted. *)
Theorem C92_setup : forall T s wave flux err mask v range file names l lo hi ks,
  arrays1 s wave flux err mask -> nth_error names 0 = Some l ->
  match range with
  | Some r => r = (lo, hi)
  | None => read_wave_range (match file with Some t => t | None => b_trim1 T end) l = Ok (lo, hi)
  end ->
  kept (fmul lo (fadd (Fin 1) v), fmul hi (fadd (Fin 1) v)) wave ks -> ks <> [] ->
  exists s' wave' flux' err' mask', setup_spectrum T s (ZNp v) range file names = Ok s' /\
    picked1 ks wave wave' /\ picked1 ks flux flux' /\ picked1 ks err err' /\
    arrays1 s' wave' flux' err' mask' /\ s_trimr s' = Some (lo, hi) /\
    (forall j k, nth_error ks j = Some k -> nth_error mask' j = nth_error mask k \/ nth_error mask' j = Some (Fin 0)) /\
    (used mask (hd 0%nat ks) -> used mask (last ks 0%nat) -> picked1 ks mask mask').
Proof. exact setup_ok. Qed.
Print Assumptions C92_setup.

(** C92: a first line set without a window, and no range given. *)
Theorem C92_unlisted_refuted : forall T s z file names l, nth_error names 0 = Some l -> z <> ZNone ->
  ~ In l (map fst (match file with Some t => t | None => b_trim1 T end)) ->
  setup_spectrum T s z None file names = Err ValueError.
Proof. exact setup_unlisted. Qed.
Print Assumptions C92_unlisted_refuted.

(** C92: a plain Python float as redshift. *)
Theorem C92_plain_float_refuted : forall T s v range file names l, nth_error names 0 = Some l ->
  (range <> None \/ In l (map fst (match file with Some t => t | None => b_trim1 T end))) ->
  setup_spectrum T s (ZPy v) range file names = Err AttributeError.
Proof. exact setup_plain_float. Qed.
Print Assumptions C92_plain_float_refuted.

Example C92_example : let s := mkSp1 (Some [Fin 6000; Fin 6500; Fin 6600]) (Some [Fin 6000; Fin 6500; Fin 6600]) None (Some [Fin 1; Fin 2; Fin 3])
    (Some ones3) (Some ones3) None None None in
  arrays1 s [Fin 6000; Fin 6500; Fin 6600] [Fin 1; Fin 2; Fin 3] ones3 ones3 /\
  read_wave_range (b_trim1 shipped) "Halpha" = Ok (Fin 6480, Fin 6650) /\
  kept (fmul (Fin 6480) (fadd (Fin 1) (Fin 0)), fmul (Fin 6650) (fadd (Fin 1) (Fin 0))) [Fin 6000; Fin 6500; Fin 6600] [1%nat; 2%nat].
Proof. exact ex_setup. Qed.

(** C93: the lines and wavelengths of every set, when the sets have one size or numpy is old. *)
Theorem C93_lines : forall T strict names ls ws, Forall2 (fun n l => read_line_names (b_names T) n = Ok l) names ls ->
  Forall2 (Forall2 (fun l w => read_restwave (b_lines T) l = Ok w)) ls ws ->
  (strict = false \/ exists k, Forall (fun l => length l = k) ls) ->
  set_attr1 T strict true names None None = Ok (ls, ws).
Proof. exact set_attr1_ok. Qed.
Print Assumptions C93_lines.

(** C93: sets of different sizes with a current numpy. *)
Theorem C93_refuted : forall T names ls ws, Forall2 (fun n l => read_line_names (b_names T) n = Ok l) names ls ->
  Forall2 (Forall2 (fun l w => read_restwave (b_lines T) l = Ok w)) ls ws ->
  (exists a b, In a ls /\ In b ls /\ length a <> length b) ->
  set_attr1 T true true names None None = Err ValueError.
Proof. exact set_attr1_ragged. Qed.
Print Assumptions C93_refuted.

Example C93_example : set_attr1 shipped true true ["Halpha"; "NII"]%string None None = Err ValueError /\
  exists ls ws, set_attr1 shipped true true ["NII"; "SII"]%string None None = Ok (ls, ws) /\ length ws = 2%nat.
Proof. exact ex_ragged. Qed.

(** C94: once set, the lines do not follow the names. *)
Theorem C94_refuted : forall T strict names names' ls ws,
  set_attr1 T strict true names' (Some ls) (Some ws) = set_attr1 T strict true names (Some ls) (Some ws) /\
  set_attr1 T strict true names' (Some ls) (Some ws) = Ok (ls, ws).
Proof. exact set_attr1_stale. Qed.
Print Assumptions C94_refuted.

(** C105: a galaxy whose ID is not set stops the fit with TypeError, after the best fit has been stored
    (the one a galaxy with an ID gets) and before the errors, whatever the options. *)
Theorem C105_no_id_refuted : forall M rnd c o o' s, respects_bounds M -> answers M -> runnable c s -> t_id c = IdNone ->
  o_noErrors o' = true -> o_noPlot o' = true ->
  exists s' s'', fit M rnd c o s = (s', Err TypeError) /\ fit M rnd (with_id IdInt false c) o' s = (s'', Ok tt) /\
    same_best s' s'' /\ f_errs s' = f_errs s /\ f_file s' = f_file s.
Proof. exact fit_no_id. Qed.
Print Assumptions C105_no_id_refuted.

(** C105: asking for a plot of a galaxy with neither mask name nor field stops with TypeError, everything
    having been stored as without the plot. *)
Theorem C105_no_label : forall M rnd c o o' s, respects_bounds M -> answers M -> runnable c s -> t_id c = IdInt -> t_label c = false ->
  o_noErrors o = true -> o_noPlot o = false -> o_plot_file o = true ->
  o_noErrors o' = true -> o_noPlot o' = true ->
  exists s', fit M rnd c o s = (s', Err TypeError) /\ fit M rnd c o' s = (s', Ok tt).
Proof. exact fit_no_label. Qed.
Print Assumptions C105_no_label.

Example C105_example : t_id (with_id IdNone false (ex_cfg1 ones3)) = IdNone /\ runnable (with_id IdNone false (ex_cfg1 ones3)) (ex_st1 1).
Proof. exact ex_no_id. Qed.
