(* Property theorems: Sharing between models and fits, the pruned copy, and setting up again. *)
From Coq Require Import String Reals Lra List Bool Arith.
From Verif Require Import PyFloat PyBase Arr PyNum MParams MKernels MAper2D MProf MPost MAttr MShare SParams SAper2D SAttr SShare PAper2D PAper2DEx PPostEx PShareSt PShare PShareEx PShareFit PSharePrune PShareFitEx.
Import ListNotations.
Local Open Scope R_scope.

(** C61: with its own instrument (or no PSF), result object and theta, and a light profile of its own (or set-ups that succeed), a fit
    shows the same outcomes, results and images whatever other fits the program runs in between. *)
Theorem C61_independent : forall K F i ops fw, no_models (fw_w fw) -> fapart F i ops ->
  own_light F i ops \/ setups_succeed K F i ops fw ->
  fobserved K F i ops fw = fobserved K F i (filter (fabout i) ops) fw.
Proof. exact fits_independent. Qed.
Print Assumptions C61_independent.

(** C61: two fits with one result object: after the second is analysed, the first shows the second's results. *)
Theorem C61_shared_results : forall K F i j ops h fw p hh, i <> j -> fd_res (F i) = fd_res (F j) ->
  w_km (fw_w (frun K F ops fw)) j <> None ->
  chain_results K (fd_links (F j)) (fd_fitted (F j) (w_theta (fw_w (frun K F ops fw)) (d_theta (fd_km (F j))))) h = Ok (hh, p) ->
  fw_res (frun K F (ops ++ [FAnalyze j h]) fw) (fd_res (F i)) = Some p.
Proof. exact shared_results. Qed.
Print Assumptions C61_shared_results.

(** C61: sharing only the result object already makes two fits dependent. *)
Theorem C61_independent_refuted : exists K F i j fw ops, i <> j /\ no_models (fw_w fw) /\ fd_res (F i) = fd_res (F j) /\
  d_theta (fd_km (F i)) <> d_theta (fd_km (F j)) /\ d_int (fd_km (F i)) <> d_int (fd_km (F j)) /\ d_ins (fd_km (F i)) <> d_ins (fd_km (F j)) /\
  fobserved K F i ops fw <> fobserved K F i (filter (fabout i) ops) fw.
Proof. exact shared_results_witness. Qed.
Print Assumptions C61_independent_refuted.

(** Two fits with a shared kinematic profile that satisfy the hypotheses; the first keeps its results. *)
Example C61_example : no_models (fw_w y_world) /\ fapart (y_fits false) 0 y_ops /\ own_light (y_fits false) 0 y_ops /\
  exists p r m l, fobserved ex_kde (y_fits false) 0 y_ops y_world = (l ++ [(r, Some p, m)])%list /\ length (p_best p) = 5%nat.
Proof. exact own_results. Qed.

(** C62: models with their own light profile, instrument and theta (or harmless sharing) do not see each other. *)
Theorem C62_independent : forall D i ops w,
  no_models w -> apart D i ops w -> observed D i ops w = observed D i (filter (about i) ops) w.
Proof. exact models_independent. Qed.
Print Assumptions C62_independent.

(** C62: two models with one light profile: the first, if built after the second was constructed, is computed with the second's light. *)
Theorem C62_shared_profile : forall D i j tf w, i <> j -> d_int (D i) = d_int (D j) ->
  observed D i [New i; New j; Make i tf] w =
  [(Ok tt, None);
   let (k, r) := km_make (with_int (d_cfg (D i)) (p_int (c_prof (d_cfg (D j))))) tf
                   (mkkm (w_theta w (d_theta (D i))) (d_vary (D i)) (d_noscale (D i)) None None (w_stamp w (d_ins (D i)))) in
   (r, k_model k)].
Proof. exact shared_profile_general. Qed.
Print Assumptions C62_shared_profile.

(** C62: sharing only the light profile makes two models dependent. *)
Theorem C62_independent_refuted : exists D i j w, i <> j /\ no_models w /\ d_int (D i) = d_int (D j) /\
  d_theta (D i) <> d_theta (D j) /\ d_kin (D i) <> d_kin (D j) /\ d_ins (D i) <> d_ins (D j) /\
  exists ops, observed D i ops w <> observed D i (filter (about i) ops) w.
Proof. exact shared_profile_witness. Qed.
Print Assumptions C62_independent_refuted.

(** Two models that satisfy the hypotheses; the first image is that of its own galaxy. *)
Example C62_example : no_models s_world /\ apart a_decl 0 [New 0; New 1; Make 0 []; Make 1 []; Update 0 []] s_world /\
  exists m l, observed a_decl 0 [New 0; New 1; Make 0 []; Make 1 []; Update 0 []] s_world = (Ok tt, None) :: (Ok tt, Some m) :: l /\
    at2 m 0 0 = Fin (s_val (1/2)).
Proof. exact own_light_models. Qed.

(** C72: a copy taken at any time after set-up is the fit as it was set up. *)
Theorem C72_copy_is_setup : forall f0 f1 f2, length (t_vary (ft_set f0)) = length (t_theta (ft_set f0)) ->
  setup_model f0 = (f1, Ok tt) -> used f1 f2 -> prune f2 = Ok f1.
Proof. exact prune_fresh. Qed.
Print Assumptions C72_copy_is_setup.

(** C72: the copy gives, call after call, what the fit itself would give. *)
Theorem C72_same_values : forall f0 f1 f2 tfs, length (t_vary (ft_set f0)) = length (t_theta (ft_set f0)) ->
  setup_model f0 = (f1, Ok tt) -> used f1 f2 ->
  exists g, prune f2 = Ok g /\ snd (sample g tfs) = snd (sample f2 tfs).
Proof. exact prune_sample. Qed.
Print Assumptions C72_same_values.

(** C72: at any point of the sampling the copy gives the value that the fit gives, whatever either evaluated before. *)
Theorem C72_same_likelihood : forall f0 f1 f2 f3 g tf, length (t_vary (ft_set f0)) = length (t_theta (ft_set f0)) ->
  setup_model f0 = (f1, Ok tt) -> used f1 f2 -> used f1 f3 -> prune f2 = Ok g -> 
  forall g', used g g' -> snd (fit_lnprob g' tf) = snd (fit_lnprob f3 tf).
Proof. exact prune_value. Qed.
Print Assumptions C72_same_likelihood.

(** C72: deleting the attributes succeeds and leaves every attribute the likelihood reads. *)
Theorem C72_attributes : forall A (d : dict A), keys d = kinmodel_attrs ->
  exists d', del_keys d kinmodel_deleted = Ok d' /\
    (forall k, In k kinmodel_reads -> dget d' k = dget d k /\ dget d' k <> None) /\
    (forall k, In k kinmodel_deleted -> dget d' k = None).
Proof. exact (@pruned_attributes). Qed.
Print Assumptions C72_attributes.

(** A fit that is set up, used once inside its bounds, and can be copied. *)
Example C72_example : exists f1 f2 v, length (t_vary (ft_set (x_fit (x_set true false)))) = length (t_theta (ft_set (x_fit (x_set true false)))) /\
  setup_model (x_fit (x_set true false)) = (f1, Ok tt) /\ fit_lnprob f1 [Fin (1/2)] = (f2, v) /\ used f1 f2 /\
  prior_eval (mkPrior (w_th 0) [true; false; false] (Some x_bounds)) [Fin (1/2)] = Ok (Fin 0).
Proof. exact x_setup. Qed.

(** C73: over every sequence of set-ups the model follows the last settings and the prior keeps the free/fixed pattern of the first. *)
Theorem C73_pattern : forall f s0 ss, ft_prior f = None ->
  exists p k, ft_prior (setups (s0 :: ss) f) = Some p /\ ft_km (setups (s0 :: ss) f) = Some k /\
    pr_vary p = t_vary s0 /\ k_vary k = t_vary (last ss s0).
Proof. exact setups_pattern. Qed.
Print Assumptions C73_pattern.

(** C73: the bounds, however, are those of the latest settings that have any. *)
Theorem C73_bounds : forall p s, pr_vary (setup_prior p s) = match p with Some p => pr_vary p | None => t_vary s end /\
  pr_bounds (setup_prior p s) = match t_bounds s with Some b => Some b | None => match p with Some p => pr_bounds p | None => None end end.
Proof. exact setup_prior_pattern. Qed.
Print Assumptions C73_bounds.

(** C73: after a second set-up an allowed value has zero probability and a forbidden one passes the prior. *)
Theorem C73_agree_refuted : exists s0 s1 f, length (t_vary s1) = length (t_theta s1) /\ t_bounds s1 = Some x_bounds /\ ft_prior f = None /\
  exists p k, ft_prior (setups [s0; s1] f) = Some p /\ ft_km (setups [s0; s1] f) = Some k /\ k_vary k = t_vary s1 /\ pr_vary p <> k_vary k /\
    in_support (t_vary s1) x_bounds [Fin 15] /\ snd (fit_lnprob (setups [s0; s1] f) [Fin 15]) = Ok NInf /\
    ~ in_support (t_vary s1) x_bounds [Fin (1/2)] /\ prior_eval p [Fin (1/2)] = Ok (Fin 0).
Proof. exact refit_witness. Qed.
Print Assumptions C73_agree_refuted.

(** C101: without a PSF an evaluation neither reads nor writes the instrument's stored stamp. *)
Theorem C101_no_psf : forall c st a, i_fwhm (c_ins c) <= 0 ->
  do_model_calcs c (set_stamp st a) = (set_stamp st (fst (do_model_calcs c a)), snd (do_model_calcs c a)).
Proof. exact no_psf_stamp. Qed.
Print Assumptions C101_no_psf.

(** C101: an evaluation that works with the model's own stamp fails when another model has left an empty one. *)
Theorem C101_empty_stamp : forall c ker a b,
  0 < i_fwhm (c_ins c) -> o_shift (c_opt c) || o_eff (c_opt c) = false -> size3 ker = 0%nat ->
  do_model_calcs c a = (b, Ok tt) -> snd (do_model_calcs c (set_stamp (Stamp3 ker) a)) = Err IndexError.
Proof. exact empty_stamp_fails. Qed.
Print Assumptions C101_empty_stamp.

(** C101: two models that share only the instrument: the second makes the first's evaluation fail. *)
Theorem C101_shared_instrument_refuted : exists D i j w, i <> j /\ no_models w /\ d_ins (D i) = d_ins (D j) /\
  d_int (D i) <> d_int (D j) /\ d_kin (D i) <> d_kin (D j) /\ d_theta (D i) <> d_theta (D j) /\
  exists ops, map fst (observed D i (filter (about i) ops) w) = [Ok tt; Ok tt; Ok tt] /\ map fst (observed D i ops w) = [Ok tt; Ok tt; Err IndexError].
Proof. exact shared_instrument_witness. Qed.
Print Assumptions C101_shared_instrument_refuted.

(** C102: evaluating a model writes the free values into the theta array of the settings it was given, and leaves the fixed ones. *)
Theorem C102_settings_overwritten : forall D i w tf o, (o = Make i tf \/ o = Update i tf) ->
  length (d_vary (D i)) = length (w_theta w (d_theta (D i))) -> length tf = nfree (d_vary (D i)) ->
  let w' := fst (step D (fst (step D w (New i))) o) in
  (forall m, free (d_vary (D i)) m -> nth_error (w_theta w' (d_theta (D i))) m = nth_error tf (rank (d_vary (D i)) m)) /\
  (forall m, ~ free (d_vary (D i)) m -> nth_error (w_theta w' (d_theta (D i))) m = nth_error (w_theta w (d_theta (D i))) m).
Proof. exact theta_frame. Qed.
Print Assumptions C102_settings_overwritten.

(** C102: two models made from one settings object change each other. *)
Theorem C102_shared_theta_refuted : exists D i j w, i <> j /\ no_models w /\ d_theta (D i) = d_theta (D j) /\
  d_int (D i) <> d_int (D j) /\ d_kin (D i) <> d_kin (D j) /\ d_ins (D i) <> d_ins (D j) /\ (forall m, ~ free (d_vary (D i)) m) /\
  exists ops, observed D i ops w <> observed D i (filter (about i) ops) w.
Proof. exact shared_theta_witness. Qed.
Print Assumptions C102_shared_theta_refuted.
