(* Property theorems: a noise-free 1-D spectrum (C143). *)
From Coq Require Import String Reals List Bool Arith.
From Verif Require Import PyFloat PyBase Arr PyNum MKernels MParams MAper2D MYprof SMask MIo MTrim MFit1D SFit1D SClean1 SRowFit PKernels PFit1D PFit1D2 PFit1D3 PFit1D4 PFit1DEx PRowFit PRowFit2 PClean1.
Import ListNotations.
Local Open Scope R_scope.

(** C143: on a noise-free spectrum of any lines and continuum the true parameters have a sum of squares of exactly zero, and no parameters have a smaller one. *)
Theorem C143_truth : forall T names order xs data err mask ks q z vd fs cs sets,
  length data = length xs -> length err = length xs -> length mask = length xs -> used_pixels mask ks ->
  0 < 1 + z -> 0 < vd -> holds q z vd fs cs -> length cs = S order -> known_sets T names fs sets -> positive_lines sets ->
  ks <> [] -> clean_spectrum xs data err ks z vd sets cs ->
  let rf := residual T names order (map Fin xs) (Some data) (Some err) (Some mask) in
  chi2 (rf q) = Fin 0 /\ forall q', fltb (chi2 (rf q')) (chi2 (rf q)) = false.
Proof. exact clean_truth. Qed.
Print Assumptions C143_truth.

(** C143: parameters with a positive dispersion that do as well as the truth have the same spectrum at every used pixel. *)
Theorem C143_same : forall T names order xs data err mask ks q z vd fs cs sets z0 vd0 sets0 cs0,
  length data = length xs -> length err = length xs -> length mask = length xs -> used_pixels mask ks ->
  0 < 1 + z -> 0 < vd -> holds q z vd fs cs -> length cs = S order -> known_sets T names fs sets -> positive_lines sets ->
  ks <> [] -> clean_spectrum xs data err ks z0 vd0 sets0 cs0 ->
  fltb (Fin 0) (chi2 (residual T names order (map Fin xs) (Some data) (Some err) (Some mask) q)) = false ->
  forall k, In k ks -> spectrum_value (at_pixels xs ks) z vd sets cs (nth k xs 0) = spectrum_value (at_pixels xs ks) z0 vd0 sets0 cs0 (nth k xs 0).
Proof. exact clean_same. Qed.
Print Assumptions C143_same.

(** C143: a fit of one line that found the true continuum and a positive dispersion found the true redshift, dispersion and flux, for every least-squares optimiser. *)
Theorem C143_fit : forall M rnd c o s s' name w rr wave gz del xs data err mask ks z vd f cs z1 vd1 x y u,
  fit M rnd c o s = (s', Ok tt) ->
  t_names c = [name] -> line_set (t_lib c) name = Ok [(w, rr)] -> 0 < w -> rr <> 0 ->
  s_obs (t_spec c) = Some (map Fin xs) -> s_flux (t_spec c) = Some data -> s_err (t_spec c) = Some err -> s_mask (t_spec c) = Some mask ->
  length data = length xs -> length err = length xs -> length mask = length xs -> used_pixels mask ks ->
  first_wave c = Ok wave -> wave <> 0 -> t_gz c = Fin gz -> t_del c = Fin del -> gz - del / wave <= z <= gz + del / wave ->
  0 < 1 + z -> 0 < vd -> 0 < f -> length cs = S (t_order c) ->
  clean_spectrum xs data err ks z vd [(f, [(w, rr)])] cs ->
  In x ks -> In y ks -> In u ks -> nth x xs 0 <> nth y xs 0 -> nth x xs 0 <> nth u xs 0 -> nth y xs 0 <> nth u xs 0 ->
  (forall fb vb p, make_params c (with_cont c s) fb vb = Ok p -> least_squares M (resid_fun c (map Fin xs) (Some data) (Some err) (Some mask)) p) -> finite_answers M ->
  f_z s' = Fin z1 -> 0 < 1 + z1 -> f_vd s' = Fin vd1 -> 0 < vd1 -> f_cont s' = Some (map Fin cs) ->
  f_z s' = Fin z /\ f_vd s' = Fin vd /\ f_flux s' = Some [Fin f].
Proof. exact clean_fit. Qed.
Print Assumptions C143_fit.

Example C143_example : forall rnd, exists s', fit (tryM []) rnd k_cfg (ex_opts true) (ex_st1 1) = (s', Ok tt) /\
  clean_spectrum k_xs k_data ones3 [0%nat; 1%nat; 2%nat] 0 80 k_sets [0] /\ finite_answers (tryM []) /\
  (forall fb vb p, make_params k_cfg (with_cont k_cfg (ex_st1 1)) fb vb = Ok p -> least_squares (tryM []) (resid_fun k_cfg (map Fin k_xs) (Some k_data) (Some ones3) (Some ones3)) p) /\
  f_z s' = Fin 0 /\ f_vd s' = Fin 80 /\ f_flux s' = Some [Fin 1] /\ f_cont s' = Some [Fin 0].
Proof. exact clean_example. Qed.

(** C143: a dispersion that is zero or negative does as well as the truth, whatever the data. *)
Theorem C143_zero_refuted : forall T n names order x data err mask q r ls z vd,
  length data = length x -> length err = length x -> length mask = length x ->
  line_set T n = Ok ls -> ls <> [] -> (forall w r, In (w, r) ls -> 0 < w) ->
  p_val (m_z q) = Fin z -> p_val (m_vd q) = Fin vd -> 0 < 1 + z -> vd <= 0 ->
  residual T (n :: names) order x (Some data) (Some err) (Some mask) q = Ok r ->
  chi2 (residual T (n :: names) order x (Some data) (Some err) (Some mask) q) = Fin 0.
Proof. exact zero_dispersion. Qed.
Print Assumptions C143_zero_refuted.
