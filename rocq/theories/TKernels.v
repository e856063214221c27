(* Property theorems C09-C16: rebinning, convolutions, collapse, row scaling, chi-squared,
   likelihood. *)
From Coq Require Import Reals Lra List Bool Arith Lia.
From Verif Require Import PyFloat PyBase Arr PyNum MKernels SKernels PKernels PKernels2 PData.
Import ListNotations.
Local Open Scope R_scope.

(** C09: each output cell is the sum of its block. *)
Theorem C09_rebin_blocks : forall a m n f0 f1,
  (0 < m)%nat -> (0 < n)%nat -> rows a = (m * f0)%nat -> cols a = (n * f1)%nat ->
  exists b, rebin2 a m n = Ok b /\ rows b = m /\ cols b = n /\
    forall i j, (i < m)%nat -> (j < n)%nat -> at2 b i j = block_sum a f0 f1 i j.
Proof. exact rebin2_blocks. Qed.
Print Assumptions C09_rebin_blocks.

(** C09: the total is conserved, whatever the entries (nan and infinities included). *)
Theorem C09_rebin_conserves : forall a m n b,
  (0 < rows a)%nat -> (0 < cols a)%nat -> rebin2 a m n = Ok b -> sum2 b = sum2 a.
Proof. exact rebin2_total. Qed.
Print Assumptions C09_rebin_conserves.

(** C09: failure is ValueError, exactly when an axis is not a multiple of the request. *)
Theorem C09_rebin_error : forall a m n,
  (0 < rows a)%nat -> (0 < cols a)%nat ->
  (rebin2 a m n = Err ValueError <->
   ~ (exists f0 f1, (0 < m)%nat /\ (0 < n)%nat /\ rows a = (m * f0)%nat /\ cols a = (n * f1)%nat)).
Proof. exact rebin2_error. Qed.
Print Assumptions C09_rebin_error.

Theorem C09_rebin_only_ValueError : forall a m n e, rebin2 a m n = Err e -> e = ValueError.
Proof. exact rebin2_only_ValueError. Qed.
Print Assumptions C09_rebin_only_ValueError.

Definition ex_img : arr2 fl := mk2 2 6 (fun i j => Fin (INR (10 * i + j))).
Example C09_example : exists b, rebin2 ex_img 2 3 = Ok b /\ at2 b 1 2 = Fin 29.
Proof.
  destruct (C09_rebin_blocks ex_img 2 3 1 2) as (b & H & _ & _ & B); [lia|lia|reflexivity|reflexivity|].
  exists b. split; auto. rewrite B by lia. cbv [block_sum fsumn seq map fsum fold_right ex_img at2 fadd].
  f_equal. simpl. lra.
Qed.
Example C09_example_error : rebin2 ex_img 2 4 = Err ValueError.
Proof. reflexivity. Qed.

(** C10: no PSF, no change. *)
Theorem C10_no_psf : forall cube fwhm st,
  fgtb fwhm (Fin 0) = false -> PSF_convolve cube fwhm st = Ok (Some cube).
Proof. exact PSF_convolve_off. Qed.
Print Assumptions C10_no_psf.

(** C10: shape and total flux are kept whenever the raw convolution has a non-zero total. *)
Theorem C10_conserves_flux : forall cube ker fwhm,
  fgtb fwhm (Fin 0) = true -> finite3 cube -> finite3 ker ->
  size3 cube <> 0%nat -> size3 ker <> 0%nat -> sum3 (conv3 cube ker) <> Fin 0 ->
  exists out, PSF_convolve cube fwhm (Stamp3 ker) = Ok (Some out) /\
    dim0 out = dim0 cube /\ dim1 out = dim1 cube /\ dim2 out = dim2 cube /\
    sum3 out = sum3 cube.
Proof. exact PSF_convolve_conserves. Qed.
Print Assumptions C10_conserves_flux.

(** C10: that condition holds for any non-negative cube with light in it and any non-negative
    stamp that is positive at its centre sample. *)
Theorem C10_condition_met : forall cube ker,
  nonneg3 cube -> nonneg3 ker -> 0 < total3 cube ->
  (0 < dim0 ker)%nat -> (0 < dim1 ker)%nat -> (0 < dim2 ker)%nat ->
  0 < val3 ker ((dim0 ker - 1) / 2) ((dim1 ker - 1) / 2) ((dim2 ker - 1) / 2) ->
  0 < total3 (conv3 cube ker).
Proof. exact conv3_positive. Qed.
Print Assumptions C10_condition_met.

(** C10: brightness scales through. *)
Theorem C10_linear : forall c cube ker fwhm out,
  c <> 0 -> fgtb fwhm (Fin 0) = true -> finite3 cube -> finite3 ker ->
  size3 cube <> 0%nat -> size3 ker <> 0%nat -> sum3 (conv3 cube ker) <> Fin 0 ->
  PSF_convolve cube fwhm (Stamp3 ker) = Ok (Some out) ->
  exists out', PSF_convolve (scale3 c cube) fwhm (Stamp3 ker) = Ok (Some out') /\
    eq3 out' (scale3 c out).
Proof. exact PSF_convolve_linear. Qed.
Print Assumptions C10_linear.

Theorem C10_nonneg : forall cube ker fwhm,
  fgtb fwhm (Fin 0) = true -> nonneg3 cube -> nonneg3 ker ->
  size3 cube <> 0%nat -> size3 ker <> 0%nat -> sum3 (conv3 cube ker) <> Fin 0 ->
  exists out, PSF_convolve cube fwhm (Stamp3 ker) = Ok (Some out) /\ nonneg3 out.
Proof. exact PSF_convolve_nonneg. Qed.
Print Assumptions C10_nonneg.

(** C10: the renormalisation turns a cube without light into nan everywhere. *)
Theorem C10_dark_cube_refuted : forall cube ker fwhm,
  fgtb fwhm (Fin 0) = true -> finite3 ker -> size3 cube <> 0%nat -> size3 ker <> 0%nat ->
  (forall i j k, (i < dim0 cube)%nat -> (j < dim1 cube)%nat -> (k < dim2 cube)%nat ->
     at3 cube i j k = Fin 0) ->
  exists out, PSF_convolve cube fwhm (Stamp3 ker) = Ok (Some out) /\
    forall i j k, at3 out i j k = NaN.
Proof. exact PSF_convolve_dark. Qed.
Print Assumptions C10_dark_cube_refuted.

Definition ex_cube : arr3 fl := fin3 1 2 2 (fun _ i j => INR (i + j)).
Definition ex_ker : arr3 fl := fin3 1 3 1 (fun _ i _ => if Nat.eqb i 1 then 2 else 1).
Lemma ex_cube_nonneg : nonneg3 ex_cube.
Proof. intros i j k _ _ _. simpl. eexists; split; [reflexivity|apply pos_INR]. Qed.
Lemma ex_ker_nonneg : nonneg3 ex_ker.
Proof. intros i j k _ _ _. simpl. eexists; split; [reflexivity|]. destruct j as [|[|j]]; simpl; lra. Qed.
Lemma ex_conv_pos : 0 < total3 (conv3 ex_cube ex_ker).
Proof.
  apply C10_condition_met; [apply ex_cube_nonneg|apply ex_ker_nonneg| | | | |].
  - unfold total3, rsum3, val3; simpl; lra.
  - simpl; lia.
  - simpl; lia.
  - simpl; lia.
  - unfold val3; simpl. lra.
Qed.
Example C10_example :
  fgtb (Fin 1) (Fin 0) = true /\ nonneg3 ex_cube /\ nonneg3 ex_ker /\ size3 ex_cube <> 0%nat /\
  size3 ex_ker <> 0%nat /\ sum3 (conv3 ex_cube ex_ker) <> Fin 0.
Proof.
  repeat split; try apply ex_cube_nonneg; try apply ex_ker_nonneg; try (vm_compute; discriminate).
  - unfold fgtb, fltb. rdec.
  - rewrite sum3_total by (apply conv3_finite; apply nonneg3_finite; [apply ex_cube_nonneg|apply ex_ker_nonneg]).
    intros E. injection E as E. pose proof ex_conv_pos. lra.
Qed.

(** C11: constant width, any non-negative image with light: flux and shape are conserved. *)
Theorem C11_conserves_flux : forall m (wave : list R) s,
  s <> 0 -> wave <> [] -> size2 m <> 0%nat -> nonneg2 m ->
  (exists i j, (i < rows m)%nat /\ (j < cols m)%nat /\ exists r, at2 m i j = Fin r /\ 0 < r) ->
  exists out, inst_convol_complete m (map Fin wave) (IdwFloat (Fin s)) = Ok out /\
    rows out = rows m /\ cols out = cols m /\ nonneg2 out /\ sum2 out = sum2 m.
Proof. exact inst_convol_conserves. Qed.
Print Assumptions C11_conserves_flux.

(** C11: a position-dependent width never works. *)
Theorem C11_variable_width_fails : forall m wave l,
  inst_convol_complete m wave (IdwArr l) = Err ValueError.
Proof. exact inst_convol_array. Qed.
Print Assumptions C11_variable_width_fails.

Example C11_example :
  let m := fin2 2 1 (fun i _ => INR i) in
  2 <> 0 /\ [1;2] <> (@nil R) /\ size2 m <> 0%nat /\ nonneg2 m /\
  (exists i j, (i < rows m)%nat /\ (j < cols m)%nat /\ exists r, at2 m i j = Fin r /\ 0 < r).
Proof.
  simpl. repeat split; try lra; try discriminate.
  - intros i j _ _. simpl. eexists; split; [reflexivity|apply pos_INR].
  - exists 1%nat, 0%nat. repeat split; try lia. exists 1. split; [reflexivity|lra].
Qed.

(** C12: along every line of sight the collapsed spectrum sums to the integrated intensity. *)
Theorem C12_collapse_flux : forall I V wave nWave nZ nY nX dz lam0 j k,
  length wave = nWave -> (0 < nWave)%nat ->
  fsumn nWave (fun w => at3 (I_simple_collapse I V wave nWave nZ nY nX dz lam0) w j k) =
  fsumn nZ (fun m => fmul (at3 I m j k) dz).
Proof. exact collapse_flux. Qed.
Print Assumptions C12_collapse_flux.

(** C12: every voxel goes to a nearest wavelength sample. *)
Theorem C12_collapse_nearest :
  forall I V (wave : list R) nZ nY nX dz lam0 (v : nat -> nat -> nat -> R),
  wave <> [] -> (forall m j k, (m < nZ)%nat -> (j < nY)%nat -> (k < nX)%nat -> at3 V m j k = Fin (v m j k)) ->
  exists best : nat -> nat -> nat -> nat,
    (forall m j k, (m < nZ)%nat -> (j < nY)%nat -> (k < nX)%nat -> (best m j k < length wave)%nat /\
       forall i, (i < length wave)%nat ->
         Rabs (lam0 * (1 + v m j k / c_kms) - nth (best m j k) wave 0)
         <= Rabs (lam0 * (1 + v m j k / c_kms) - nth i wave 0)) /\
    forall w j k,
      at3 (I_simple_collapse I V (map Fin wave) (length wave) nZ nY nX dz (Fin lam0)) w j k =
      fsumn nZ (fun m => if Nat.eqb (best m j k) w then fmul (at3 I m j k) dz else Fin 0).
Proof. exact collapse_nearest. Qed.
Print Assumptions C12_collapse_nearest.

(** C12: with zero dispersion the wavelength cube is the line-by-line collapse times the
    flux ratios. *)
Theorem C12_zero_sigma_cube :
  forall I V sigma wave z rest ratio nW nZ nY nX dz I4 wref m,
  np_max (map fabs (flat_list3 sigma)) = Ok m -> fgtb m (Fin 0) = false ->
  rest <> [] -> length ratio = length rest ->
  exists cube,
    add_sigma_collapse_z I V sigma wave z rest ratio nW nZ nY nX dz I4 wref Wave = Ok cube /\
    dim0 cube = nW /\ dim1 cube = nY /\ dim2 cube = nX /\
    forall w j k, at3 cube w j k =
      fsumn (length rest) (fun i =>
        fmul (at3 (I_simple_collapse I V wave nW nZ nY nX dz
                     (fmul (lnth rest i) (fadd (Fin 1) z))) w j k)
             (lnth ratio i)).
Proof. exact collapse_wave_zero_sigma. Qed.
Print Assumptions C12_zero_sigma_cube.

(** C12: in velocity units the zero-dispersion branch reads an unset variable. *)
Theorem C12_velocity_refuted :
  forall I V sigma wave z rest ratio nW nZ nY nX dz I4 wref m,
  np_max (map fabs (flat_list3 sigma)) = Ok m -> fgtb m (Fin 0) = false ->
  add_sigma_collapse_z I V sigma wave z rest ratio nW nZ nY nX dz I4 wref Velocity
  = Err UnboundLocalError.
Proof. exact collapse_velocity_unbound. Qed.
Print Assumptions C12_velocity_refuted.

Example C12_example :
  let sigma := fin3 1 1 2 (fun _ _ _ => 0) in
  exists m, np_max (map fabs (flat_list3 sigma)) = Ok m /\ fgtb m (Fin 0) = false.
Proof.
  eexists. split; [reflexivity|]. cbv [flat_list3 flat_map seq map fin3 dim0 dim1 dim2 at3 app fabs fmax1 isnan].
  unfold fgtb, fltb. rewrite Rabs_R0. rdec; simpl; rdec.
Qed.

(** C13: each row is multiplied by a factor minimising the weighted squared residual. *)
Theorem C13_scale_optimal : forall n p F S W ok cs M,
  cols_ok p cs -> (forall i c, (i < n)%nat -> In c cs -> S i c <> 0) ->
  exists out, scale_model (findata n p F S W ok cs) (fin2 n p M) = Ok out /\
    rows out = n /\ cols out = p /\
    forall i, (i < n)%nat -> exists r, (forall j, (j < p)%nat -> at2 out i j = Fin (r * M i j)) /\
      forall r', row_chi2 (F i) (M i) (S i) cs r <= row_chi2 (F i) (M i) (S i) cs r'.
Proof. exact scale_model_optimal. Qed.
Print Assumptions C13_scale_optimal.

Theorem C13_scale_rescale_invariant : forall n p F S W ok cs M (k : nat -> R) out,
  cols_ok p cs -> (forall i c, (i < n)%nat -> In c cs -> S i c <> 0) ->
  (forall i, (i < n)%nat -> k i <> 0) ->
  scale_model (findata n p F S W ok cs) (fin2 n p M) = Ok out ->
  exists out', scale_model (findata n p F S W ok cs) (fin2 n p (fun i j => k i * M i j)) = Ok out' /\
    eq2 out' out.
Proof. exact scale_model_rescale. Qed.
Print Assumptions C13_scale_rescale_invariant.

Theorem C13_scale_idempotent : forall n p F S W ok cs M out,
  cols_ok p cs -> (forall i c, (i < n)%nat -> In c cs -> S i c <> 0) ->
  scale_model (findata n p F S W ok cs) (fin2 n p M) = Ok out ->
  exists out', scale_model (findata n p F S W ok cs) out = Ok out' /\ eq2 out' out.
Proof. exact scale_model_idempotent. Qed.
Print Assumptions C13_scale_idempotent.

Theorem C13_dark_rows_zero : forall n p F S W ok cs M i out,
  cols_ok p cs -> (i < n)%nat -> (forall c, In c cs -> S i c <> 0) ->
  (forall c, In c cs -> M i c = 0) ->
  scale_model (findata n p F S W ok cs) (fin2 n p M) = Ok out ->
  forall j, (j < p)%nat -> at2 out i j = Fin 0.
Proof. exact scale_model_dark_row. Qed.
Print Assumptions C13_dark_rows_zero.

(** C13: one nan flux value in a non-sky column silently sets the model row to zero. *)
Theorem C13_nan_flux_refuted : forall n p (Fl : arr2 fl) S W (ok : nat -> nat -> bool) cs M i c out,
  rows Fl = n -> cols Fl = p ->
  cols_ok p cs -> (i < n)%nat -> (forall c, In c cs -> S i c <> 0) -> In c cs ->
  at2 Fl i c = NaN ->
  scale_model (mkdata Fl (fin2 n p S) (fin2 n p (fun i j => if ok i j then 1 else 0))
                 (fin2 n p W) cs) (fin2 n p M) = Ok out ->
  forall j, (j < p)%nat -> at2 out i j = Fin 0.
Proof. exact scale_model_bad_flux. Qed.
Print Assumptions C13_nan_flux_refuted.

Example C13_example : cols_ok 2 [0%nat;1%nat] /\
  (forall i c, (i < 1)%nat -> In c [0%nat;1%nat] -> (fun _ _ : nat => 2) i c <> 0).
Proof. split; [intros c [<-|[<-|[]]]; lia|intros; lra]. Qed.

(** C14: for a given model, masked pixels (their data, error and weight) are irrelevant. *)
Theorem C14_masked_irrelevant : forall n p F F' S S' W W' ok cs cs' M,
  (forall i j, (i < n)%nat -> (j < p)%nat -> S i j <> 0) ->
  (forall i j, (i < n)%nat -> (j < p)%nat -> S' i j <> 0) ->
  (forall i j, ok i j = true -> F i j = F' i j /\ S i j = S' i j /\ W i j = W' i j) ->
  model_chisq (findata n p F S W ok cs) (fin2 n p M)
    = model_chisq (findata n p F' S' W' ok cs') (fin2 n p M) /\
  model_llike (findata n p F S W ok cs) (fin2 n p M)
    = model_llike (findata n p F' S' W' ok cs') (fin2 n p M).
Proof. exact masked_irrelevant. Qed.
Print Assumptions C14_masked_irrelevant.

Example C14_example : forall i j,
  (fun _ j => Nat.eqb j 0) i j = true ->
  (fun _ _ : nat => 1) i j = (fun _ j : nat => if Nat.eqb j 0 then 1 else 7) i j.
Proof. intros i j H. simpl in *. now rewrite H. Qed.

(** C14: the scaled model depends on masked pixels, so the likelihood of the fit does. *)
Theorem C14_scaled_refuted : exists n p F F' S W ok cs M out out',
  (forall i j, (i < n)%nat -> (j < p)%nat -> S i j <> 0) /\ cols_ok p cs /\
  (forall i j, ok i j = true -> F i j = F' i j) /\
  scale_model (findata n p F S W ok cs) (fin2 n p M) = Ok out /\
  scale_model (findata n p F' S W ok cs) (fin2 n p M) = Ok out' /\
  model_chisq (findata n p F S W ok cs) out <> model_chisq (findata n p F' S W ok cs) out'.
Proof. exact scaled_mask_witness. Qed.
Print Assumptions C14_scaled_refuted.

(** C15: with usable errors chi-squared is the weighted squared distance over unmasked
    pixels, non-negative, and zero exactly for a perfect match. *)
Theorem C15_chisq_value : forall n p F S W ok cs M,
  (forall i j, (i < n)%nat -> (j < p)%nat -> S i j <> 0) ->
  model_chisq (findata n p F S W ok cs) (fin2 n p M) = Fin (chi2 n p F M S W ok).
Proof. exact chisq_value. Qed.
Print Assumptions C15_chisq_value.

Theorem C15_chisq_nonneg : forall n p F M S W ok,
  (forall i j, (i < n)%nat -> (j < p)%nat -> ok i j = true -> 0 <= W i j) ->
  0 <= chi2 n p F M S W ok.
Proof. exact chi2_nonneg. Qed.
Print Assumptions C15_chisq_nonneg.

Theorem C15_chisq_zero_iff : forall n p F M S W ok,
  (forall i j, (i < n)%nat -> (j < p)%nat -> S i j <> 0) ->
  (forall i j, (i < n)%nat -> (j < p)%nat -> ok i j = true -> 0 <= W i j) ->
  (chi2 n p F M S W ok = 0 <->
   forall i j, (i < n)%nat -> (j < p)%nat -> ok i j = true -> W i j <> 0 -> M i j = F i j).
Proof. exact chi2_zero. Qed.
Print Assumptions C15_chisq_zero_iff.

Example C15_example :
  chi2 1 2 (fun _ j => INR j) (fun _ _ => 0) (fun _ _ => 2) (fun _ _ => 1) (fun _ _ => true) = 1/4.
Proof. unfold chi2, rsum2; simpl. field. Qed.

(** C16: likelihood = -(chi-squared + constant)/2 with a model-independent constant. *)
Theorem C16_llike_value : forall n p F S W ok cs M,
  (forall i j, (i < n)%nat -> (j < p)%nat -> S i j <> 0) ->
  model_llike (findata n p F S W ok cs) (fin2 n p M) =
  Fin (- (chi2 n p F M S W ok + ll_const n p S ok) / 2).
Proof. exact llike_value. Qed.
Print Assumptions C16_llike_value.

Theorem C16_llike_orders : forall n p F S W ok cs M M',
  (forall i j, (i < n)%nat -> (j < p)%nat -> S i j <> 0) ->
  exists l l', model_llike (findata n p F S W ok cs) (fin2 n p M) = Fin l /\
    model_llike (findata n p F S W ok cs) (fin2 n p M') = Fin l' /\
    (l < l' <-> chi2 n p F M' S W ok < chi2 n p F M S W ok).
Proof. exact llike_order. Qed.
Print Assumptions C16_llike_orders.

Example C16_example : forall i j, (i < 3)%nat -> (j < 4)%nat -> (fun i j => 1 + INR (i + j)) i j <> 0.
Proof. intros i j _ _. pose proof (pos_INR (i + j)). lra. Qed.

(** C16: it is not the log-likelihood of Gaussian errors (log10 in place of ln). *)
Theorem C16_gaussian_refuted :
  exists n p F S ok M, (forall i j, S i j <> 0) /\
   model_llike (findata n p F S (fun _ _ => 1) ok []) (fin2 n p M)
     <> Fin (gauss_loglike n p F M S ok).
Proof. exact llike_not_gaussian. Qed.
Print Assumptions C16_gaussian_refuted.
