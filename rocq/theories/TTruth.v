(* Property theorems: the true parameters fit a noise-free observation best (C135). *)
From Coq Require Import Reals List Bool Arith ZArith.
From Verif Require Import PyFloat PyBase Arr PyNum MParams MKernels MAper2D MMock SParams SKernels SAper2D SAper1D SLine SLos SReach STruth PParams PLos PReach2 PTruth PTruth2 PTruth3 PFinite4.
Import ListNotations.
Local Open Scope R_scope.

(** C135: if the flux is the image of the parameters tfm, each row multiplied by some factor, then a fit evaluated at the same parameters reproduces every unmasked pixel with chi-squared zero, no parameters have a higher likelihood, and those that have the same one reproduce every unmasked pixel of nonzero weight. *)
Theorem C135_truth : forall c n p F S W ok cs A km tfm k1 m kf tf k,
  fresh km -> k_noscale km = true -> km_make c tfm km = (k1, Ok tt) -> k_model k1 = Some m ->
  usable n p S W ok cs -> noise_free n p F cs A m ->
  let d := findata n p F S W ok cs in
  offsets_fixed kf -> fresh kf -> k_noscale kf = false -> k_stamp kf = k_stamp km ->
  length tf = nfree (k_vary kf) -> fst (update_parameters (k_theta kf) (k_vary kf) tf) = k_theta k1 ->
  history (observed d c) kf k ->
  exists k2 m2 L, km_llike (observed d c) k tf = (k2, Ok (Fin L)) /\ k_model k2 = Some m2 /\ model_chisq d m2 = Fin 0 /\
    (forall i j, (i < n)%nat -> (j < p)%nat -> ok i j = true -> at2 m2 i j = Fin (F i j)) /\
    forall tf' k3 v, km_llike (observed d c) k tf' = (k3, Ok v) -> at_most v L /\
      (v = Fin L -> exists m3, k_model k3 = Some m3 /\ forall i j, (i < n)%nat -> (j < p)%nat -> ok i j = true -> W i j <> 0 -> at2 m3 i j = Fin (F i j)).
Proof. exact truth. Qed.
Print Assumptions C135_truth.

Example C135_truth_example : exists k1 m A k, km_make (y_wide_cfg 1) [Fin 150] f_km = (k1, Ok tt) /\ k_model k1 = Some m /\ fresh f_km /\ k_noscale f_km = true /\
  usable 3 4 (fun _ _ => 1) (fun _ _ => 1) (fun _ _ => true) [0%nat; 1%nat; 2%nat; 3%nat] /\
  noise_free 3 4 (fun _ t => spectrum [6565] [1] 1 0 50 (nth t y_wide 0)) [0%nat; 1%nat; 2%nat; 3%nat] A m /\
  offsets_fixed f_kf /\ fresh f_kf /\ k_noscale f_kf = false /\ k_stamp f_kf = k_stamp f_km /\
  fst (update_parameters (k_theta f_kf) (k_vary f_kf) [Fin 150]) = k_theta k1 /\ history (observed f_data (y_wide_cfg 1)) f_kf k.
Proof. exact truth_example. Qed.

(** C135: with a flat prior whose bounds contain the true parameters the posterior is greatest there. *)
Theorem C135_posterior : forall c n p F S W ok cs A km tfm k1 m kf tf k bounds,
  fresh km -> k_noscale km = true -> km_make c tfm km = (k1, Ok tt) -> k_model k1 = Some m ->
  usable n p S W ok cs -> noise_free n p F cs A m ->
  let c' := observed (findata n p F S W ok cs) c in
  offsets_fixed kf -> fresh kf -> k_noscale kf = false -> k_stamp kf = k_stamp km ->
  length tf = nfree (k_vary kf) -> fst (update_parameters (k_theta kf) (k_vary kf) tf) = k_theta k1 ->
  history c' kf k -> log_prior (k_theta kf) (k_vary kf) bounds tf = Ok (Fin 0) ->
  exists L, snd (lnprob (log_prior (k_theta kf) (k_vary kf) bounds) (km_llike c') k tf) = Ok (Fin L) /\
    forall tf' q, snd (lnprob (log_prior (k_theta kf) (k_vary kf) bounds) (km_llike c') k tf') = Ok q -> q = NInf \/ exists x, q = Fin x /\ x <= L.
Proof. exact posterior. Qed.
Print Assumptions C135_posterior.

Example C135_posterior_example : log_prior (k_theta f_kf) (k_vary f_kf) [(Fin 0, Fin 1000); (Fin 0, Fin 1); (Fin 0, Fin 1); (Fin 0, Fin 1); (Fin 0, Fin 1)] [Fin 150] = Ok (Fin 0).
Proof. exact posterior_example. Qed.

(** C135, limit: the maximum need not be unique; for a face-on disc all rotation speeds fit equally well. *)
Theorem C135_unique_refuted : exists c kf L, offsets_fixed kf /\ fresh kf /\ k_noscale kf = false /\ k_vary kf = [true; false; false; false; false] /\
  (exists k, history c kf k) /\
  forall k va, history c kf k -> exists k2 m2, km_llike c k [Fin va] = (k2, Ok (Fin L)) /\ k_model k2 = Some m2 /\ model_chisq (g_data (c_gal c)) m2 = Fin 0.
Proof. exact not_unique. Qed.
Print Assumptions C135_unique_refuted.

(** C135, limit: with a free redshift an object first evaluated elsewhere misses the maximum at the true redshift. *)
Theorem C135_redshift_refuted : exists c kf tf k0 m0 L k, fresh kf /\ k_noscale kf = false /\
  km_make c tf kf = (k0, Ok tt) /\ k_model k0 = Some m0 /\ model_llike (g_data (c_gal c)) m0 = Fin L /\ model_chisq (g_data (c_gal c)) m0 = Fin 0 /\
  history c kf k /\ exists k2 v, km_llike c k tf = (k2, Ok v) /\ at_most v L /\ v <> Fin L.
Proof. exact redshift_missed. Qed.
Print Assumptions C135_redshift_refuted.

(** C135: the flux made from a simulated slit observation of generate_mock_slit_obs is fitted best by the parameters it was simulated with. *)
Theorem C135_mock : forall a d0 m n p F S W ok cs A kf tf,
  mock_slit_obs a d0 = Ok (Some m) -> usable n p S W ok cs -> noise_free n p F cs A m ->
  offsets_fixed kf -> fresh kf -> k_noscale kf = false -> k_stamp kf = NoStamp ->
  length tf = nfree (k_vary kf) -> fst (update_parameters (k_theta kf) (k_vary kf) tf) = [ma_va a; ma_rt a; ma_sigma0 a; ma_yshift a; ma_z a] ->
  exists mk, MGeom.generate_mock (ma_z a) (ma_va a) (ma_rt a) (ma_sigma0 a) (ma_yshift a) (ma_dither a) (length (ma_wave a)) (Fin (ma_pix a)) (ma_slit_len a) (ma_nymin a) = Ok mk /\
  let d := findata n p F S W ok cs in let c := mock_cfg a mk d in
  forall k, history c kf k ->
  exists k2 m2 L, km_llike c k tf = (k2, Ok (Fin L)) /\ k_model k2 = Some m2 /\ model_chisq d m2 = Fin 0 /\
    (forall i j, (i < n)%nat -> (j < p)%nat -> ok i j = true -> at2 m2 i j = Fin (F i j)) /\
    forall tf' k3 v, km_llike c k tf' = (k3, Ok v) -> at_most v L /\
      (v = Fin L -> exists m3, k_model k3 = Some m3 /\ forall i j, (i < n)%nat -> (j < p)%nat -> ok i j = true -> W i j <> 0 -> at2 m3 i j = Fin (F i j)).
Proof. exact mock_truth. Qed.
Print Assumptions C135_mock.

Example C135_mock_example : exists m F k, mock_slit_obs (x_mock 50) (x_data (fun _ _ => 0)) = Ok (Some m) /\
  usable 3 4 (fun _ _ => 1) (fun _ _ => 1) (fun _ _ => true) [0%nat; 1%nat; 2%nat; 3%nat] /\ noise_free 3 4 F [0%nat; 1%nat; 2%nat; 3%nat] (fun i => 2 + INR i) m /\
  offsets_fixed x_kf /\ fresh x_kf /\ k_noscale x_kf = false /\ k_stamp x_kf = NoStamp /\
  fst (update_parameters (k_theta x_kf) (k_vary x_kf) [Fin 200; Fin (1/2); Fin 50]) = [ma_va (x_mock 50); ma_rt (x_mock 50); ma_sigma0 (x_mock 50); ma_yshift (x_mock 50); ma_z (x_mock 50)] /\
  history (mock_cfg (x_mock 50) (x_mk 50) (x_data F)) x_kf k.
Proof. exact mock_truth_example. Qed.
