(* Specification vocabulary for the preparation of a 2-D spectrum; uses the records of the
   model only. *)
From Coq Require Import Reals List Bool Arith ZArith.
From Verif Require Import PyFloat PyBase Arr PyNum MMask SMask MTrim STrim MPrep.
Import ListNotations.
Local Open Scope R_scope.

(** A spectrum as a user sets it up: wavelengths (and observed wavelengths) and images of fitting
    size, mask and weight optional, no quality mask yet, not prepared. *)
Definition raw (s : sp2) (wave : list fl) (fx er : arr2 fl) (n : nat) : Prop :=
  q_wave s = Some wave /\ q_obs s = Some wave /\ q_flux s = Some fx /\ q_err s = Some er /\
  shape fx n (length wave) /\ shape er n (length wave) /\
  (forall m, q_mask s = Some m -> shape m n (length wave)) /\
  (forall w, q_weight s = Some w -> shape w n (length wave)) /\
  q_qual s = None /\ q_prepared s = false.

(** Stored flux is continuum-including flux minus continuum model at every pixel. *)
Definition decomposed (s : sp2) : Prop := exists fx ct ic,
  q_flux s = Some fx /\ q_cont s = Some ct /\ q_incl s = Some ic /\
  shape ct (rows fx) (cols fx) /\ shape ic (rows fx) (cols fx) /\
  forall i j, (i < rows fx)%nat -> (j < cols fx)%nat -> at2 fx i j = fsub (at2 ic i j) (at2 ct i j).

(** No zero error among usable pixels. *)
Definition no_zero_error (fx er : arr2 fl) (mask weight : option (arr2 fl)) : Prop :=
  forall i j, (i < rows fx)%nat -> (j < cols fx)%nat -> at2 er i j = Fin 0 ->
    (exists m, mask = Some m /\ at2 m i j = Fin 0) \/ isfinite (at2 fx i j) = false \/
    (exists w, weight = Some w /\ at2 w i j = Fin 0).

(** Wavelengths are positive numbers. *)
Definition physical (wave : list fl) : Prop := forall x, In x wave -> exists r, x = Fin r /\ 0 < r.

(** A prepared spectrum: everything has [n] rows and as many columns as there are wavelengths. *)
Definition consistent (s : sp2) (wave : list fl) (n : nat) (imgs : list (arr2 fl)) : Prop :=
  q_wave s = Some wave /\ q_obs s = Some wave /\ ready s n (length wave) imgs /\
  (exists m, q_wmat s = Some m /\ shape m n (length wave)) /\
  (exists l, q_wprof s = Some l /\ length l = n) /\ q_mlims s = Some n /\
  q_m0 s <> None /\ q_ypos s <> None /\ q_lam0 s <> None /\ q_m0_shift s <> None.

(** An attribute that is set, or else comes from the parameter file. *)
Definition setting {A} (cur : option A) (file : res A) (v : A) : Prop := cur = Some v \/ (cur = None /\ file = Ok v).

(** The 1-D spectrum of the galaxy, of the same length as the image is wide, for which the two
    continuum fits return numbers. *)
Definition good_1D (c : cfg) (t : option sp1) (p : nat) : Prop := exists sp w f r,
  t = Some sp /\ s_wave sp = Some w /\ s_flux sp = Some f /\ s_err sp = Some r /\ length w = p /\ length f = p /\ length r = p /\
  (forall m, s_mask sp = Some m -> length m = p) /\
  (forall vary x y e m, exists a b, g_fit1 c vary x y e m = Ok (Fin a, Fin b)) /\
  (forall i a b x y e m, exists b', g_fitrow c i a b x y e m = Ok (Fin b')).

(** Everything preparation asks for, except a position for the object. *)
Definition set_up (c : cfg) (e : env) (wave : list fl) (fx er : arr2 fl) (n : nat) (fr lr : fl * fl) : Prop :=
  raw (e2 e) wave fx er n /\ physical wave /\ (1 <= n)%nat /\
  g_lines c = Ok tt /\ (exists cut, setting (q_cutoff (e2 e)) (g_sky c) (cut, true)) /\
  setting (q_rfull (e2 e)) (g_ffull c) fr /\ setting (q_rline (e2 e)) (g_fline c) lr /\
  (exists mr, setting (q_rmline (e2 e)) (g_fmline c) mr) /\
  (exists x fo lo, In x wave /\ asked (g_z c) (Some fr) None fo /\ asked (g_z c) (Some lr) None lo /\ inside fo x /\ inside lo x) /\
  (g_nocont c = true \/ good_1D c (e1 e) (length wave)) /\
  (forall a b w y, exists v, g_vert c a b w y = Ok v) /\
  g_wt c <> OtherWeighting /\ (exists d, g_dpa c = Ok d).
(** At least two rows are left by the spatial trim. *)
Definition two_rows (c : cfg) (n : nat) : Prop :=
  if g_dither c
  then forall a b w y v, g_vert c a b w y = Ok v -> (2 <= Z.min (Z.of_nat n - 1) (v_max v) - Z.max 0 (v_min v))%Z
  else (3 <= n)%nat.
(** Two wavelengths in both ranges that differ (by more than 4 parts in 10^13). *)
Definition two_wavelengths (z : fl) (fr lr : fl * fl) (wave : list fl) : Prop :=
  exists x y fo lo, In (Fin x) wave /\ In (Fin y) wave /\ asked z (Some fr) None fo /\ asked z (Some lr) None lo /\
    inside fo (Fin x) /\ inside lo (Fin x) /\ inside fo (Fin y) /\ inside lo (Fin y) /\ x + 4 / 10 ^ 13 * (1 + y) < y.
Definition preparable (c : cfg) (e : env) (wave : list fl) (fx er : arr2 fl) (n : nat) (fr lr : fl * fl) : Prop :=
  set_up c e wave fx er n fr lr /\ q_ypos (e2 e) <> None /\ two_rows c n /\ two_wavelengths (g_z c) fr lr wave.

(** The arrays the caller handed over are still the ones of the spectrum. *)
Definition shared (e : env) (fx er : arr2 fl) : Prop := k_a2 (e_k e) = true -> k_flux (e_k e) = fx /\ k_err (e_k e) = er.

(** Each row of the continuum model is a straight line in wavelength, all of the same slope. *)
Definition lines_of_one_slope (wave : list fl) (ct : arr2 fl) : Prop :=
  exists a, forall i, (i < rows ct)%nat -> exists b, forall j, (j < length wave)%nat ->
    exists x, nth_error wave j = Some (Fin x) /\ at2 ct i j = Fin (a * x + b).

(** Wavelength at which the line is expected: the one set, or from rest wavelength and redshift. *)
Definition nominal (c : cfg) (e : env) (l : fl) : Prop :=
  q_lam0 (e2 e) = Some l \/ (q_lam0 (e2 e) = None /\ l = fmul (g_restw c) (fadd (Fin 1) (g_z c))).

(** Some row is not too faint and some column has no sky line. *)
Definition usable (s : sp2) (n : nat) : Prop := (exists i, (i < n)%nat /\ ~ In i (q_low_inds s)) /\ q_wh_nosky s <> [].

(** [lo] and [hi] are the least and greatest wavelength. *)
Definition spans_wave (wave : list fl) (lo hi : R) : Prop :=
  In (Fin lo) wave /\ In (Fin hi) wave /\ forall r, In (Fin r) wave -> lo <= r <= hi.

(** A fitted position of the object that is believed: inside the image and within two rows of the expected
    position, or of the object's row if that was well determined. *)
Definition believed_row (s : sp2) (n : nat) (m0 : Z) (y : fl) (mu : R) : Prop := 0 <= mu <= INR (n - 1) /\
  ((exists y0, y = Fin y0 /\ Rabs (y0 - mu) <= 2) \/
   (Rabs (IZR m0 - mu) <= 2 /\ (exists f, q_m0_fit s = Fin f /\ Rabs f <= 1) /\ (q_m0_snr s = PInf \/ exists r, q_m0_snr s = Fin r /\ 3 <= r))).
(** A believed wavelength: in the middle half of the range, within a quarter of it from the expected one. *)
Definition believed_line (wave : list fl) (l0 : fl) (mu : R) : Prop := exists lo hi l, spans_wave wave lo hi /\ l0 = Fin l /\
  lo + (hi - lo) / 4 <= mu <= hi - (hi - lo) / 4 /\ Rabs (l - mu) <= (hi - lo) / 4.
(** The answer of a fit is used if it can be believed. *)
Definition used (fit : option fl) (ok : R -> Prop) (x : R -> fl) (default v : fl) : Prop :=
  (exists mu, fit = Some (Fin mu) /\ ok mu /\ v = x mu) \/ (v = default /\ forall mu, fit = Some (Fin mu) -> ~ ok mu).
