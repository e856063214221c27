(* Specification vocabulary for the 2-D aperture model and the kinematic model object. *)
From Coq Require Import Reals List Bool Arith ZArith.
From Verif Require Import PyFloat PyBase Arr PyNum MParams MKernels MAper2D SParams.
Import ListNotations.
Local Open Scope R_scope.

(** A model object that has not been evaluated yet. *)
Definition fresh (k : kinmodel) : Prop := k_aper k = None.

(** The last two parameters (vertical offset, redshift) exist and are fixed. *)
Definition offsets_fixed (k : kinmodel) : Prop :=
  length (k_vary k) = length (k_theta k) /\ (2 <= length (k_theta k))%nat /\
  forall i, (length (k_theta k) - 2 <= i)%nat -> nth_error (k_vary k) i <> Some true.

(** One call of make_model or update_model. *)
Inductive call := CMake (tf : list fl) | CUpdate (tf : list fl).
Definition args (x : call) : list fl := match x with CMake tf | CUpdate tf => tf end.
Definition run (c : cfg) (x : call) (k : kinmodel) : kinmodel * res unit :=
  match x with CMake tf => km_make c tf k | CUpdate tf => km_update c tf k end.

(** States reached from [k0] by a successful make_model followed by any calls that either
    succeed or are rejected for the length of their argument. *)
Inductive history (c : cfg) (k0 : kinmodel) : kinmodel -> Prop :=
| h_start tf k : km_make c tf k0 = (k, Ok tt) -> history c k0 k
| h_ok x k k' : history c k0 k -> run c x k = (k', Ok tt) -> history c k0 k'
| h_guard x k k' : history c k0 k -> length (args x) <> nfree (k_vary k) ->
    run c x k = (k', Err ValueError) -> history c k0 k'.

(** States reached from [k0] by a successful make_model followed by any calls at all,
    including calls that fail half-way. *)
Inductive history_any (c : cfg) (k0 : kinmodel) : kinmodel -> Prop :=
| ha_start tf k : km_make c tf k0 = (k, Ok tt) -> history_any c k0 k
| ha_step x k k' r : history_any c k0 k -> run c x k = (k', r) -> history_any c k0 k'.

(** An evenly spaced wavelength grid of N samples. *)
Definition uniform (w0 d : R) (N : nat) : list fl := map (fun i => Fin (w0 + INR i * d)) (seq 0 N).

(** A finite increasing list. *)
Definition increasing (l : list R) : Prop :=
  forall i j, (i < j < length l)%nat -> nth i l 0 < nth j l 0.

(** A well-posed evaluation: at least one sub-pixel and one detector row, positive slit and
    pixel sizes, an increasing finite wavelength grid, at least one line with a flux ratio per
    line, a one-parameter dispersion profile, no slit mask, no light-position shift, a whole
    up-sampling factor, and a PSF that is either absent or at least half a grid step wide. *)
Definition well_posed (c : cfg) (th : list fl) (l : list R) : Prop :=
  let o := c_opt c in let ins := c_ins c in let g := c_gal c in
  (1 <= o_nsub o)%nat /\ 0 < i_slit ins /\ 0 < i_pix ins /\ (1 <= g_rows g)%nat /\
  g_wave g = map Fin l /\ increasing l /\ (2 <= length l)%nat /\
  (2 <= length th)%nat /\ p_ndisp (c_prof c) = 1%nat /\ (p_nvel (c_prof c) < length th)%nat /\
  o_spec o = Wave /\ g_rest g <> [] /\ (length (g_rest g) <= length (g_ratio g))%nat /\
  o_shift o = false /\ o_eff o = false /\ i_slitmask ins = false /\
  (o_adapt o = true -> exists f, (1 <= f)%nat /\ o_factor o = INR f) /\
  0 <= o_pad o /\
  (i_fwhm ins = 0 \/
   (0 < i_fwhm ins /\ i_pix ins / INR (o_nsub o) <= 2 * i_fwhm ins /\
    exists m, fadd (g_m0 g) (nth (length th - 2) th NaN) = Fin m)).

(** No blurring: no PSF, no instrumental broadening, original wavelength grid, dispersion taken
    as given, output rebinned to detector rows. *)
Definition unblurred (c : cfg) : Prop :=
  i_fwhm (c_ins c) = 0 /\ i_res (c_ins c) = Fin 0 /\ o_adapt (c_opt c) = false /\
  o_abs (c_opt c) = false /\ o_floor (c_opt c) = false /\ o_rebin (c_opt c) = true.

(** The same configuration with the effective-resolution option switched on or off. *)
Definition with_eff (b : bool) (c : cfg) : cfg :=
  let o := c_opt c in
  mkcfg (c_gal c) (c_ins c)
    (mkopts (o_nsub o) (o_pad o) (o_rebin o) (o_shift o) b (o_xc o) (o_spec o) (o_abs o)
            (o_adapt o) (o_factor o) (o_floor o)) (c_prof c).

(** Rows of the model image: one per detector row once rebinned, one per sub-pixel otherwise. *)
Definition img_rows (c : cfg) : nat :=
  if o_rebin (c_opt c) || o_adapt (c_opt c) then g_rows (c_gal c)
  else (g_rows (c_gal c) * o_nsub (c_opt c))%nat.

(** States an aperture model reaches from [a0] by successful evaluations. *)
Inductive evaluated (c : cfg) (a0 : aper) : aper -> Prop :=
| ev_start : evaluated c a0 a0
| ev_step th a b : evaluated c a0 a -> aper_update c th a = (b, Ok tt) -> evaluated c a0 b.

(** Centre of sub-pixel [j] of a padded grid, measured from the object at detector row [m0]:
    detector row [i] is centred at [i] pixels and holds [nsub] sub-pixels of size [dy]. *)
Definition subpixel_y (nsub pad : nat) (dy m0 : R) (j : nat) : R :=
  (INR j - INR pad - (INR nsub - 1) / 2) * dy - m0 * INR nsub * dy.
