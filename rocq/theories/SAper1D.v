(* Specification vocabulary for the 1-D aperture models. *)
From Coq Require Import Reals Arith.
From Verif Require Import PyFloat Arr MProf MAper1D.
Local Open Scope R_scope.

(** The [count] cells of width [w] centred at c first, c (first+1), ... lie side by side and
    together cover exactly the interval from [a] to [b]. *)
Definition tiles (c : nat -> R) (first count : nat) (w a b : R) : Prop :=
  c first - w / 2 = a /\ c (first + count - 1)%nat + w / 2 = b /\
  forall i, (S i < count)%nat -> c (first + i)%nat + w / 2 = c (first + S i)%nat - w / 2.

(** Circularised radius of the ellipse of axis ratio [q] through the point (x,y) whose minor
    axis lies along (cos a, -sin a) ([a] in degrees). *)
Definition ell (x y q a : R) : R :=
  let t := a * PI / 180 in
  let along := sin t * x + cos t * y in
  let across := cos t * x - sin t * y in
  sqrt (q * along ^ 2 + across ^ 2 / q).

(** Local velocity dispersion: power law of slope [d] in the cored radius, one at the
    effective radius [rm] (core fraction [c]). *)
Definition vds (rm c d r : R) : R := Rpower ((r + c * rm) / (rm + c * rm)) d.

(** Sersic surface brightness, one at r + c re = re. *)
Definition sers (re n c r : R) : R :=
  exp (- (2 * n - 324 / 1000) * (Rpower ((r + c * re) / re) (1 / n) - 1)).

(** Weight of row [j] of [nr]: equal rows for boxcar extraction, and for optimal extraction
    a Gaussian about the middle row with standard deviation [s] rows, normalised. *)
Definition gauss_row (s : R) (nr j : nat) : R :=
  exp (- ((INR j - (INR nr - 1) / 2) / s) ^ 2 / 2) / (s * sqrt (2 * PI)).
Definition opt_row (s : R) (nr j : nat) : R := gauss_row s nr j / rsumn nr (gauss_row s nr).

(** The default extraction width: twice the larger of the blurred minor axis and the
    projection of the blurred major axis on the slit direction (full widths). *)
Definition wide (re q a F : R) : R :=
  2 * Rmax (Rabs (cos (a * PI / 180)) * sqrt ((2 * re) ^ 2 + F ^ 2)) (sqrt ((2 * q * re) ^ 2 + F ^ 2)).

(** A PSF without negative dither images: Gaussian, or Moffat with beta above one. *)
Definition plain_psf (p : psf) (F : R) : Prop :=
  psf_fwhm p = Some (Fin F) /\
  ((psf_fam p = PsfGaussian /\ psf_dither p = None) \/
   exists beta, psf_fam p = PsfMoffat (Some (Fin beta)) /\ 1 < beta).

(** Physical settings of a dispersion aperture model: finite positive sizes, axis ratios,
    Sersic index, core and slit width, a finite position, a known extraction method and an
    extraction width that is positive or left to the default. *)
Definition physical (o : dopt) (ins : ins1) (gal : gal1) (re q rm qm n a c W xc yc F : R) : Prop :=
  (l_re gal = Fin re /\ l_q gal = Fin q /\ l_remass gal = Fin rm /\ l_qmass gal = Fin qm /\
   l_n gal = Fin n /\ l_dPA gal = Fin a) /\
  (d_rcore o = Fin c /\ j_slit ins = Fin W /\ d_xc o = Fin xc /\ d_yc o = Fin yc) /\
  (0 < re /\ 0 < q /\ 0 < rm /\ 0 < qm /\ 0 < n /\ 0 < c /\ 0 < W) /\
  plain_psf (j_psf ins) F /\ 0 <= F /\ d_method o <> OtherMethod /\
  (d_ew o = None \/ exists H, d_ew o = Some (Fin H) /\ 0 < H).

(** The extraction width in use for a source of size [re], axis ratio [q], angle [a]. *)
Definition width (o : dopt) (re q a F : R) : R :=
  match d_ew o with Some (Fin H) => H | _ => wide re q a F end.

(** Number of samples on each side of the central one: doubled for small sources. *)
Definition half_samples (o : dopt) (re : R) : nat :=
  if Rle_dec re (1/10) then (2 * d_npix o)%nat else d_npix o.

(** Weights of the rows of a window of 2n+1 rows. *)
Definition row_weight (m : method) (n j : nat) : R :=
  match m with
  | Optimal => opt_row (INR (2 * n + 1) / 2 / (2 * sqrt (2 * ln 2))) (2 * n + 1) j
  | _ => 1
  end.

(** [s] is the aperture dispersion of a galaxy of Sersic light profile (size [re], index [nn])
    and local dispersion profile (size [rm]), both on ellipses of axis ratio [q] at angle [a],
    seen through the window of width W and H centred on (-xc,-yc): it lies between any bounds
    on the local dispersion within twice the window, and without a PSF its square is the
    light- and row-weighted mean of the squared local dispersion over the (2n+1) x (2n+1)
    cells of the window. *)
Definition average_of (m : method) (re nn rm c F W H xc yc q a : R) (n : nat) (s : R) : Prop :=
  0 < s /\
  (forall lo hi, 0 <= lo ->
    (forall x y, Rabs (x + xc) <= W -> Rabs (y + yc) <= H -> lo <= vds rm c (-89/1000) (ell x y q a) <= hi) ->
    lo <= s <= hi) /\
  (F = 0 ->
    let r j i := ell ((INR i - INR n) * (W / INR (2 * n + 1)) - xc) ((INR j - INR n) * (H / INR (2 * n + 1)) - yc) q a in
    let I j i := row_weight m n j * sers re nn c (r j i) in
    s ^ 2 = rsum2 (2 * n + 1) (2 * n + 1) (fun j i => vds rm c (-89/1000) (r j i) ^ 2 * I j i) /
            rsum2 (2 * n + 1) (2 * n + 1) I).

(** Line-of-sight speed, at the point (x,y,z), of a disc of inclination [i] whose major axis
    makes the angle [a] with the slit, rotating with an arctangent curve. *)
Definition rotation (va rt r : R) : R := 2 / PI * va * atan (r / rt).
Definition speed (va rt a i x y z : R) : R :=
  let t := a * PI / 180 in
  let X := cos i * (x * cos t + y * sin t) + sin i * z in
  let Y := y * cos t - x * sin t in
  let r := sqrt (X ^ 2 + Y ^ 2) in
  rotation va rt r * (Y / r) * sin i.

(** The inclination of a disc of axis ratio [q] and intrinsic thickness [q0]. *)
Definition inclined (q q0 i : R) : Prop :=
  0 <= i <= PI / 2 /\ (q <= q0 -> sin i = 1) /\ (q0 <= q -> (sin i) ^ 2 * (1 - q0 ^ 2) = 1 - q ^ 2).

(** Physical settings of a rotation aperture model, without the optional velocity shift; the
    samples of the extraction width are no coarser than twice the PSF width. *)
Definition physical_rot (o : ropt) (ins : ins1) (gal : gal1) (re q q0 a W xc yc pad F H va rt : R) : Prop :=
  (l_re gal = Fin re /\ l_q gal = Fin q /\ l_q0 gal = Fin q0 /\ l_dPA gal = Fin a) /\
  (j_slit ins = Fin W /\ t_xc o = Fin xc /\ t_yc o = Fin yc /\ t_pad o = Fin pad /\
   t_va o = Fin va /\ t_rt o = Fin rt) /\
  (0 < re /\ 0 < q <= 1 /\ 0 <= q0 < 1 /\ 0 < W /\ 0 <= pad /\ 0 < rt) /\
  plain_psf (j_psf ins) F /\ 0 < F /\ t_method o <> OtherMethod /\ t_shift o = false /\ t_eff o = false /\
  ((t_ew o = None /\ H = wide re q a F) \/ (t_ew o = Some (Fin H) /\ 0 < H)) /\
  (0 < t_npix o)%nat /\ H <= 2 * F * INR (t_npix o) /\
  (forall r z, exists v, t_int o (Fin r) (Fin z) = Fin v /\ 0 < v).

(** The reference radius. *)
Definition ref_radius (o : ropt) (re : R) (R0 : R) : Prop :=
  match t_rad o with Some r => r = Fin R0 | None => R0 = re end.

(** What the aperture dispersion of the rotation model is an average of: dispersion and
    line-of-sight speed in quadrature, anywhere within the padded window. *)
Definition rot_average (va rt sg a i W H xc yc P s : R) : Prop :=
  0 <= s /\
  forall lo hi, 0 <= lo ->
    (forall x y z, Rabs (x + xc) <= W / 2 + P -> Rabs (y + yc) <= H / 2 + P -> Rabs z <= H / 2 ->
       lo <= sqrt (speed va rt a i x y z ^ 2 + sg ^ 2) <= hi) ->
    lo <= s <= hi.

(** The same options with another dispersion slope. *)
Definition with_slope (o : dopt) (d : fl) : dopt :=
  mkdopt (d_npix o) (d_method o) (d_ew o) (d_rad o) (d_xc o) (d_yc o) (d_rcore o) d (d_Ie o).
