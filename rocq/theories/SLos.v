(* Specification vocabulary: a disc turning about an axis in space. *)
From Coq Require Import Reals List Bool Arith.
Import ListNotations.
Local Open Scope R_scope.

(** Points and directions in space: along the slit width, along the slit, towards the observer. *)
Definition vec : Type := (R * R * R)%type.
Definition vdot (a b : vec) : R := fst (fst a) * fst (fst b) + snd (fst a) * snd (fst b) + snd a * snd b.
Definition vcross (a b : vec) : vec :=
  (snd (fst a) * snd b - snd a * snd (fst b), snd a * fst (fst b) - fst (fst a) * snd b, fst (fst a) * snd (fst b) - snd (fst a) * fst (fst b)).
Definition vscal (k : R) (a : vec) : vec := (k * fst (fst a), k * snd (fst a), k * snd a).
Definition vsub (a b : vec) : vec := (fst (fst a) - fst (fst b), snd (fst a) - snd (fst b), snd a - snd b).
Definition vnorm (a : vec) : R := sqrt (vdot a a).

(** A unit vector at the angle [inc] to the line of sight whose projection on the sky is perpendicular to
    the major axis, which is turned by [pa] degrees from the slit. *)
Definition turning_axis (pa inc : R) (n : vec) : Prop :=
  vnorm n = 1 /\ snd n = cos inc /\
  fst (fst n) = - sin inc * cos (pa * (PI / 180)) /\ snd (fst n) = - sin inc * sin (pa * (PI / 180)).

(** Height of a point over the disc of axis [n] and distance from the axis. *)
Definition height (n p : vec) : R := vdot n p.
Definition from_axis (n p : vec) : R := vnorm (vsub p (vscal (height n p) n)).
(** Component along the line of sight of the velocity of size [v] of a point turning about [n]:
    the velocity points along [p] x [n]; on the axis it is zero. *)
Definition along_sight (n : vec) (v : R) (p : vec) : R :=
  if Req_EM_T (from_axis n p) 0 then 0 else v * snd (vcross p n) / from_axis n p.

(** Speed of light in km/s. *)
Definition light_speed : R := 299792458 / 1000.

(** Emission per unit wavelength at [x] of unit light moving away at [v] km/s with the dispersion [s] km/s:
    lines at the rest wavelengths [rest] with the flux ratios [ratio], at the redshift [z]. *)
Definition spectrum (rest ratio : list R) (z v s x : R) : R :=
  fold_right Rplus 0 (map (fun lr =>
    let lam := fst lr * (1 + z) in
    snd lr * (exp (- (x - lam * (1 + v / light_speed)) ^ 2 / (2 * (lam * s / light_speed) ^ 2)) / ((lam * s / light_speed) * sqrt (2 * PI))))
    (combine rest ratio)).

(** Sum of the first [n] values. *)
Fixpoint tot (n : nat) (f : nat -> R) : R := match n with O => 0 | S k => tot k f + f k end.

(** Centre of cell [k] of [n] cells of width [d] placed symmetrically about 0. *)
Definition cell_centre (n : nat) (d : R) (k : nat) : R := (INR k - (INR n - 1) / 2) * d.

(** Width in km/s of the mean wavelength step of the grid [l] at the wavelength [lam]. *)
Definition pixel_velocity (l : list R) (lam : R) : R := (last l 0 - hd 0 l) / (INR (length l) - 1) / lam * light_speed.
