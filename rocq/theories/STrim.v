(* Specification vocabulary for trimming; nothing of the model's functions is used, only its
   records. *)
From Coq Require Import Reals List Bool Arith ZArith.
From Verif Require Import PyFloat PyBase Arr SMask MTrim.
Import ListNotations.
Local Open Scope R_scope.

(** The closed range, NaN never inside. *)
Definition inside (r : fl * fl) (w : fl) : Prop := fleb (fst r) w = true /\ fleb w (snd r) = true.
(** [ks] lists, in order, exactly the pixels whose wavelength is inside. *)
Definition kept (r : fl * fl) (wave : list fl) (ks : list nat) : Prop :=
  ascending ks /\ forall j, In j ks <-> exists w, nth_error wave j = Some w /\ inside r w.
(** [l'] holds the pixels [ks] of [l], in order. *)
Definition picked1 (ks : list nat) (l l' : list fl) : Prop := l' = map (fun k => nth k l NaN) ks.
(** [a'] holds the columns [ks] of [a], in order. *)
Definition picked2 (ks : list nat) (a a' : arr2 fl) : Prop :=
  rows a' = rows a /\ cols a' = length ks /\
  forall i j k, nth_error ks j = Some k -> at2 a' i j = at2 a i k.

(** A complete 1-D spectrum whose observed wavelengths are its wavelengths. *)
Definition arrays1 (s : sp1) (wave flux err mask : list fl) : Prop :=
  s_wave s = Some wave /\ s_obs s = Some wave /\ s_flux s = Some flux /\ s_err s = Some err /\
  s_mask s = Some mask /\
  length flux = length wave /\ length err = length wave /\ length mask = length wave.

(** The image has [n] rows and [p] columns. *)
Definition shape {A} (a : arr2 A) (n p : nat) : Prop := rows a = n /\ cols a = p.
(** A complete 2-D spectrum, likewise. *)
Definition arrays2 (s : sp2) (wave : list fl) (flux err mask weight : arr2 fl) : Prop :=
  q_wave s = Some wave /\ q_obs s = Some wave /\ q_flux s = Some flux /\ q_err s = Some err /\
  q_mask s = Some mask /\ q_weight s = Some weight /\
  shape flux (rows flux) (length wave) /\ shape err (rows flux) (length wave) /\
  shape mask (rows flux) (length wave) /\ shape weight (rows flux) (length wave).

(** Two possibly missing images show the same. *)
Definition same_image (o o' : option (arr2 fl)) : Prop :=
  match o, o' with Some a, Some b => eq2 a b | None, None => True | _, _ => False end.
(** Two 2-D spectra show the same arrays and recorded ranges. *)
Definition same_spectrum (s s' : sp2) : Prop :=
  q_wave s = q_wave s' /\ q_obs s = q_obs s' /\ q_rest s = q_rest s' /\
  same_image (q_flux s) (q_flux s') /\ same_image (q_err s) (q_err s') /\
  same_image (q_mask s) (q_mask s') /\ same_image (q_weight s) (q_weight s') /\
  same_image (q_incl s) (q_incl s') /\ same_image (q_cont s) (q_cont s') /\
  q_trimo s = q_trimo s' /\ q_trimr s = q_trimr s'.

(** The range asked for, in the observed frame: given directly, or rest-frame times 1+z. *)
Inductive asked (z : fl) : option (fl * fl) -> option (fl * fl) -> fl * fl -> Prop :=
| asked_obs o : asked z None (Some o) o
| asked_rest lo hi : asked z (Some (lo, hi)) None (fmul lo (fadd (Fin 1) z), fmul hi (fadd (Fin 1) z)).

(** Rows [lo], [lo]+1, .. of [a] make up [a']. *)
Definition rows_from (lo n : nat) (a a' : arr2 fl) : Prop :=
  rows a' = n /\ cols a' = cols a /\ forall i j, at2 a' i j = at2 a (lo + i) j.

(** The redshift is a numpy number of value [v], or a plain float and the range is observed-frame. *)
Definition zok (z : znum) (rest obs : option (fl * fl)) (v : fl) : Prop :=
  z = ZNp v \/ (z = ZPy v /\ obs <> None).

(** A 2-D spectrum ready for spatial trimming: all images [n] x [p]. *)
Definition ready (s : sp2) (n p : nat) (imgs : list (arr2 fl)) : Prop :=
  map Some imgs = [q_flux s; q_err s; q_incl s; q_cont s; q_weight s; q_mask s; q_qual s; q_sky s; q_low s] /\
  forall a, In a imgs -> shape a n p.

