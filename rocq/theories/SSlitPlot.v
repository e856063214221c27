(* Specification vocabulary: positions in the image panel and on the stamp. *)
From Coq Require Import Reals List Bool Arith.
From Verif Require Import PyFloat PyBase Arr PyNum MProf MSlitPlot SGeom.
Import ListNotations.
Local Open Scope R_scope.

(** A position with two finite coordinates. *)
Definition at_ (p : R * R) : fl * fl := (Fin (fst p), Fin (snd p)).
(** Sum of two positions, multiples. *)
Definition plus (p q : R * R) : R * R := (fst p + fst q, snd p + snd q).
Definition times (k : R) (p : R * R) : R * R := (k * fst p, k * snd p).
(** The vector turned by [t] (radians, from the first axis to the second). *)
Definition turn (t : R) (p : R * R) : R * R := (fst p * cos t - snd p * sin t, fst p * sin t + snd p * cos t).
(** The position turned about [c]. *)
Definition about (c : R * R) (t : R) (p : R * R) : R * R := plus c (turn t (plus p (times (-1) c))).

(** A scene with finite numbers: catalogue position [s] and fitted centre [f] as array indices, angles in degrees of image, galaxy and
    slit, axis ratio, radius and offset in arcsec. *)
Definition scene_is (g : scene) (s f : R * R) (imgPA serPA q re slitPA yoff : R) : Prop :=
  g_sci g = at_ (plus s (1, 1)) /\ g_ser g = at_ (plus f (1, 1)) /\ g_imgPA g = Fin imgPA /\ g_serPA g = Fin serPA /\ g_q g = Fin q /\
  g_re g = Some (Fin re) /\ g_pa2 g = Some (Fin slitPA) /\ g_yoff g = Some (Fin yoff).
(** Instruments with finite numbers: pixel scales of spectrograph and imager, slit width and length. *)
Definition optics_are (o : optics) (pix ipix width len : R) : Prop :=
  o_pix o = Fin pix /\ o_ipix o = Fin ipix /\ o_width o = Fin width /\ o_len o = Some (Fin len) /\ 0 < pix /\ 0 < ipix.

(** Middle of the stamp. *)
Definition middle (a : arr2 fl) : R * R := ((INR (cols a) - 1) / 2, (INR (rows a) - 1) / 2).

(** [l] holds the corners of a slit outline around [c], with its long side turned by [t] from the second axis: width [w], length [h] of the
    long sides, and short sides that drop by [s] over the width; the first corner is repeated. *)
Definition outline (c : R * R) (t w h s : R) (l : list (R * R)) : Prop :=
  let u := turn t (w / 2, - s / 2) in
  let v := turn t (0, h / 2) in
  l = [plus c (plus (times (-1) u) (times (-1) v)); plus c (plus u (times (-1) v)); plus c (plus u v); plus c (plus (times (-1) u) v);
       plus c (plus (times (-1) u) (times (-1) v))].

(** [l] holds the two ends of a segment through [c] of half length [h] in the direction [d], in some order. *)
Definition segment (c : R * R) (h : R) (d : R * R) (l : list (fl * fl)) : Prop :=
  l = [at_ (plus c (times (- h) d)); at_ (plus c (times h d))] \/ l = [at_ (plus c (times h d)); at_ (plus c (times (- h) d))].

(** Pixel [p] of [n] is within the reach of pixel [r] for a kernel as large as the image. *)
Definition near (n r p : nat) : bool := Nat.leb p (r + (n - 1) / 2) && Nat.ltb (r + (n - 1) / 2) (n + p).
(** Light at pixel ([r], [c]) when every pixel of the [m] by [n] image [F] is moved by [d] (columns, rows) and spread into a Gaussian of
    width [s], with pixels of side [ps]. *)
Definition smeared (m n : nat) (F : nat -> nat -> R) (ps s : R) (d : R * R) (r c : nat) : R :=
  rsum2 m n (fun p q => F p q * (if near m r p && near n c q then
    exp (- (((INR c - (INR q + fst d)) * ps) ^ 2 + ((INR r - (INR p + snd d)) * ps) ^ 2) / (2 * s ^ 2)) else 0)).
(** The image has [m] rows and [n] columns and the values [F]. *)
Definition image_is (a : arr2 fl) (m n : nat) (F : nat -> nat -> R) : Prop :=
  rows a = m /\ cols a = n /\ forall i j, (i < m)%nat -> (j < n)%nat -> at2 a i j = Fin (F i j).
(** Non-negative light, some of it positive. *)
Definition has_light (m n : nat) (F : nat -> nat -> R) : Prop :=
  (forall i j, (i < m)%nat -> (j < n)%nat -> 0 <= F i j) /\ exists i j, (i < m)%nat /\ (j < n)%nat /\ 0 < F i j.
