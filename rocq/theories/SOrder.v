(* Specification vocabulary: samples in another order or in other units. *)
From Coq Require Import String Reals List Bool Arith ZArith Permutation.
From Verif Require Import PyFloat PyBase Arr PyNum MParams MProf MPost SParams.
Import ListNotations.
Local Open Scope R_scope.

(** [s] rearranges the numbers below [n]. *)
Definition rearranges (n : nat) (s : nat -> nat) : Prop := Permutation (map s (seq 0 n)) (seq 0 n).

(** The samples [b] are the samples [a] (one per row) in another order. *)
Definition reordered (a b : arr2 fl) : Prop :=
  rows b = rows a /\ cols b = cols a /\
  exists s, rearranges (rows a) s /\ forall i j, (i < rows a)%nat -> (j < cols a)%nat -> at2 b i j = at2 a (s i) j.

(** A density estimate that does not look at the order of the samples. *)
Definition order_free (K : kde) : Prop :=
  (forall l l', Permutation l l' -> k_one K l = k_one K l') /\
  (forall n s cs init, rearranges n s -> (forall c, In c cs -> length c = n) ->
     k_many K (map (fun c => map (fun i => nth (s i) c NaN) (seq 0 n)) cs) init = k_many K cs init).

(** Column [j] of the samples [b] is [u j] times that of [a]. *)
Definition in_units (u : nat -> R) (a b : arr2 fl) : Prop :=
  rows b = rows a /\ cols b = cols a /\
  forall i j, (i < rows a)%nat -> (j < cols a)%nat -> at2 b i j = fmul (Fin (u j)) (at2 a i j).

(** A density estimate whose peak follows the units of the samples. *)
Definition units_free (K : kde) : Prop :=
  (forall c l, 0 < c -> k_one K (map (fmul (Fin c)) l) =
     match k_one K l with Ok x => Ok (fmul (Fin c) x) | Err e => Err e end) /\
  (forall us cs init, length us = length cs -> (forall u, In u us -> 0 < u) ->
     k_many K (map (fun p => map (fmul (Fin (fst p))) (snd p)) (combine us cs)) (map (fun p => fmul (Fin (fst p)) (snd p)) (combine us init)) =
     match k_many K cs init with
     | Ok l => Ok (map (fun p => fmul (Fin (fst p)) (snd p)) (combine us l)) | Err e => Err e end).

(** Summaries in those units: entry [j] of the values and errors multiplied by [u j], the
    percentages the same. *)
Definition values_in_units (u : nat -> R) (l l' : list fl) : Prop :=
  length l' = length l /\ forall j, nth_error l' j = option_map (fmul (Fin (u j))) (nth_error l j).
(** The same for pairs of errors. *)
Definition errors_in_units (u : nat -> R) (l l' : list (fl * fl)) : Prop :=
  length l' = length l /\
  forall j, nth_error l' j = option_map (fun e => (fmul (Fin (u j)) (fst e), fmul (Fin (u j)) (snd e))) (nth_error l j).
(** All summaries. *)
Definition post_in_units (u : nat -> R) (p p' : post) : Prop :=
  values_in_units u (p_best p) (p_best p') /\ values_in_units u (p_fit p) (p_fit p') /\
  errors_in_units u (p_err1 p) (p_err1 p') /\ errors_in_units u (p_err2 p) (p_err2 p') /\ p_opp p' = p_opp p.

(** A fit with the arctangent profile, parameter [i] (velocity, turnover radius, dispersion, ...)
    and the effective radius in other units: parameter [i] times [w i], the radius times [w 1]. *)
Definition fit_in_units (w : nat -> R) (f f' : fitted) : Prop :=
  f_prof f = fiducial /\ f_prof f' = fiducial /\ w 2%nat = w 0%nat /\
  values_in_units w (f_theta f) (f_theta f') /\ f_re f' = fmul (Fin (w 1%nat)) (f_re f) /\
  f_abs f' = f_abs f /\ f_vary f' = f_vary f /\ f_names f' = f_names f.
(** The factors of the columns: those of the free parameters, then four times that of velocities. *)
Definition columns_in_units (w : nat -> R) (vary : list bool) (d : nat) (u : nat -> R) : Prop :=
  (forall i, free vary i -> u (rank vary i) = w i) /\ (forall j, (d <= j < d + 4)%nat -> u j = w 0%nat) /\ forall j, 0 < u j.

(** The samples of [n0] walkers and [n1] steps one after another: all steps of a walker first, or
    all walkers of a step first. *)
Definition by_walker (c : arr3 fl) : arr2 fl :=
  mk2 (dim0 c * dim1 c) (dim2 c) (fun k j => at3 c (k / dim1 c) (k mod dim1 c) j).
(** The other order. *)
Definition by_step (c : arr3 fl) : arr2 fl :=
  mk2 (dim0 c * dim1 c) (dim2 c) (fun k j => at3 c (k mod dim0 c) (k / dim0 c) j).
