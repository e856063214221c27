(* Specification vocabulary for the analysis of a chain. *)
From Coq Require Import String Reals List Bool Arith ZArith Sorted Permutation.
From Verif Require Import PyFloat PyBase Arr PyNum MParams SParams MPost.
Import ListNotations.
Local Open Scope R_scope.

(** Row [k] of an array. *)
Definition row (a : arr2 fl) (k : nat) : list fl := map (at2 a k) (seq 0 (cols a)).

(** [v] is the full parameter vector: free parameters from [free_values], the others from [theta]. *)
Definition completes (vary : list bool) (theta free_values v : list fl) : Prop :=
  length v = length theta /\
  forall i, (i < length theta)%nat ->
    (free vary i -> nth_error v i = nth_error free_values (rank vary i)) /\
    (~ free vary i -> nth_error v i = nth_error theta i).

(** The sample at the fraction [q] (between 0 and 1) of the sorted samples [l], linearly interpolated. *)
Definition quantile (q : R) (l : list R) (v : R) : Prop :=
  exists s k, Permutation l s /\ StronglySorted Rle s /\ (k < length s)%nat /\
    INR k <= q * INR (length s - 1) <= INR k + 1 /\
    v = nth k s 0 + (q * INR (length s - 1) - INR k) * (nth (Nat.min (S k) (length s - 1)) s 0 - nth k s 0).

(** Column [j] of samples, as numbers. *)
Definition rcol (a : arr2 fl) (j : nat) : list R := map (fun i => val (at2 a i j)) (seq 0 (rows a)).

(** What the derivation of columns does once the dispersion column has been treated. *)
Definition derived (f : fitted) (h h' : chains) : Prop :=
  let p := f_prof f in
  let d := cols (h_flat h) in
  rows (h_flat h') = rows (h_flat h) /\ cols (h_flat h') = (d + 4)%nat /\ h_chain h' = h_chain h /\
  (forall k j, (j < d)%nat -> at2 (h_flat h') k j = at2 (h_flat h) k j) /\
  (forall k, exists v, completes (f_vary f) (f_theta f) (row (h_flat h) k) v /\ (kp_nv p + kp_nd p <= length v)%nat /\
     let vt := firstn (kp_nv p) v in let st := firstn (kp_nd p) (skipn (kp_nv p) v) in
     let r22 := fmul (Fin (22 / 10 / (1676 / 1000))) (f_re f) in
     at2 (h_flat h') k d = kp_vel p vt (f_re f) /\ at2 (h_flat h') k (d + 1) = kp_vel p vt r22 /\
     at2 (h_flat h') k (d + 2) = kp_sig p st (f_re f) /\ at2 (h_flat h') k (d + 3) = kp_sig p st r22) /\
  exists ns, h_names h' = ns ++ ["V_RE"; "V_22"; "sigma_RE"; "sigma_22"]%string /\
    length ns = rank (f_vary f) (length (f_names f)) /\
    (forall i, (i < length (f_names f))%nat -> free (f_vary f) i -> nth_error ns (rank (f_vary f) i) = nth_error (f_names f) i).

(** Entry [j] of the errors reaches from the best value to the [q1] and [q2] quantiles of the samples. *)
Definition spans (q1 q2 : R) (flat : arr2 fl) (best : list fl) (err : list (fl * fl)) (j : nat) : Prop :=
  exists lo hi b, quantile q1 (rcol flat j) lo /\ quantile q2 (rcol flat j) hi /\ nth_error best j = Some b /\
    nth_error err j = Some (fsub b (Fin lo), fsub (Fin hi) b).

(** The columns of a linked group; 'all' leaves out the four derived ones. *)
Definition group (g : link) (n : nat) (j : nat) : Prop :=
  match g with LinkAll => (j < n - 4)%nat | LinkInds l => In j l end.
