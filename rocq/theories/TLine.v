(* Property theorems: line profiles, instrument broadening, reduced chi-squared (C83-C87). *)
From Coq Require Import Reals List Bool Arith.
From Verif Require Import PyFloat PyBase Arr PyNum MKernels SKernels SAper2D SLine PLine PLine2.
Import ListNotations.
Local Open Scope R_scope.

(** C83: the reduced chi-squared is chi-squared over unmasked pixels minus free parameters. *)
Theorem C83_redchisq : forall n p F S W ok cs M k,
  (forall i j, (i < n)%nat -> (j < p)%nat -> S i j <> 0) -> n_good n p ok <> k ->
  let d := findata n p F S W ok cs in
  let dof := INR (n_good n p ok) - INR k in
  model_redchisq d (fin2 n p M) k = Fin (chi2 n p F M S W ok / dof) /\
  model_redchisq_no_weight d (fin2 n p M) k = Fin (chi2 n p F M S (fun _ _ => 1) ok / dof) /\
  model_redchisq_weight_ref d k = Fin (rsum2 n p W / dof).
Proof. exact redchisq_value. Qed.
Print Assumptions C83_redchisq.

(** C83: with as many parameters as unmasked pixels it is not a number or infinite. *)
Theorem C83_exhausted : forall n p F S W ok cs M k,
  (forall i j, (i < n)%nat -> (j < p)%nat -> S i j <> 0) -> n_good n p ok = k ->
  isfinite (model_redchisq (findata n p F S W ok cs) (fin2 n p M) k) = false.
Proof. exact redchisq_exhausted. Qed.
Print Assumptions C83_exhausted.

Example C83_example : let d := findata 1 3 (fun _ j => INR j) (fun _ _ => 1) (fun _ _ => 1) (fun _ j => negb (Nat.eqb j 0)) [] in
  model_redchisq d (fin2 1 3 (fun _ _ => 0)) 1 = Fin (5 / 1).
Proof. exact ex_redchisq. Qed.

(** C84: with non-zero dispersions every line of every voxel is a Gaussian at lam0 (1 + V/c) of width
    lam0 sigma/c (in velocity units: at V, of width sigma), weighted by intensity, depth and flux ratio. *)
Theorem C84_line_profile : forall I V s (x rest ratio : list R) z nZ nY nX dz sp cube,
  let nW := length x in
  (forall m j k, (m < nZ)%nat -> (j < nY)%nat -> (k < nX)%nat -> s m j k <> 0) ->
  (0 < nZ)%nat -> (0 < nY)%nat -> (0 < nX)%nat -> (1 + z) <> 0 -> (forall l, In l rest -> l <> 0) ->
  add_sigma_collapse_z (fin3 nZ nY nX I) (fin3 nZ nY nX V) (fin3 nZ nY nX s) (map Fin x) (Fin z) (map Fin rest) (map Fin ratio)
    nW nZ nY nX (Fin dz) (tiled_I nW nZ nY nX I) (tiled_w nW nZ nY nX (fun w => nth w x 0)) sp = Ok cube ->
  dim0 cube = nW /\ dim1 cube = nY /\ dim2 cube = nX /\
  forall w j k, (w < nW)%nat -> (j < nY)%nat -> (k < nX)%nat ->
    at3 cube w j k = Fin (
      match sp with
      | Wave => rsumn (length rest) (fun i => nth i ratio 0 * (dz * rsumn nZ (fun m =>
          I m j k * normal (nth i rest 0 * (1 + z) * (1 + V m j k / c_kms)) (s m j k / c_kms * (nth i rest 0 * (1 + z))) (nth w x 0))))
      | Velocity => dz * rsumn nZ (fun m => I m j k * normal (V m j k) (s m j k) (nth w x 0))
      | OtherSpec => 0
      end).
Proof. exact cube_value. Qed.
Print Assumptions C84_line_profile.
Theorem C84_succeeds : forall I V s (x rest ratio : list R) z nZ nY nX dz sp,
  let nW := length x in
  (forall m j k, (m < nZ)%nat -> (j < nY)%nat -> (k < nX)%nat -> s m j k <> 0) ->
  (0 < nZ)%nat -> (0 < nY)%nat -> (0 < nX)%nat -> (length rest <= length ratio)%nat ->
  exists cube, add_sigma_collapse_z (fin3 nZ nY nX I) (fin3 nZ nY nX V) (fin3 nZ nY nX s) (map Fin x) (Fin z) (map Fin rest) (map Fin ratio)
    nW nZ nY nX (Fin dz) (tiled_I nW nZ nY nX I) (tiled_w nW nZ nY nX (fun w => nth w x 0)) sp = Ok cube.
Proof. exact cube_succeeds. Qed.
Print Assumptions C84_succeeds.

(** C84: what the specification's Gaussian is: positive, symmetric, highest at its mean, and half as high
    exactly at sqrt(2 ln 2) widths from it. *)
Theorem C84_gaussian_shape : forall mu s x h, 0 < s ->
  (0 < normal mu s x <= normal mu s mu) /\ normal mu s (mu + h) = normal mu s (mu - h) /\
  (normal mu s (mu + h) = normal mu s mu / 2 <-> Rabs h = sqrt (2 * ln 2) * s).
Proof. exact gaussian_shape. Qed.
Print Assumptions C84_gaussian_shape.

Example C84_example : exists cube, 
  add_sigma_collapse_z (fin3 2 1 1 (fun _ _ _ => 1)) (fin3 2 1 1 (fun _ _ _ => 0)) (fin3 2 1 1 (fun m _ _ => 1 + INR m))
    (map Fin [6564; 6565]) (Fin 0) (map Fin [6565]) (map Fin [1]) 2 2 1 1 (Fin 1) (tiled_I 2 2 1 1 (fun _ _ _ => 1))
    (tiled_w 2 2 1 1 (fun w => nth w [6564; 6565] 0)) Wave = Ok cube /\
  at3 cube 1 0 0 = Fin (normal 6565 (1 / c_kms * 6565) 6565 + normal 6565 (2 / c_kms * 6565) 6565).
Proof. exact ex_cube. Qed.

(** C85: changing the sign of every dispersion negates every sample of the cube. *)
Theorem C85_sign : forall I V s (x rest ratio : list R) z nZ nY nX dz sp cube cube',
  let nW := length x in
  (forall m j k, (m < nZ)%nat -> (j < nY)%nat -> (k < nX)%nat -> s m j k <> 0) ->
  (0 < nZ)%nat -> (0 < nY)%nat -> (0 < nX)%nat -> (1 + z) <> 0 -> (forall l, In l rest -> l <> 0) ->
  let run s := add_sigma_collapse_z (fin3 nZ nY nX I) (fin3 nZ nY nX V) (fin3 nZ nY nX s) (map Fin x) (Fin z) (map Fin rest) (map Fin ratio)
    nW nZ nY nX (Fin dz) (tiled_I nW nZ nY nX I) (tiled_w nW nZ nY nX (fun w => nth w x 0)) sp in
  run s = Ok cube -> run (fun m j k => - s m j k) = Ok cube' ->
  forall w j k, (w < nW)%nat -> (j < nY)%nat -> (k < nX)%nat -> exists r, at3 cube w j k = Fin r /\ at3 cube' w j k = Fin (- r).
Proof. exact cube_sign. Qed.
Print Assumptions C85_sign.

(** C86: one voxel without dispersion beside others with some makes its whole spectrum nan. *)
Theorem C86_zero_voxel : forall I V s (x rest ratio : list R) z nZ nY nX dz cube m0 j k,
  let nW := length x in
  (exists m j k, (m < nZ)%nat /\ (j < nY)%nat /\ (k < nX)%nat /\ s m j k <> 0) ->
  (m0 < nZ)%nat -> (j < nY)%nat -> (k < nX)%nat -> s m0 j k = 0 -> rest <> [] ->
  add_sigma_collapse_z (fin3 nZ nY nX I) (fin3 nZ nY nX V) (fin3 nZ nY nX s) (map Fin x) (Fin z) (map Fin rest) (map Fin ratio)
    nW nZ nY nX (Fin dz) (tiled_I nW nZ nY nX I) (tiled_w nW nZ nY nX (fun w => nth w x 0)) Wave = Ok cube ->
  forall w, (w < nW)%nat -> at3 cube w j k = NaN.
Proof. exact zero_voxel. Qed.
Print Assumptions C86_zero_voxel.
Theorem C86_zero_voxel_refuted : exists cube, 
  add_sigma_collapse_z (fin3 2 1 1 (fun _ _ _ => 1)) (fin3 2 1 1 (fun _ _ _ => 0)) (fin3 2 1 1 (fun m _ _ => INR m))
    (map Fin [6564; 6565]) (Fin 0) (map Fin [6565]) (map Fin [1]) 2 2 1 1 (Fin 1) (tiled_I 2 2 1 1 (fun _ _ _ => 1))
    (tiled_w 2 2 1 1 (fun w => nth w [6564; 6565] 0)) Wave = Ok cube /\ at3 cube 1 0 0 = NaN.
Proof. exact ex_zero_voxel. Qed.
Print Assumptions C86_zero_voxel_refuted.

(** C87: on an even wavelength grid every column is convolved with a centred Gaussian whose standard
    deviation is the instrumental dispersion, cut at half the grid, times one overall factor. *)
Theorem C87_instrument_kernel : forall m w0 d N s,
  s <> 0 -> (0 < N)%nat -> size2 m <> 0%nat -> nonneg2 m ->
  (exists i j, (i < rows m)%nat /\ (j < cols m)%nat /\ exists r, at2 m i j = Fin r /\ 0 < r) ->
  exists K out, inst_convol_complete m (uniform w0 d N) (IdwFloat (Fin s)) = Ok out /\ 0 < K /\
    rows out = rows m /\ cols out = cols m /\
    forall i j, (i < rows m)%nat -> (j < cols m)%nat ->
      at2 out i j = Fin (K * rsumn (rows m) (fun p => if in_reach ((N - 1) / 2) i p then val2 m p j * normal (INR i * d) (Rabs s) (INR p * d) else 0)).
Proof. exact inst_kernel. Qed.
Print Assumptions C87_instrument_kernel.

Example C87_example : exists K out, inst_convol_complete (fin2 3 1 (fun i _ => if Nat.eqb i 1 then 1 else 0)) (uniform 6564 1 3) (IdwFloat (Fin 2)) = Ok out /\
  0 < K /\ at2 out 0 0 = Fin (K * normal 0 2 1) /\ at2 out 1 0 = Fin (K * normal 1 2 1) /\ at2 out 2 0 = Fin (K * normal 2 2 1).
Proof. exact ex_kernel. Qed.
