(* Property theorems: voxels with a nan dispersion (C86). *)
From Coq Require Import Reals List Bool Arith.
From Verif Require Import PyFloat PyBase Arr PyNum MKernels SKernels SLine PNanDisp.
Import ListNotations.
Local Open Scope R_scope.

(** C86: one voxel with a nan dispersion makes the whole cube come out as if every dispersion were zero. *)
Theorem C86_nan : forall I V sigma wave z restwave ratio nWave nZ nY nX dz I4 wref sp i j k,
  (i < dim0 sigma)%nat -> (j < dim1 sigma)%nat -> (k < dim2 sigma)%nat -> at3 sigma i j k = NaN ->
  add_sigma_collapse_z I V sigma wave z restwave ratio nWave nZ nY nX dz I4 wref sp =
  add_sigma_collapse_z I V (mk3 (dim0 sigma) (dim1 sigma) (dim2 sigma) (fun _ _ _ => Fin 0)) wave z restwave ratio nWave nZ nY nX dz I4 wref sp.
Proof. exact nan_as_zero. Qed.
Print Assumptions C86_nan.

(** C86: so a nan dispersion does not show: next to a voxel of 50 km/s it gives a cube of finite numbers. *)
Theorem C86_nan_refuted : exists sigma cube, at3 sigma 0 0 0 = NaN /\ at3 sigma 1 0 0 = Fin 50 /\ dim0 sigma = 2%nat /\ dim1 sigma = 1%nat /\ dim2 sigma = 1%nat /\
  add_sigma_collapse_z (fin3 2 1 1 (fun _ _ _ => 1)) (fin3 2 1 1 (fun _ _ _ => 0)) sigma (map Fin [6564; 6565]) (Fin 0) (map Fin [6565]) (map Fin [1]) 2 2 1 1 (Fin 1)
    (tiled_I 2 2 1 1 (fun _ _ _ => 1)) (tiled_w 2 2 1 1 (fun w => nth w [6564; 6565] 0)) Wave = Ok cube /\
  forall w, (w < 2)%nat -> isfinite (at3 cube w 0 0) = true.
Proof. exact nan_hidden_refuted. Qed.
Print Assumptions C86_nan_refuted.
