(* Model: the Gaussian fit of the light across the slit, one row at a time
   (misfit/model/kin_functions.py:528-548). *)
From Coq Require Import Reals List Bool Arith.
From Verif Require Import PyFloat PyBase Arr PyNum MParams MKernels MAper2D MYprof.
Import ListNotations.
Local Open Scope R_scope.

(** The values of the lmfit parameters mu, A and FWHM (misfit/model/kin_functions.py:529-532). The only limit is FWHM >= 0. *)
Record fprm : Type := mkF { f_mu : fl; f_A : fl; f_FWHM : fl }.

(** misfit/model/kin_functions.py:541-548 [gaus_residual_FWHM]. Arrays of one length; max() of an empty array raises. *)
Definition gaus_residual_FWHM (q : fprm) (xs ys : list fl) (y_err : option (list fl)) : res (list fl) :=
  do err <- (match y_err with
             | None => do m <- np_max ys; Ok (repeat (fmul (Fin (1/100)) m) (length ys))
             | Some e => Ok e
             end);
  let model := map (fun x => fmul (f_A q) (gaus_from_fwhm x (f_FWHM q) (f_mu q))) xs in
  Ok (resid3 model ys err).

(** lmfit.minimize(residual, params).params (misfit/model/kin_functions.py:534): any function of the residual function
    and the starting values. *)
Definition fopt : Type := (fprm -> res (list fl)) -> fprm -> res fprm.

(** misfit/model/kin_functions.py:528-538 [lmfit_gaussian]: (A, mu, FWHM). The starting width is not below its limit 0
    because the largest position is not below the smallest. *)
Definition lmfit_gaussian (opt : fopt) (xs ys : list fl) (y_err : option (list fl)) : res (fl * fl * fl) :=
  do m <- np_max ys;
  do x0 <- getn xs (argmax_ (length ys - 1) (lnth ys));
  do hi <- np_max xs;
  do lo <- np_min xs;
  let start := mkF x0 m (fdiv (fsub hi lo) (Fin 10)) in
  do q <- opt (fun q => gaus_residual_FWHM q xs ys y_err) start;
  Ok (f_A q, f_mu q, f_FWHM q).
