(* Model: parameter vectors, prior, posterior gate and walker initialisation. *)
From Coq Require Import Reals List Bool Arith.
From Verif Require Import PyFloat PyBase.
Import ListNotations.

(** misfit/model/kin_functions.py:27-28 [_between]: chained comparison, closed bounds. *)
Definition between (b : fl * fl) (v : fl) : bool := fleb (fst b) v && fleb v (snd b).

(** misfit/model/kin_classes.py:286-293, the loop of [ThetaPriorFlat.log_prior] building
    [statements]; [is] is the remaining part of range(len(self.theta)), [i_free] the running
    index into theta_fitting.  Every statement is built before any is tested. *)
Fixpoint prior_loop (is : list nat) (i_free : nat) (vary : list bool)
         (bounds : list (fl * fl)) (tf : list fl) : res (list bool) :=
  match is with
  | [] => Ok []
  | i :: is' =>
      do v <- getn vary i;
      if v then
        do b <- getn bounds i;
        do x <- getn tf i_free;
        do r <- prior_loop is' (S i_free) vary bounds tf;
        Ok (between b x :: r)
      else prior_loop is' i_free vary bounds tf
  end.

(** misfit/model/kin_classes.py:286-300 [ThetaPriorFlat.log_prior]; only the length of
    [self.theta] is read. np.array([]).all() is True. *)
Definition log_prior (theta : list fl) (vary : list bool) (bounds : list (fl * fl))
           (tf : list fl) : res fl :=
  do st <- prior_loop (seq 0 (length theta)) 0 vary bounds tf;
  Ok (if forallb (fun s => s) st then Fin 0 else NInf).

(** misfit/model/kin_model.py:126-134 [KinModel2D.update_parameters].  [is] is the remaining
    range; returns the mutated array together with the outcome, since a failing read of
    theta_fitting[j] leaves earlier assignments in place. *)
Fixpoint update_loop (is : list nat) (j : nat) (vary : list bool) (tf : list fl)
         (theta : list fl) : list fl * res unit :=
  match is with
  | [] => (theta, Ok tt)
  | i :: is' =>
      match getn vary i with
      | Err e => (theta, Err e)
      | Ok false => update_loop is' j vary tf theta
      | Ok true =>
          match getn tf j with
          | Err e => (theta, Err e)
          | Ok x => update_loop is' (S j) vary tf
                      (mapi (fun k y => if Nat.eqb k i then x else y) theta)
          end
      end
  end.

(** misfit/model/kin_model.py:126-135: the whole loop, from the first parameter. *)
Definition update_parameters (theta : list fl) (vary : list bool) (tf : list fl)
  : list fl * res unit :=
  update_loop (seq 0 (length theta)) 0 vary tf theta.

(** misfit/fit/fit_core.py:138-147 [initialize_fitting_theta]. *)
Fixpoint init_fit_loop (is : list nat) (theta : list fl) (vary : list bool)
  : res (list fl) :=
  match is with
  | [] => Ok []
  | i :: is' =>
      do v <- getn vary i;
      if v then
        do x <- getn theta i;
        do r <- init_fit_loop is' theta vary;
        Ok (x :: r)
      else init_fit_loop is' theta vary
  end.

(** misfit/fit/fit_core.py:138-147: the whole loop. *)
Definition initialize_fitting_theta (theta : list fl) (vary : list bool) : res (list fl) :=
  init_fit_loop (seq 0 (length theta)) theta vary.

(** misfit/model/kin_model.py:116-118: n_free_param = len(np.where(theta_vary)[0]). *)
Definition n_free_param (vary : list bool) : nat := length (where_ (fun b => b) vary).

(** misfit/general/general_utils.py:188-197 [range_arrs]: (param_range, param_lower);
    loops over range(len(theta_names)), reads kinModel.theta_vary and
    thetaPrior.theta_bounds; a bound is a pair. *)
Fixpoint range_loop (js : list nat) (vary : list bool) (bounds : list (fl * fl))
  : res (list fl * list fl) :=
  match js with
  | [] => Ok ([], [])
  | j :: js' =>
      do v <- getn vary j;
      if v then
        do b <- getn bounds j;
        do r <- range_loop js' vary bounds;
        Ok (fsub (pymax2 (fst b) (snd b)) (pymin2 (fst b) (snd b)) :: fst r,
            pymin2 (fst b) (snd b) :: snd r)
      else range_loop js' vary bounds
  end.

(** misfit/general/general_utils.py:188-197: the whole loop. *)
Definition range_arrs (nnames : nat) (vary : list bool) (bounds : list (fl * fl)) :=
  range_loop (seq 0 nnames) vary bounds.

(** numpy element-wise operation on two 1-D arrays with broadcasting of length 1. *)
Definition np_zip (f : fl -> fl -> fl) (a b : list fl) : res (list fl) :=
  if Nat.eqb (length a) (length b) then Ok (map (fun p => f (fst p) (snd p)) (combine a b))
  else match a, b with
       | [x], _ => Ok (map (f x) b)
       | _, [y] => Ok (map (fun x => f x y) a)
       | _, _ => Err ValueError
       end.

(** misfit/fit/fit_core.py:909-917 [init_walker_pos].  [draws] holds, per walker, the vector
    np.random.random_sample(ndim). *)
Fixpoint walker_list (draws : list (list fl)) (rng low : list fl) : res (list (list fl)) :=
  match draws with
  | [] => Ok []
  | u :: ds =>
      do p <- np_zip fmul u rng;
      do q <- np_zip fadd p low;
      do r <- walker_list ds rng low;
      Ok (q :: r)
  end.

(** misfit/fit/fit_core.py:909-917: the ranges, then the walkers. *)
Definition init_walker_pos (nnames : nat) (vary : list bool) (bounds : list (fl * fl))
           (draws : list (list fl)) : res (list (list fl)) :=
  do rl <- range_arrs nnames vary bounds;
  walker_list draws (fst rl) (snd rl).

(** misfit/fit/fit_core.py:150-183 [lnprob] with [lnlike] inlined.  The model object is an
    abstract state [S]; [like s tf] is fitEmis2D.update_model followed by model_llike and
    returns the new state and the value (or the exception raised). *)
Definition lnprob {S : Type} (prior : list fl -> res fl)
           (like : S -> list fl -> S * res fl) (s : S) (tf : list fl) : S * res fl :=
  match prior tf with
  | Err e => (s, Err e)
  | Ok p =>
      if negb (isfinite p) then (s, Ok NInf)
      else
        let (s', l) := like s tf in
        match l with
        | Err e => (s', Err e)
        | Ok lv =>
            let q := fadd p lv in
            (s', Ok (if negb (isfinite q) then NInf else q))
        end
  end.
