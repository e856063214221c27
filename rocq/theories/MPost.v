(* Model: analysis of the chain (misfit/fit/fit_core.py:921-1110, misfit/general/general_utils.py:200-259,
   misfit/fit/fit2D.py:312-322, 382-387). *)
From Coq Require Import String Reals List Bool Arith ZArith.
From Verif Require Import PyFloat PyBase Arr PyNum MParams MProf.
Import ListNotations.
Local Open Scope R_scope.

(** A kinematic profile (misfit/model/kin_classes.py:97-137): numbers of velocity and dispersion
    parameters, and the two curves for one parameter vector; on columns of parameters numpy
    applies them row by row. *)
Record kprof : Type := mkKprof {
  kp_nv : nat; kp_nd : nat; kp_vel : list fl -> fl -> fl; kp_sig : list fl -> fl -> fl
}.
(** KinProfileFiducial (misfit/model/kin_classes.py:147-157) at z = 0 *)
Definition fiducial : kprof :=
  mkKprof 2 1 (fun th r => vel_arctan th r (Fin 0)) (fun th r => disp_const th r (Fin 0)).

(** What the analysis reads of the fit: absvalsigma, the profile, kinModel.theta / theta_vary /
    theta_names and galaxy.re_mass_arcsec (misfit/fit/fit_core.py:935-1013). *)
Record fitted : Type := mkFitted {
  f_abs : bool; f_prof : kprof; f_theta : list fl; f_vary : list bool; f_names : list string; f_re : fl
}.
(** What it changes: sampler_dict['flatchain'], sampler_dict['chain'], mcmc_results.theta_names.
    misfit/fit/fit_core.py:935-1024. *)
Record chains : Type := mkChains { h_flat : arr2 fl; h_chain : arr3 fl; h_names : list string }.

(** misfit/fit/fit_core.py:939-946: position of each parameter among the free ones. *)
Fixpoint free_inds (vary : list bool) (j : nat) (n : nat) : res (list (option nat)) :=
  match n, vary with
  | O, _ => Ok []
  | S n', b :: vary' =>
      do r <- free_inds vary' (if b then S j else j) n';
      Ok ((if b then Some j else None) :: r)
  | S _, [] => Err IndexError
  end.

(** misfit/fit/fit_core.py:935-953: absolute values of the dispersion column; an index of None is
    np.newaxis, so the assignment then covers the whole array. *)
Definition abs_sigma (f : fitted) (h : chains) : res chains :=
  if f_abs f then
    if Nat.eqb (kp_nd (f_prof f)) 1 then
      do fi <- free_inds (f_vary f) 0 (length (f_theta f));
      do ind <- getn fi (kp_nv (f_prof f));
      match ind with
      | Some j =>
          if Nat.ltb j (cols (h_flat h)) && Nat.ltb j (dim2 (h_chain h)) then
            Ok (mkChains
              (mk2 (rows (h_flat h)) (cols (h_flat h))
                 (fun k c => if Nat.eqb c j then fabs (at2 (h_flat h) k c) else at2 (h_flat h) k c))
              (mk3 (dim0 (h_chain h)) (dim1 (h_chain h)) (dim2 (h_chain h))
                 (fun w k c => if Nat.eqb c j then fabs (at3 (h_chain h) w k c) else at3 (h_chain h) w k c))
              (h_names h))
          else Err IndexError
      | None =>
          Ok (mkChains
            (mk2 (rows (h_flat h)) (cols (h_flat h)) (fun k c => fabs (at2 (h_flat h) k c)))
            (mk3 (dim0 (h_chain h)) (dim1 (h_chain h)) (dim2 (h_chain h)) (fun w k c => fabs (at3 (h_chain h) w k c)))
            (h_names h))
      end
    else Err ValueError
  else Ok h.

(** misfit/fit/fit_core.py:955-971: the rows of theta_chain, one per parameter. *)
Fixpoint theta_chain (theta : list fl) (vary : list bool) (flat : arr2 fl) (i_free : nat) : res (list (nat -> fl)) :=
  match theta, vary with
  | [], _ => Ok []
  | _ :: theta', true :: vary' =>
      if Nat.ltb i_free (cols flat) then
        do r <- theta_chain theta' vary' flat (S i_free);
        Ok ((fun k => at2 flat k i_free) :: r)
      else Err IndexError
  | x :: theta', false :: vary' =>
      do r <- theta_chain theta' vary' flat i_free;
      Ok ((fun _ => x) :: r)
  | _ :: _, [] => Err IndexError
  end.

(** misfit/fit/fit_core.py:998-1003: names of the free parameters. *)
Fixpoint free_names (names : list string) (vary : list bool) : res (list string) :=
  match names, vary with
  | [], _ => Ok []
  | n :: names', b :: vary' => do r <- free_names names' vary'; Ok (if b then n :: r else r)
  | _ :: _, [] => Err IndexError
  end.

(** np.append(flatchain.T, [column], axis=0).T (misfit/fit/fit_core.py:980-990) *)
Definition add_col (a : arr2 fl) (c : nat -> fl) : arr2 fl :=
  mk2 (rows a) (S (cols a)) (fun k j => if Nat.ltb j (cols a) then at2 a k j else c k).

(** misfit/fit/fit_core.py:930-1023 [add_v_re_22].  A parameter vector too short for the velocity
    profile makes it return the scalar inf, whose append is a ValueError; one too short for the
    dispersion profile is an IndexError (misfit/model/kin_classes.py:69-73, 93-94, 125-137).
    theta_names_nice is treated like theta_names and left out. *)
Definition add_v_re_22 (f : fitted) (h0 : chains) : res chains :=
  do h <- abs_sigma f h0;
  let p := f_prof f in
  do tc <- (match f_theta f with [] => Err UnboundLocalError | _ => theta_chain (f_theta f) (f_vary f) (h_flat h) 0 end);
  let vth := fun k => map (fun c : nat -> fl => c k) (firstn (kp_nv p) tc) in
  let sth := fun k => map (fun c : nat -> fl => c k) (firstn (kp_nd p) (skipn (kp_nv p) tc)) in
  let r22 := fmul (Fin (22 / 10 / (1676 / 1000))) (f_re f) in
  do _ <- (if Nat.ltb (length tc) (kp_nv p) then Err ValueError else Ok tt);
  let f1 := add_col (h_flat h) (fun k => kp_vel p (vth k) (f_re f)) in
  let f2 := add_col f1 (fun k => kp_vel p (vth k) r22) in
  do _ <- (if Nat.ltb (length tc) (kp_nv p + kp_nd p) then Err IndexError else Ok tt);
  let f3 := add_col f2 (fun k => kp_sig p (sth k) (f_re f)) in
  let f4 := add_col f3 (fun k => kp_sig p (sth k) r22) in
  do ns <- free_names (f_names f) (f_vary f);
  Ok (mkChains f4 (h_chain h) (ns ++ ["V_RE"; "V_22"; "sigma_RE"; "sigma_22"]%string)).

(** np.sort of values without nan *)
Fixpoint finsert (x : fl) (l : list fl) : list fl :=
  match l with [] => [x] | y :: l' => if fleb x y then x :: l else y :: finsert x l' end.
(** np.sort, used inside np.percentile (misfit/fit/fit_core.py:1031-1032). *)
Definition fsort (l : list fl) : list fl := fold_right finsert [] l.

(** np.percentile(l, q) with its default linear interpolation; nan if any sample is nan. *)
Definition percentile (q : R) (l : list fl) : fl :=
  if existsb isnan l then NaN else
  let s := fsort l in
  let h := q / 100 * INR (length l - 1) in
  let k := Z.to_nat (Int_part h) in
  let lo := lnth s k in
  let hi := lnth s (Nat.min (S k) (length l - 1)) in
  fadd lo (fmul (fsub hi lo) (Fin (h - INR k))).

(** samples[:, j]. misfit/fit/fit_core.py:1038-1043. *)
Definition col (a : arr2 fl) (j : nat) : list fl := map (fun i => at2 a i j) (seq 0 (rows a)).

(** A group of theta_linked_posteriors: 'all' or a list of columns. misfit/fit/fit_core.py:1066-1085. *)
Inductive link : Type := LinkAll | LinkInds (is_ : list nat).

(** scipy: [k_one] is the peak of gaussian_kde of one column started from its histogram peak
    (misfit/fit/fit_core.py:1036-1048, misfit/general/general_utils.py:209-213); np.histogram
    raises ValueError for samples that are not finite, and its max for no samples.  [k_many] is
    find_peak_gaussian_KDE_multiD (general_utils.py:222-231): columns and starting values. *)
Record kde : Type := mkKde {
  k_one : list fl -> res fl;
  k_many : list (list fl) -> list fl -> res (list fl)
}.

(** mcmc_results as set by the analysis; errors are (lower, upper). misfit/fit/fit_core.py:1050-1112. *)
Record post : Type := mkPost {
  p_best : list fl; p_err1 : list (fl * fl); p_err2 : list (fl * fl); p_opp : list fl; p_fit : list fl
}.

(** misfit/fit/fit_core.py:1034-1048: the peak of every column. *)
Fixpoint peaks (K : kde) (cs : list (list fl)) : res (list fl) :=
  match cs with
  | [] => Ok []
  | c :: cs' =>
      do p <- (if Nat.eqb (length c) 0 then Err ValueError
               else if forallb isfinite c then k_one K c else Err ValueError);
      do r <- peaks K cs'; Ok (p :: r)
  end.

(** misfit/fit/fit_core.py:1053-1063: lambda v: (v[0]-v[1], v[2]-v[0]) *)
Definition errors (best : list fl) (lims : list (fl * fl)) : list (fl * fl) :=
  map (fun v => (fsub (fst v) (fst (snd v)), fsub (snd (snd v)) (fst v))) (combine best lims).

(** l[i] = v. misfit/general/general_utils.py:254-257. *)
Definition seti {A} (l : list A) (i : nat) (v : A) : res (list A) :=
  if Nat.ltb i (length l) then Ok (mapi (fun k x => if Nat.eqb k i then v else x) l) else Err IndexError.

(** misfit/general/general_utils.py:254-257: the loop over the linked parameters. *)
Fixpoint link_loop (is_ : list nat) (peak : list fl) (lims : list (fl * fl)) (best : list fl) (err : list (fl * fl))
  : res (list fl * list (fl * fl)) :=
  match is_ with
  | [] => Ok (best, err)
  | i :: is' =>
      match peak with
      | [] => Err IndexError
      | p :: peak' =>
          do best' <- seti best i p;
          do l <- getn lims i;
          do err' <- seti err i (fsub p (fst l), fsub (snd l) p);
          link_loop is' peak' lims best' err'
      end
  end.

(** misfit/general/general_utils.py:236-259 [get_bestfit_values_linked]; non-negative column
    numbers only. *)
Definition linked (K : kde) (flat : arr2 fl) (best : list fl) (err : list (fl * fl)) (lims : list (fl * fl)) (g : link)
  : res (list fl * list (fl * fl)) :=
  let is_ := match g with LinkAll => seq 0 (length best - 4) | LinkInds l => l end in
  if forallb (fun i => Nat.ltb i (cols flat)) is_ then
    do init <- take best is_;
    do peak <- k_many K (map (col flat) is_) init;
    link_loop is_ peak lims best err
  else Err IndexError.

(** misfit/fit/fit_core.py:1072-1089: the groups in turn; the limits used for the 1-sigma errors
    are overwritten by the 2-sigma ones at the end of the first round. *)
Fixpoint link_groups (K : kde) (flat : arr2 fl) (gs : list link) (lims cur : list (fl * fl))
    (best : list fl) (e1 e2 : list (fl * fl)) : res (list fl * list (fl * fl) * list (fl * fl)) :=
  match gs with
  | [] => Ok (best, e1, e2)
  | g :: gs' =>
      do r1 <- linked K flat best e1 cur g;
      do r2 <- linked K flat (fst r1) e2 lims g;
      link_groups K flat gs' lims lims (fst r1) (snd r1) (snd r2)
  end.

(** np.sign *)
Definition fsign (x : fl) : fl :=
  match x with
  | Fin r => if Rltb 0 r then Fin 1 else if Rltb r 0 then Fin (-1) else Fin 0
  | PInf => Fin 1 | NInf => Fin (-1) | NaN => NaN
  end.
(** misfit/fit/fit_core.py:1099-1106 *)
Definition opposite (flat : arr2 fl) (best : list fl) : list fl :=
  mapi (fun j b => fmul (fdiv (Fin (INR (length (where_ (fun x => fltb (fmul (fsign b) x) (Fin 0)) (col flat j)))))
                             (Fin (INR (rows flat)))) (Fin 100)) best.

(** misfit/fit/fit_core.py:1027-1113 [get_param_posterior_bestfits] for a 2-D chain. *)
Definition posterior (K : kde) (links : option (list link)) (vary : list bool) (flat : arr2 fl) : res post :=
  let cs := map (col flat) (seq 0 (cols flat)) in
  let lim1 := map (fun c => (percentile (15865/1000) c, percentile (84135/1000) c)) cs in
  let lim2 := map (fun c => (percentile (2275/1000) c, percentile (97725/1000) c)) cs in
  do best <- peaks K cs;
  let e1 := errors best lim1 in
  let e2 := errors best lim2 in
  do r <- (match links with
           | None => Ok (best, e1, e2)
           | Some gs => link_groups K flat gs lim2 lim1 best e1 e2
           end);
  let b := fst (fst r) in
  Ok (mkPost b (snd (fst r)) (snd r) (opposite flat b) (firstn (n_free_param vary) b)).

(** misfit/fit/fit_core.py:921-927 [get_chain_results] *)
Definition chain_results (K : kde) (links : option (list link)) (f : fitted) (h : chains) : res (chains * post) :=
  do h' <- add_v_re_22 f h;
  do p <- posterior K links (f_vary f) (h_flat h');
  Ok (h', p).
