(* Model: several KinModel2D objects in one program, with the objects they share; set-up of a fit,
   the pruned copy handed to the sampler, and several fits in one program. *)
From Coq Require Import String Reals List Bool Arith ZArith.
From Verif Require Import PyFloat PyBase Arr PyNum MParams MKernels MAper2D MProf MPost MAttr.
Import ListNotations.
Local Open Scope nat_scope.

(** One call KinModel2D(galaxy, thetaSettings, kinProfile, intensityProfile, ...) in a program
    (misfit/model/kin_model.py:63-102), with the instrument that make_model is later given.  [d_theta],
    [d_int], [d_kin] and [d_ins] say which theta array, intensity profile, kinematic profile and
    instrument object it is given: equal numbers are the same Python object, as for two calls that
    rely on the default arguments.  [d_cfg] holds the galaxy, instrument, options and profile functions;
    its p_int is the intensity profile set to this model's own galaxy. *)
Record decl : Type := mkDecl
  { d_cfg : cfg; d_vary : list bool; d_noscale : bool; d_theta : nat; d_int : nat; d_kin : nat; d_ins : nat }.

(** The mutable objects of the program: theta arrays, intensity profiles (as functions of the position for
    their current n, re_arcsec and q0), the parameter slices of kinematic profiles, the _conv_stamp of instruments,
    and the KinModel2D objects.  In a stored [kinmodel] the fields k_theta, k_stamp, a_stamp, a_vel and a_disp
    are copies made when the object was last used: they are refreshed by [load] before every use.
    misfit/model/kin_model.py:63-124. *)
Record world : Type := mkWorld
  { w_theta : nat -> list fl; w_int : nat -> fl -> fl -> fl; w_kin : nat -> list fl * list fl;
    w_stamp : nat -> stamp; w_km : nat -> option kinmodel }.

(** Assignment to one of many objects. self.x = v on one of the objects of misfit/model/kin_model.py:63-208. *)
Definition upd {A} (f : nat -> A) (n : nat) (v : A) : nat -> A := fun m => if Nat.eqb m n then v else f m.

(** The stamp held by the shared instrument, misfit/instrument.py set_conv_stamp. *)
Definition set_stamp st a := mkaper (a_su a) (a_theta a) (a_vel a) (a_disp a) (a_wv a) (a_dvel a) (a_idw a) (a_cube a) (a_conv a) (a_out a) (a_model a) st.

(** Configuration with another intensity profile (misfit/model/kin_model.py:80, 172). *)
Definition with_int (c : cfg) (f : fl -> fl -> fl) : cfg :=
  let p := c_prof c in
  mkcfg (c_gal c) (c_ins c) (c_opt c) (mkprofs (p_nvel p) (p_ndisp p) (p_vel p) (p_disp p) f (p_lmfit p)).

(** What object [i] sees through its references. misfit/model/kin_model.py:160-208. *)
Definition load (d : decl) (w : world) (k : kinmodel) : kinmodel :=
  mkkm (w_theta w (d_theta d)) (k_vary k) (k_noscale k)
    (option_map (fun a => set_stamp (w_stamp w (d_ins d))
                            (set_prof (fst (w_kin w (d_kin d))) (snd (w_kin w (d_kin d))) a)) (k_aper k))
    (k_model k) (w_stamp w (d_ins d)).

(** The current configuration of object [i]: its intensity profile is the shared one.
    misfit/model/kin_model.py:80, 86. *)
Definition cfg_of (d : decl) (w : world) : cfg := with_int (d_cfg d) (w_int w (d_int d)).

(** kinProfile.update_theta, misfit/model/kin_classes.py:125-137. *)
Definition slices (d : decl) (th : list fl) : list fl * list fl :=
  let p := c_prof (d_cfg d) in (firstn (p_nvel p) th, firstn (p_ndisp p) (skipn (p_nvel p) th)).

(** Effect of a call on the shared objects.  Simplified: after a construction of the aperture model that
    failed the kinematic profile is recorded with the plain slices of theta.
    misfit/model/kin_model.py:160-208. *)
Definition store (d : decl) (i : nat) (w : world) (k : kinmodel) : world :=
  mkWorld (upd (w_theta w) (d_theta d) (k_theta k)) (w_int w)
    (upd (w_kin w) (d_kin d) (match k_aper k with Some a => (a_vel a, a_disp a) | None => slices d (k_theta k) end))
    (upd (w_stamp w) (d_ins d) (k_stamp k)) (upd (w_km w) i (Some k)).

(** The calls a program makes on its KinModel2D objects. misfit/model/kin_model.py:63, 160, 200. *)
Inductive op : Type := New (i : nat) | Make (i : nat) (tf : list fl) | Update (i : nat) (tf : list fl).
(** The object a call is about. Helper, not code. *)
Definition target (o : op) : nat := match o with New i | Make i _ | Update i _ => i end.

(** One call.  [New]: misfit/model/kin_model.py:63-124 (theta is the array of thetaSettings, not a copy, line 72;
    kinProfile.update_theta and intensityProfile.update_values act on the given profile objects, lines 85-86);
    [Make], [Update]: misfit/model/kin_model.py:160-208.  A call on an object that does not exist is a NameError. *)
Definition step (D : nat -> decl) (w : world) (o : op) : world * res unit :=
  match o with
  | New i =>
      let d := D i in
      let th := w_theta w (d_theta d) in
      (mkWorld (w_theta w) (upd (w_int w) (d_int d) (p_int (c_prof (d_cfg d))))
         (upd (w_kin w) (d_kin d) (slices d th)) (w_stamp w)
         (upd (w_km w) i (Some (mkkm th (d_vary d) (d_noscale d) None None (w_stamp w (d_ins d))))), Ok tt)
  | Make i tf =>
      match w_km w i with
      | None => (w, Err NameError)
      | Some k => let (k', r) := km_make (cfg_of (D i) w) tf (load (D i) w k) in (store (D i) i w k', r)
      end
  | Update i tf =>
      match w_km w i with
      | None => (w, Err NameError)
      | Some k => let (k', r) := km_update (cfg_of (D i) w) tf (load (D i) w k) in (store (D i) i w k', r)
      end
  end.

(** kinModel.model of object [i]. misfit/model/kin_model.py:93, 160-208. *)
Definition image (w : world) (i : nat) : option (arr2 fl) :=
  match w_km w i with Some k => k_model k | None => None end.

(** A whole program: the final state. Helper, not code: a user program. *)
Definition run_ops (D : nat -> decl) (ops : list op) (w : world) : world := fold_left (fun w o => fst (step D w o)) ops w.

(** What the user of object [i] sees: outcome and image after each of their calls.
    Helper, not code: a user program. *)
Fixpoint observed (D : nat -> decl) (i : nat) (ops : list op) (w : world) : list (res unit * option (arr2 fl)) :=
  match ops with
  | [] => []
  | o :: ops =>
      let (w', r) := step D w o in
      if Nat.eqb (target o) i then (r, image w' i) :: observed D i ops w' else observed D i ops w'
  end.

(** misfit/model/kin_classes.py:165-184, 217-245: the fiducial intensity profile for a galaxy's n,
    re_arcsec and q0.  Simplified: the ZeroDivisionError for n = 0 is a nan. *)
Definition fiducial_int (n re q0 : fl) : fl -> fl -> fl :=
  fun r z => match int_fiducial (Fin 1) n re q0 r z with Ok v => v | Err _ => NaN end.

(* ---- a fit ---- *)

(** thetaSettings (misfit/model/kin_classes.py:303-320): theta, theta_vary, theta_bounds. *)
Record settings : Type := mkSet { t_theta : list fl; t_vary : list bool; t_bounds : option (list (fl * fl)) }.
(** ThetaPriorFlat (misfit/model/kin_classes.py:273-282). *)
Record prior : Type := mkPrior { pr_theta : list fl; pr_vary : list bool; pr_bounds : option (list (fl * fl)) }.

(** misfit/model/kin_classes.py:285-300 [log_prior]; bounds None cannot be subscripted, and are only
    subscripted for a free parameter. *)
Definition prior_eval (p : prior) (tf : list fl) : res fl :=
  match pr_bounds p with
  | Some b => log_prior (pr_theta p) (pr_vary p) b tf
  | None =>
      if Nat.ltb (length (pr_vary p)) (length (pr_theta p)) then
        (if existsb (fun b => b) (pr_vary p) then Err TypeError else Err IndexError)
      else if existsb (fun b => b) (firstn (length (pr_theta p)) (pr_vary p)) then Err TypeError else Ok (Fin 0)
  end.

(** misfit/fit/fit2D.py:351-360: the prior after setup_model; a prior of another class is not modelled. *)
Definition setup_prior (p : option prior) (s : settings) : prior :=
  let p := match p with None => mkPrior (t_theta s) (t_vary s) (t_bounds s) | Some p => p end in
  match t_bounds s with None => p | Some b => mkPrior (pr_theta p) (pr_vary p) (Some b) end.

(** FitEmissionLines2D (misfit/fit/fit2D.py:142-204), the part that set-up and sampling use. *)
Record fit : Type := mkFit
  { ft_cfg : cfg; ft_set : settings; ft_prior : option prior; ft_km : option kinmodel; ft_stamp : stamp }.

(** KinModel2D(galaxy, thetaSettings=copy, ...) as made by setup_model and by the pruned copy
    (misfit/fit/fit2D.py:344-348, misfit/fit/fit_core.py:876-880): always scaled to the data. *)
Definition new_km (s : settings) (st : stamp) : kinmodel := mkkm (t_theta s) (t_vary s) false None None st.

(** misfit/fit/fit2D.py:338-373 [setup_model]. *)
Definition setup_model (f : fit) : fit * res unit :=
  let s := ft_set f in
  let k0 := new_km s (ft_stamp f) in
  let p := setup_prior (ft_prior f) s in
  match initialize_fitting_theta (t_theta s) (t_vary s) with
  | Err e => (mkFit (ft_cfg f) s (Some p) (Some k0) (ft_stamp f), Err e)
  | Ok tf => let (k, r) := km_make (ft_cfg f) tf k0 in
             (mkFit (ft_cfg f) s (Some p) (Some k) (k_stamp k), r)
  end.

(** Assigning other thetaSettings before setting up again (misfit/fit/fit2D.py:259-272 [fit( **kwargs)]). *)
Definition set_settings (s : settings) (f : fit) : fit := mkFit (ft_cfg f) s (ft_prior f) (ft_km f) (ft_stamp f).

(** misfit/fit/fit_core.py:150-183 [lnprob] on a fit or on its pruned copy. *)
Definition fit_lnprob (f : fit) (tf : list fl) : fit * res fl :=
  match ft_prior f with
  | None => (f, Err AttributeError)
  | Some p =>
      lnprob (prior_eval p)
        (fun g tf =>
           match ft_km g with
           | None => (g, Err AttributeError)
           | Some k => let (k', r) := km_llike (ft_cfg g) k tf in
                       (mkFit (ft_cfg g) (ft_set g) (ft_prior g) (Some k') (k_stamp k'), r)
           end) f tf
  end.

(** misfit/fit/fit_core.py:866-870: the copied attributes of the galaxy and of galaxy.spec2D that the model reads
    (misfit/galaxy.py:33-53 and misfit/galaxy.py:411-455 with misfit/fit/fit_core.py:837-843 give the keys). *)
Definition prune_gal (g : gal) : gal :=
  mkgal (g_q g) (g_q0 g) (g_dPA g) (g_rows g) (g_wave g) (g_m0 g) (g_rest g) (g_ratio g)
    (mkdata (flux (g_data g)) (ferr (g_data g)) (smask (g_data g)) (fwt (g_data g)) (wh_nosky (g_data g))).

(** misfit/fit/fit_core.py:832-904 [make_pruned_fitEmis2D_class].  Values are immutable here, so a deep copy is
    the value; the original is not part of the result, i.e. copies share nothing with it. *)
Definition prune (f : fit) : res fit :=
  let c := mkcfg (prune_gal (c_gal (ft_cfg f))) (c_ins (ft_cfg f)) (c_opt (ft_cfg f)) (c_prof (ft_cfg f)) in
  let s := ft_set f in
  do tf <- initialize_fitting_theta (t_theta s) (t_vary s);
  let (k, r) := km_make c tf (new_km s (ft_stamp f)) in
  do u <- r;
  Ok (mkFit c s (ft_prior f) (Some k) (k_stamp k)).

(** Calls of lnprob by the sampler, in order, up to the first exception; the values.
    misfit/fit/fit_core.py:168-183. *)
Fixpoint sample (f : fit) (tfs : list (list fl)) : fit * res (list fl) :=
  match tfs with
  | [] => (f, Ok [])
  | tf :: tfs =>
      match fit_lnprob f tf with
      | (f', Err e) => (f', Err e)
      | (f', Ok v) => match sample f' tfs with
                      | (f'', Err e) => (f'', Err e)
                      | (f'', Ok vs) => (f'', Ok (v :: vs))
                      end
      end
  end.

(** Attributes of KinModel2D after construction (misfit/model/kin_model.py:72-118) and make_model. *)
Definition kinmodel_attrs : list string :=
  ["theta"; "theta_vary"; "theta_names"; "theta_names_nice"; "theta_init"; "kinProfile"; "intensityProfile";
   "spec_type"; "do_position_wave_shift"; "do_inst_res_conv_effective"; "no_scale"; "kinModelOptions"; "model";
   "bestfit"; "aperModel"; "debug"; "n_free_param"]%string.
(** Attributes that lnlike reads of kinModel: misfit/model/kin_model.py:126-134, 141-157, 193-208 and _model_llike. *)
Definition kinmodel_reads : list string :=
  ["theta"; "theta_vary"; "n_free_param"; "aperModel"; "model"; "no_scale"]%string.
(** misfit/fit/fit_core.py:896-898: the attributes deleted from the pruned kinModel. *)
Definition kinmodel_deleted : list string :=
  ["kinModelOptions"; "kinProfile"; "intensityProfile"; "bestfit"; "theta_names_nice"; "theta_names";
   "theta_init"; "do_position_wave_shift"]%string.
(** misfit/fit/fit_core.py:900-901: deleting them, KeyError if one is absent. *)
Fixpoint del_keys {A} (d : dict A) (ks : list string) : res (dict A) :=
  match ks with
  | [] => Ok d
  | k :: ks => match ddel d k with None => Err KeyError | Some d' => del_keys d' ks end
  end.

(* ---- several fits in one program ---- *)

(** A FitEmissionLines2D object in a program: its KinModel2D with references, the mcmc_results object it was
    given (misfit/fit/fit2D.py:142-155: by default one object for all fits), and what the analysis reads. *)
Record fdecl : Type := mkFdecl
  { fd_km : decl; fd_res : nat; fd_fitted : list fl -> fitted; fd_links : option (list link) }.
(** The program's state: models, and the contents of the mcmc_results objects. misfit/fit/fit2D.py:142-155. *)
Record fworld : Type := mkFworld { fw_w : world; fw_res : nat -> option post }.

(** Calls on fits: setup_model with thetaSettings.theta (misfit/fit/fit2D.py:338-373), and analyze_results with a
    sampler chain (misfit/fit/fit2D.py:312-322). *)
Inductive fop : Type := FSetup (i : nat) (th : list fl) | FAnalyze (i : nat) (h : chains).
(** The fit a call is about. Helper, not code. *)
Definition ftarget (o : fop) : nat := match o with FSetup i _ | FAnalyze i _ => i end.

(** The fit's models: [fd_km] of every fit. misfit/fit/fit2D.py:338-373. *)
Definition kms (F : nat -> fdecl) : nat -> decl := fun i => fd_km (F i).

(** One call.  [FSetup]: a fresh deep copy of the settings' theta, KinModel2D(...), make_model at the initial values.
    [FAnalyze]: misfit/fit/fit_core.py:921-927 writes the mcmc_results object; then make_model at the best fit
    (misfit/fit/fit2D.py:322, 382-387).  Simplified: an analysis that raises leaves mcmc_results as it was, and
    the kinematic profile, which then holds the chain, is recorded as unchanged (it is set again before it is read). *)
Definition fstep (K : kde) (F : nat -> fdecl) (fw : fworld) (o : fop) : fworld * res unit :=
  match o with
  | FSetup i th =>
      let d := fd_km (F i) in
      let w := fw_w fw in
      let w0 := mkWorld (upd (w_theta w) (d_theta d) th) (w_int w) (w_kin w) (w_stamp w) (w_km w) in
      let w1 := fst (step (kms F) w0 (New i)) in
      match initialize_fitting_theta th (d_vary d) with
      | Err e => (mkFworld w1 (fw_res fw), Err e)
      | Ok tf => let (w2, r) := step (kms F) w1 (Make i tf) in (mkFworld w2 (fw_res fw), r)
      end
  | FAnalyze i h =>
      let d := fd_km (F i) in
      match w_km (fw_w fw) i with
      | None => (fw, Err AttributeError)
      | Some _ =>
          match chain_results K (fd_links (F i)) (fd_fitted (F i) (w_theta (fw_w fw) (d_theta d))) h with
          | Err e => (fw, Err e)
          | Ok (_, p) =>
              let (w', r) := step (kms F) (fw_w fw) (Make i (p_fit p)) in
              (mkFworld w' (upd (fw_res fw) (fd_res (F i)) (Some p)), r)
          end
      end
  end.

(** What the user of fit [i] sees after each of their calls: outcome, results, best-fit image.
    Helper, not code: a user program. *)
Fixpoint fobserved (K : kde) (F : nat -> fdecl) (i : nat) (ops : list fop) (fw : fworld)
  : list (res unit * option post * option (arr2 fl)) :=
  match ops with
  | [] => []
  | o :: ops =>
      let (fw', r) := fstep K F fw o in
      if Nat.eqb (ftarget o) i then (r, fw_res fw' (fd_res (F i)), image (fw_w fw') i) :: fobserved K F i ops fw'
      else fobserved K F i ops fw'
  end.
(** The final state. Helper, not code: a user program. *)
Definition frun (K : kde) (F : nat -> fdecl) (ops : list fop) (fw : fworld) : fworld :=
  fold_left (fun fw o => fst (fstep K F fw o)) ops fw.
