(* Model: attribute dictionaries (setAttr and constructors), the pruned results object, and saving
   and reloading results through a file. *)
From Coq Require Import String List Bool Arith.
From Verif Require Import PyFloat PyBase.
Import ListNotations.
Local Open Scope string_scope.

(** An attribute dictionary (self.__dict__): names in insertion order, each once.
    Read by every setAttr, e.g. misfit/galaxy.py:55-57. *)
Definition dict (A : Type) : Type := list (string * A).

(** d.get(k) / d[k]: used by every setAttr, e.g. misfit/galaxy.py:55-57. *)
Fixpoint dget {A} (d : dict A) (k : string) : option A :=
  match d with
  | [] => None
  | (k', v) :: d => if String.eqb k k' then Some v else dget d k
  end.

(** d.keys(), misfit/galaxy.py:57. *)
Definition keys {A} (d : dict A) : list string := map fst d.

(** d[k] = v: replaced in place, or appended. setattr(self, k, v), e.g. misfit/fit/fit2D.py:415-417. *)
Fixpoint dset {A} (d : dict A) (k : string) (v : A) : dict A :=
  match d with
  | [] => [(k, v)]
  | (k', v') :: d => if String.eqb k k' then (k', v) :: d else (k', v') :: dset d k v
  end.

(** d.update(e), and dict(list of pairs) as an update of the empty dictionary. E.g. misfit/galaxy.py:57. *)
Definition dupdate {A} (d e : dict A) : dict A := fold_left (fun d kv => dset d (fst kv) (snd kv)) e d.

(** del d[k]; KeyError here, AttributeError for del obj.k. misfit/fit/fit_core.py:832-907. *)
Fixpoint ddel {A} (d : dict A) (k : string) : option (dict A) :=
  match d with
  | [] => None
  | (k', v) :: d => if String.eqb k k' then Some d
                    else match ddel d k with Some d' => Some ((k', v) :: d') | None => None end
  end.

(** key in d. E.g. misfit/galaxy.py:57. *)
Definition dmem {A} (d : dict A) (k : string) : bool := match dget d k with Some _ => true | None => false end.

(** setAttr, the same text in every class: misfit/galaxy.py:55-57, 291-293, 955-959;
    misfit/instrument.py:29-32, 100-103; misfit/model/kin_classes.py:25-27, 43-45, 113-115, 168-170,
    213-215, 322-324; misfit/model/kin_model.py:47-49, 104-106; misfit/model/aper_model.py:43-45, 560-562;
    misfit/fit/fit_core.py:92-94, 123-125, 1148-1150, 1171-1173; misfit/fit/fit2D.py:209-211;
    misfit/fit/fit1D.py:151-153. *)
Definition setAttr {A} (d kw : dict A) : dict A :=
  dupdate d (dupdate [] (filter (fun kv => dmem d (fst kv)) kw)).

(** A chain of constructors: each class assigns its own attributes, then calls setAttr( **kwargs).
    misfit/galaxy.py:33-53 and 179-225 (Galaxy), 279-289, 435-443, 494-507, 584-589, 659-728 (spectra),
    misfit/instrument.py:79-98, 113-126; misfit/model/kin_classes.py:329-350. *)
Definition construct {A} (layers : list (dict A)) (kw : dict A) : dict A :=
  fold_left (fun d layer => setAttr (dupdate d layer) kw) layers [].

(** Values of attributes: an opaque value, or an object with attributes.
    (self.__dict__ of the classes of misfit/galaxy.py:33-728 and misfit/fit/fit_core.py:50-135.) *)
Inductive val : Type := Atom (n : nat) | Obj (d : list (string * val)).

(** Python's None. E.g. the defaults in misfit/galaxy.py:33-53. *)
Definition VNone : val := Atom 0.

(** misfit/galaxy.py:33-53: attributes of GalaxyBasic and their defaults (7: the number 0.19, 2: False). *)
Definition galaxy_basic_attrs : dict val :=
  [("z", VNone); ("n", VNone); ("re_arcsec", VNone); ("q", VNone); ("re_mass_arcsec", VNone);
   ("q_mass", VNone); ("q0", Atom 7); ("delt_PA", VNone); ("generate_model", Atom 2); ("spec2D", VNone)].

(** misfit/galaxy.py:181-223: attributes assigned by Galaxy (1: True). *)
Definition galaxy_attrs : dict val :=
  [("field", VNone); ("maskname", VNone); ("ID", VNone); ("RA", VNone); ("DEC", VNone); ("z", VNone);
   ("Av", VNone); ("lmass", VNone); ("lage", VNone); ("ltau", VNone); ("lsfr", VNone); ("Av_neb", VNone);
   ("sersicRA", VNone); ("sersicDEC", VNone); ("n", VNone); ("re_arcsec", VNone); ("sersicPA", VNone);
   ("q", VNone); ("re_mass_arcsec", VNone); ("q_mass", VNone); ("q0", Atom 7); ("delt_PA", VNone);
   ("spec1D", VNone); ("spec2D", VNone); ("pstamp", VNone); ("dither", Atom 1); ("debug", Atom 2)].

(** misfit/galaxy.py:179-225 [Galaxy( **kwargs)]. *)
Definition new_galaxy (kw : dict val) : dict val := construct [galaxy_basic_attrs; galaxy_attrs] kw.

(** misfit/galaxy.py:75-158: the parameters that Galaxy's documentation lists. *)
Definition galaxy_documented : list string :=
  ["field"; "maskname"; "ID"; "RA"; "DEC"; "z"; "Av"; "lmass"; "lage"; "ltau"; "lsfr"; "Av_neb"; "sersicRA";
   "sersicDEC"; "n"; "re_arcsec"; "sersicPA"; "q"; "re_mass_arcsec"; "q_mass"; "q0"; "deltPA"; "spec1D";
   "spec2D"; "pstamp"; "dither"; "debug"].

(** misfit/fit/fit2D.py:142-202: attributes of FitEmissionLines2D when setAttr runs. *)
Definition fit2d_attrs : list string :=
  ["galaxy"; "instrument"; "instrument_img"; "linegroup_name"; "linenames_arr"; "restwave_arr"; "flux_ratio_arr";
   "kinProfile"; "intensityProfile"; "kinModelOptions"; "thetaPrior"; "thetaSettings"; "mcmcOptions";
   "theta_linked_posteriors"; "mcmc_results"; "kinModel"; "sampler_dict"; "skip_fit_prep_calcs"; "usetex"].

(** misfit/fit/fit2D.py:55-114: the parameters that FitEmissionLines2D's documentation lists. *)
Definition fit2d_documented : list string :=
  ["galaxy"; "instrument"; "instrument_img"; "flux_arr"; "z"; "vel_disp"; "kinProfile"; "intensityProfile";
   "linegroup_name"; "linenames_arr"; "restwave_arr"; "flux_ratio_arr"; "trim_restwave_range";
   "trim_wave_paramfile"; "del_obs_lam"].

(** misfit/fit/fit_core.py:55-88: attributes of FitEmissionLines2DResults. *)
Definition results_attrs : list string :=
  ["galaxy"; "instrument"; "instrument_img"; "linegroup_name"; "linenames_arr"; "restwave_arr"; "flux_ratio_arr";
   "kinProfile"; "intensityProfile"; "kinModelOptions"; "thetaPrior"; "thetaSettings"; "mcmcOptions";
   "theta_linked_posteriors"; "mcmc_results"].

(** The attribute of an object value; None has none. E.g. misfit/fit/fit_core.py:832-907. *)
Definition getattr (v : val) (k : string) : res val :=
  match v with
  | Obj d => match dget d k with Some w => Ok w | None => Err AttributeError end
  | Atom _ => Err AttributeError
  end.

(** [v is None]. E.g. misfit/fit/fit2D.py:397-401. *)
Definition is_none (v : val) : bool := match v with Atom 0 => true | _ => false end.

(** misfit/fit/fit2D.py:415-417: the copying loop over the keys of the results object.  Values are
    immutable here, so copy.deepcopy is the value itself. *)
Fixpoint copy_keys (d : dict val) (ks : list string) : res (dict val) :=
  match ks with
  | [] => Ok []
  | k :: ks => match dget d k with
               | None => Err KeyError
               | Some v => do r <- copy_keys d ks; Ok ((k, v) :: r)
               end
  end.

(** misfit/fit/fit2D.py:404-427 [make_pruned_fitEmis2D_result_class].  The results object is built
    with copies of galaxy and instrument first (None has no copy method); building it reads n,
    re_arcsec and q0 of the galaxy (misfit/fit/fit_core.py:71). *)
Definition make_results (d : dict val) : res val :=
  match dget d "galaxy", dget d "instrument", dget d "instrument_img" with
  | Some g, Some i, Some _ =>
      if is_none g || is_none i then Err AttributeError else
      do n <- getattr g "n"; do re <- getattr g "re_arcsec"; do q0 <- getattr g "q0";
      do r <- copy_keys d results_attrs;
      match g with
      | Atom _ => Err AttributeError
      | Obj gd =>
          match ddel gd "pstamp" with
          | None => Err AttributeError
          | Some gd1 =>
              match dget gd1 "spec2D" with
              | None => Err AttributeError
              | Some (Atom _) => Err AttributeError
              | Some (Obj sd) =>
                  let gd2 := match ddel sd "spec_hdr" with
                             | Some sd' => dset gd1 "spec2D" (Obj sd')
                             | None => gd1
                             end in
                  Ok (Obj (dset r "galaxy" (Obj gd2)))
              end
          end
      end
  | _, _, _ => Err AttributeError
  end.

(** pickle: the bytes of a value, and reading bytes back (an exception when they are not a whole pickle).
    misfit/fit/fit2D.py:401, 447 and misfit/fit/fit_io.py:100-106. *)
Record pickle : Type := mkPickle { dumps : val -> list nat; loads : list nat -> res val }.

(** Files by name. The files opened in misfit/fit/fit2D.py:401, 447 and misfit/fit/fit_io.py:100-106. *)
Definition files : Type := string -> option (list nat).
(** The file system after writing [b] to [f]. misfit/fit/fit_io.py:104-106. *)
Definition fwrite (fs : files) (f : string) (b : list nat) : files :=
  fun g => if String.eqb g f then Some b else fs g.

(** Where a save stops: not at all, before the file is opened, or with the first n bytes on disk
    (opening with "wb" truncates the file). misfit/fit/fit2D.py:401. *)
Inductive crash : Type := NoCrash | BeforeOpen | Written (n : nat).

(** misfit/fit/fit2D.py:401 and misfit/fit/fit_io.py:104-106 [dumppickle]. *)
Definition dump (P : pickle) (c : crash) (fs : files) (f : string) (v : val) : files :=
  match c with
  | NoCrash => fwrite fs f (dumps P v)
  | BeforeOpen => fs
  | Written n => fwrite fs f (firstn n (dumps P v))
  end.

(** misfit/fit/fit_io.py:100-102 [loadpickle] *)
Definition load (P : pickle) (fs : files) (f : string) : res val :=
  match fs f with None => Err OSError | Some b => loads P b end.

(** misfit/fit/fit2D.py:389-401 [save_bestfit_model]; the file name is mcmcOptions.filename_bestfit_model. *)
Definition save_bestfit (P : pickle) (c : crash) (fname : option string) (d : dict val) (fs : files) : files * res unit :=
  match make_results d with
  | Err e => (fs, Err e)
  | Ok r => match fname with
            | None => (fs, Ok tt)
            | Some f => (dump P c fs f r, Ok tt)
            end
  end.

(** misfit/fit/fit2D.py:436-449 [reload_bestfit_model]; an object without __dict__ is not modelled
    (AttributeError). *)
Definition reload_bestfit (P : pickle) (fname : option string) (d : dict val) (fs : files) : dict val * res unit :=
  match fname with
  | None => (d, Ok tt)
  | Some f => match load P fs f with
              | Err e => (d, Err e)
              | Ok (Obj r) => (dupdate d r, Ok tt)
              | Ok (Atom _) => (d, Err AttributeError)
              end
  end.
