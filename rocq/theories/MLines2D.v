(* Model: which lines a 2-D fit models (misfit/fit/fit2D.py:204-256 and misfit/galaxy.py:737-752, 816-847). *)
From Coq Require Import String Reals List Bool.
From Verif Require Import PyFloat PyBase PyNum MIo.
Import ListNotations.
Local Open Scope R_scope.

(** linenames_arr, restwave_arr, flux_ratio_arr of a fit (misfit/fit/fit2D.py:161-164) or of a 2-D spectrum
    (misfit/galaxy.py:709-712). *)
Record lset : Type := mkLset { l_names : option (list string); l_rest : option (list R); l_ratio : option (list R) }.

(** for linename in linenames_arr: arr.append(read(linename)) (misfit/fit/fit2D.py:234-236, 247-249; misfit/galaxy.py:834-836, 844-846). *)
Fixpoint each {A} (read : string -> res A) (ns : list string) : res (list A) :=
  match ns with [] => Ok [] | n :: ns => do a <- read n; do l <- each read ns; Ok (a :: l) end.

(** io.read_line_names(file, name=group) where the group may be None: no row is named None
    (misfit/fit/fit2D.py:223; misfit/galaxy.py:826-827). *)
Definition names_of (t : list (string * string)) (group : option string) : res (list string) :=
  match group with None => Err ValueError | Some g => read_line_names t g end.

(** Attributes of the fit and of galaxy.spec2D. Both are objects: assignments stay when a later step raises
    (misfit/fit/fit2D.py:216-251). *)
Record both : Type := mkBoth { own : lset; spc : lset }.
(** self.linenames_arr = ... (misfit/fit/fit2D.py:223, 226) *)
Definition set_names (v : option (list string)) (l : lset) : lset := mkLset v (l_rest l) (l_ratio l).
(** self.restwave_arr = ... (misfit/fit/fit2D.py:237, 240) *)
Definition set_rest (v : option (list R)) (l : lset) : lset := mkLset (l_names l) v (l_ratio l).
(** self.flux_ratio_arr = ... (misfit/fit/fit2D.py:250, 253) *)
Definition set_ratio (v : option (list R)) (l : lset) : lset := mkLset (l_names l) (l_rest l) v.
(** assignment to an attribute of the fit (misfit/fit/fit2D.py:223-253) *)
Definition on_own (f : lset -> lset) : ST both unit := modS (fun b => mkBoth (f (own b)) (spc b)).
(** assignment to an attribute of galaxy.spec2D (misfit/fit/fit2D.py:224, 238, 251) *)
Definition on_spc (f : lset -> lset) : ST both unit := modS (fun b => mkBoth (own b) (f (spc b))).

(** misfit/fit/fit2D.py:217-226 *)
Definition setup_names (L : lib) (group : option string) : ST both unit :=
  sdo b <- getS;
  match l_names (own b) with
  | Some _ => ret tt
  | None => match l_names (spc b) with
            | None => sdo ns <- liftR (names_of (b_names L) group);
                      sdo _ <- on_own (set_names (Some ns));
                      on_spc (set_names (Some ns))
            | Some ns => on_own (set_names (Some ns))
            end
  end.
(** misfit/fit/fit2D.py:228-240 *)
Definition setup_rest (L : lib) : ST both unit :=
  sdo b <- getS;
  match l_names (own b), l_rest (own b) with
  | Some ns, None =>
      match l_names (spc b), l_rest (spc b) with
      | Some _, None => sdo ws <- liftR (each (read_restwave (b_lines L)) ns);
                        sdo _ <- on_own (set_rest (Some ws));
                        on_spc (set_rest (Some ws))
      | _, w => on_own (set_rest w)
      end
  | _, _ => ret tt
  end.
(** misfit/fit/fit2D.py:242-253 *)
Definition setup_ratio (L : lib) : ST both unit :=
  sdo b <- getS;
  match l_names (own b), l_ratio (own b) with
  | Some ns, None =>
      match l_names (spc b), l_ratio (spc b) with
      | Some _, None => sdo ws <- liftR (each (read_line_ratio (b_lines L)) ns);
                        sdo _ <- on_own (set_ratio (Some ws));
                        on_spc (set_ratio (Some ws))
      | _, w => on_own (set_ratio w)
      end
  | _, _ => ret tt
  end.

(** What galaxy.spec2D brings: linegroup_name, the tables its parameter file names point to (the shipped ones by
    default), and whether it was prepared before (misfit/galaxy.py:690, 709, 721-722). *)
Record spset : Type := mkSpset { sp_group : option string; sp_names : list (string * string); sp_lines : list (string * (R * R)); sp_done : bool }.

(** misfit/galaxy.py:816-847 [initialize_lineset] *)
Definition initialize_lineset (p : spset) : ST both unit :=
  sdo b <- getS;
  sdo _ <- match l_names (spc b) with
           | Some _ => ret tt
           | None => sdo ns <- liftR (names_of (sp_names p) (sp_group p)); on_spc (set_names (Some ns))
           end;
  sdo b <- getS;
  sdo _ <- match l_names (spc b), l_rest (spc b) with
           | Some ns, None => sdo ws <- liftR (each (read_restwave (sp_lines p)) ns); on_spc (set_rest (Some ws))
           | _, _ => ret tt
           end;
  sdo b <- getS;
  match l_names (spc b), l_ratio (spc b) with
  | Some ns, None => sdo ws <- liftR (each (read_line_ratio (sp_lines p)) ns); on_spc (set_ratio (Some ws))
  | _, _ => ret tt
  end.

(** misfit/fit/fit2D.py:204-256 [setup], run by the constructor, up to the line set of the preparation it starts; the rest of
    fit_prep_calcs (misfit/galaxy.py:752-804) does not touch the line arrays and is left out. *)
Definition setup_fit (L : lib) (group : option string) (skip : bool) (p : spset) : ST both unit :=
  sdo _ <- setup_names L group;
  sdo _ <- setup_rest L;
  sdo _ <- setup_ratio L;
  if skip || sp_done p then ret tt else initialize_lineset p.

(** The lines AperModel2D adds up, brightest first: it reads galaxy.spec2D (misfit/model/aper_model.py:719, 824-826). *)
Definition modelled (b : both) : option (list R) * option (list R) := (l_rest (spc b), l_ratio (spc b)).
