(* Property theorems: attributes, constructors and saved results. *)
From Coq Require Import String List Bool Arith.
From Verif Require Import PyFloat PyBase MAttr SAttr PAttr PAttr2 PAttrEx.
Import ListNotations.
Local Open Scope string_scope.

(** setAttr keeps the attribute names and sets exactly the existing ones that were given. *)
Theorem C60_setAttr : forall A (d kw : list (string * A)), proper d -> proper kw ->
  map fst (setAttr d kw) = map fst d /\
  forall k v, has (setAttr d kw) k v <-> named d k /\ (has kw k v \/ (~ named kw k /\ has d k v)).
Proof. exact (@setAttr_spec). Qed.
Print Assumptions C60_setAttr.

Example C60_setAttr_example : setAttr [("a", 1); ("b", 2)] [("b", 5); ("c", 7)] = [("a", 1); ("b", 5)].
Proof. exact ex_setAttr. Qed.

(** After a chain of constructors an attribute has the given value if one was given, else the default of the last class that assigns it; nothing else exists. *)
Theorem C60_constructor : forall A (ls : list (list (string * A))) kw, proper kw -> Forall proper ls ->
  proper (construct ls kw) /\
  forall k v, has (construct ls kw) k v <-> (exists l, In l ls /\ named l k) /\ (has kw k v \/ (~ named kw k /\ default_is ls k v)).
Proof. exact (@construct_spec). Qed.
Print Assumptions C60_constructor.

(** A name that no class assigns is silently ignored. *)
Theorem C60_unknown : forall A (ls : list (dict A)) kw k v, (forall l, In l ls -> ~ named l k) ->
  construct ls ((k, v) :: kw) = construct ls kw.
Proof. exact (@construct_unknown). Qed.
Print Assumptions C60_unknown.

Example C60_constructor_example : has ex_gal "z" (Atom 20) /\ has ex_gal "q0" (Atom 7) /\ has ex_gal "dither" (Atom 1) /\
  ~ named (new_galaxy [("deltPA", Atom 40)]) "deltPA" /\ has (new_galaxy [("delt_PA", Atom 40)]) "delt_PA" (Atom 40).
Proof. exact ex_construct. Qed.

(** Saving completely and reloading restores every saved attribute (the galaxy without its image and without the spectrum header) and touches no other attribute and no other file. *)
Theorem C65_roundtrip : forall P d gd sd f fs d2, faithful P -> savable d gd sd -> proper d2 ->
  exists fs' gd' sd', save_bestfit P NoCrash (Some f) d fs = (fs', Ok tt) /\
    (forall g, g <> f -> fs' g = fs g) /\
    exists d', reload_bestfit P (Some f) d2 fs' = (d', Ok tt) /\ proper d' /\
      (forall k v, In k results_attrs -> k <> "galaxy" -> has d' k v <-> has d k v) /\
      (forall k v, ~ In k results_attrs -> has d' k v <-> has d2 k v) /\
      has d' "galaxy" (Obj gd') /\ proper gd' /\ ~ named gd' "pstamp" /\ has gd' "spec2D" (Obj sd') /\
      (forall k v, k <> "pstamp" -> k <> "spec2D" -> has gd' k v <-> has gd k v) /\
      proper sd' /\ ~ named sd' "spec_hdr" /\ (forall k v, k <> "spec_hdr" -> has sd' k v <-> has sd k v).
Proof. exact roundtrip. Qed.
Print Assumptions C65_roundtrip.

(** A failing reload changes nothing. *)
Theorem C65_reload_failure : forall P fn d fs e, snd (reload_bestfit P fn d fs) = Err e -> fst (reload_bestfit P fn d fs) = d.
Proof. exact reload_failure. Qed.
Print Assumptions C65_reload_failure.

(** A failing save changes no file. *)
Theorem C65_save_failure : forall P c fn d fs e,
  snd (save_bestfit P c fn d fs) = Err e -> forall g, fst (save_bestfit P c fn d fs) g = fs g.
Proof. exact save_failure. Qed.
Print Assumptions C65_save_failure.

(** Wherever a save is interrupted, other files are untouched, and the file is the old one, unreadable, or the new one. *)
Theorem C65_crash : forall P c f d fs, faithful P -> detects_truncation P ->
  let fs' := fst (save_bestfit P c (Some f) d fs) in
  (forall g, g <> f -> fs' g = fs g) /\
  (fs' f = fs f \/ (exists e, load P fs' f = Err e) \/ (exists r, make_results d = Ok r /\ load P fs' f = Ok r)).
Proof. exact crash_safe. Qed.
Print Assumptions C65_crash.

(** An interruption after the file was opened and before its last byte makes the file unreadable, whatever it held before. *)
Theorem C65_crash_refuted : forall P n f d gd sd fs, detects_truncation P -> savable d gd sd ->
  (forall r, make_results d = Ok r -> (n < length (dumps P r))%nat) ->
  exists e, load P (fst (save_bestfit P (Written n) (Some f) d fs)) f = Err e.
Proof. exact crash_loses. Qed.
Print Assumptions C65_crash_refuted.

Example C65_example : faithful ex_pickle /\ detects_truncation ex_pickle /\ savable ex_fit ex_gal ex_spec /\
  proper (map (fun k => (k, VNone)) fit2d_attrs).
Proof. exact ex_hypotheses. Qed.

Example C65_crash_example : exists fs, load ex_pickle fs "best.pickle" = Ok (Atom 5) /\
  exists e, load ex_pickle (fst (save_bestfit ex_pickle (Written 3) (Some "best.pickle") ex_fit fs)) "best.pickle" = Err e.
Proof. exact ex_unsaved. Qed.

(** Every parameter that Galaxy documents, except deltPA, is honoured. *)
Theorem C99_galaxy : forall kw k v, proper kw -> In k galaxy_documented -> k <> "deltPA" -> has kw k v ->
  proper (new_galaxy kw) /\ forall w, has (new_galaxy kw) k w <-> w = v.
Proof. exact galaxy_honoured. Qed.
Print Assumptions C99_galaxy.

(** Attributes that were not given have the documented default. *)
Theorem C99_galaxy_default : forall kw k v, proper kw -> ~ named kw k -> has galaxy_attrs k v -> has (new_galaxy kw) k v.
Proof. exact galaxy_default. Qed.
Print Assumptions C99_galaxy_default.

(** The documented deltPA is ignored. *)
Theorem C99_galaxy_refuted : forall kw v, new_galaxy (("deltPA", v) :: kw) = new_galaxy kw.
Proof. exact galaxy_deltPA_ignored. Qed.
Print Assumptions C99_galaxy_refuted.

(** Attributes of FitEmissionLines2D are set from the keywords. *)
Theorem C99_fit : forall (defaults kw : list (string * val)) k v,
  map fst defaults = fit2d_attrs -> proper kw -> In k fit2d_attrs -> has kw k v ->
  forall w, has (construct [defaults] kw) k w <-> w = v.
Proof. exact fit2d_honoured. Qed.
Print Assumptions C99_fit.

(** Six documented parameters of FitEmissionLines2D are ignored. *)
Theorem C99_fit_refuted : forall (defaults kw : list (string * val)) k v, map fst defaults = fit2d_attrs ->
  In k ["flux_arr"; "z"; "vel_disp"; "trim_restwave_range"; "trim_wave_paramfile"; "del_obs_lam"] ->
  In k fit2d_documented /\ construct [defaults] ((k, v) :: kw) = construct [defaults] kw.
Proof. exact fit2d_ignored. Qed.
Print Assumptions C99_fit_refuted.

(** After reloading saved results, saving again fails whatever the file name, and writes nothing. *)
Theorem C100_resave_refuted : forall P d gd sd f fs d2 c fn, faithful P -> savable d gd sd -> proper d2 ->
  let fs' := fst (save_bestfit P NoCrash (Some f) d fs) in
  let d' := fst (reload_bestfit P (Some f) d2 fs') in
  save_bestfit P c fn d' fs' = (fs', Err AttributeError).
Proof. exact resave_fails. Qed.
Print Assumptions C100_resave_refuted.

Example C100_example : faithful ex_pickle /\ detects_truncation ex_pickle /\ savable ex_fit ex_gal ex_spec /\
  proper (map (fun k => (k, VNone)) fit2d_attrs).
Proof. exact ex_hypotheses. Qed.
