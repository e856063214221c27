(* Property theorems: analysis of the chain (C50-C54, C82). *)
From Coq Require Import String Reals List Bool Arith ZArith Sorted Permutation.
From Verif Require Import PyFloat PyBase Arr PyNum MParams SParams MProf MPost SPost PPost PPost2 PPost3 PPostEx.
Import ListNotations.
Local Open Scope R_scope.

(** C50: four columns are appended, computed row by row from the completed parameters; the columns
    before are unchanged, and the names match. *)
Theorem C50_columns : forall f h h', add_v_re_22 f h = Ok h' -> f_abs f = false -> derived f h h' /\
  (length (f_names f) = length (f_vary f) -> cols (h_flat h) = nfree (f_vary f) -> length (h_names h') = cols (h_flat h')).
Proof. exact derived_columns. Qed.
Print Assumptions C50_columns.

(** C50: the derivation succeeds for a chain with a column for every free parameter. *)
Theorem C50_succeeds : forall f h, length (f_vary f) = length (f_theta f) -> length (f_names f) = length (f_theta f) ->
  (kp_nv (f_prof f) + kp_nd (f_prof f) <= length (f_theta f))%nat -> (0 < length (f_theta f))%nat ->
  (nfree (f_vary f) <= cols (h_flat h))%nat -> f_abs f = false -> exists h', add_v_re_22 f h = Ok h'.
Proof. exact derive_ok. Qed.
Print Assumptions C50_succeeds.

(** C50: for the arctan and constant-dispersion profile. *)
Theorem C50_fiducial : forall f h h' k va rt s re, f_abs f = false -> f_prof f = fiducial -> f_re f = Fin re ->
  add_v_re_22 f h = Ok h' -> 
  forall v, completes (f_vary f) (f_theta f) (row (h_flat h) k) v ->
  nth_error v 0 = Some (Fin va) -> nth_error v 1 = Some (Fin rt) -> nth_error v 2 = Some (Fin s) -> rt <> 0 ->
  let d := cols (h_flat h) in
  at2 (h_flat h') k d = Fin (2 / PI * va * atan (re / rt)) /\
  at2 (h_flat h') k (d + 1) = Fin (2 / PI * va * atan (22/10/(1676/1000) * re / rt)) /\
  at2 (h_flat h') k (d + 2) = Fin s /\ at2 (h_flat h') k (d + 3) = Fin s.
Proof. exact fiducial_columns. Qed.
Print Assumptions C50_fiducial.

Example C50_example : exists h', add_v_re_22 (ex_fit false true) (ex_chain 3) = Ok h' /\ cols (h_flat h') = 7%nat /\
  h_names h' = ["Va"; "rt"; "sigma"; "V_RE"; "V_22"; "sigma_RE"; "sigma_22"]%string /\
  at2 (h_flat h') 0 3 = Fin (2 / PI * -100 * atan (1 / 1)) /\ at2 (h_flat h') 1 5 = Fin (-101).
Proof. exact ex_columns. Qed.

(** C51: with a free dispersion only its column changes, and the derived columns use the changed one. *)
Theorem C51_only_sigma : forall f h h', add_v_re_22 f h = Ok h' -> f_abs f = true -> free (f_vary f) (kp_nv (f_prof f)) ->
  let c := rank (f_vary f) (kp_nv (f_prof f)) in
  (forall k j, (j < cols (h_flat h))%nat -> at2 (h_flat h') k j = (if Nat.eqb j c then fabs (at2 (h_flat h) k j) else at2 (h_flat h) k j)) /\
  (forall w k j, at3 (h_chain h') w k j = (if Nat.eqb j c then fabs (at3 (h_chain h) w k j) else at3 (h_chain h) w k j)).
Proof. exact abs_kept. Qed.
Print Assumptions C51_only_sigma.
Theorem C51_derived : forall f h h', add_v_re_22 f h = Ok h' -> f_abs f = true -> free (f_vary f) (kp_nv (f_prof f)) ->
  let c := rank (f_vary f) (kp_nv (f_prof f)) in
  exists a, rows (h_flat a) = rows (h_flat h) /\ cols (h_flat a) = cols (h_flat h) /\
   (forall k j, at2 (h_flat a) k j = (if Nat.eqb j c then fabs (at2 (h_flat h) k j) else at2 (h_flat h) k j)) /\ derived f a h'.
Proof. exact abs_derived. Qed.
Print Assumptions C51_derived.

(** C51: the option is refused unless the dispersion profile has exactly one parameter. *)
Theorem C51_one_parameter : forall f h h', add_v_re_22 f h = Ok h' -> f_abs f = true -> kp_nd (f_prof f) = 1%nat.
Proof. exact abs_one_parameter. Qed.
Print Assumptions C51_one_parameter.

(** C51, as a user expects it, fails: with the dispersion fixed a negative velocity changes sign. *)
Theorem C51_fixed_sigma_refuted : exists f h h', f_abs f = true /\ f_prof f = fiducial /\ add_v_re_22 f h = Ok h' /\ 
  free (f_vary f) 0 /\ rank (f_vary f) 0 = 0%nat /\ at2 (h_flat h) 0 0 = Fin (-100) /\ at2 (h_flat h') 0 0 = Fin 100.
Proof. exact abs_refuted. Qed.
Print Assumptions C51_fixed_sigma_refuted.

Example C51_example : exists h', add_v_re_22 (ex_fit true true) (ex_chain 3) = Ok h' /\ 
  at2 (h_flat h') 1 2 = Fin 101 /\ at2 (h_flat h') 1 0 = Fin (-101).
Proof. exact ex_abs. Qed.

(** C52: a second analysis adds four more columns under the same names, so they stop matching. *)
Theorem C52_repeated : forall f h h1 h2, add_v_re_22 f h = Ok h1 -> add_v_re_22 f h1 = Ok h2 ->
  cols (h_flat h2) = (cols (h_flat h) + 8)%nat /\ h_names h2 = h_names h1.
Proof. exact repeat_columns. Qed.
Print Assumptions C52_repeated.
Theorem C52_repeat_refuted : exists f h h1 h2, f_abs f = false /\ cols (h_flat h) = nfree (f_vary f) /\
  add_v_re_22 f h = Ok h1 /\ add_v_re_22 f h1 = Ok h2 /\
  length (h_names h1) = cols (h_flat h1) /\ length (h_names h2) <> cols (h_flat h2).
Proof. exact repeat_refuted. Qed.
Print Assumptions C52_repeat_refuted.

(** C52: the values the model is set to stay the same, without linked groups. *)
Theorem C52_bestfit : forall K f h h1 h2 p1 p2, f_abs f = false -> (n_free_param (f_vary f) <= cols (h_flat h))%nat ->
  chain_results K None f h = Ok (h1, p1) -> chain_results K None f h1 = Ok (h2, p2) -> p_fit p2 = p_fit p1.
Proof. exact repeat_bestfit. Qed.
Print Assumptions C52_bestfit.

(** C53: limits, errors, opposite-sign percentage and the values the model is set to. *)
Theorem C53_summaries : forall K links vary flat p, posterior K links vary flat = Ok p -> (0 < cols flat)%nat ->
  length (p_best p) = cols flat /\ (0 < rows flat)%nat /\
  (forall i j, (i < rows flat)%nat -> (j < cols flat)%nat -> exists x, at2 flat i j = Fin x) /\
  (forall j, (j < cols flat)%nat -> exists lo2 lo1 hi1 hi2,
     quantile (15865/100000) (rcol flat j) lo1 /\ quantile (84135/100000) (rcol flat j) hi1 /\
     quantile (2275/100000) (rcol flat j) lo2 /\ quantile (97725/100000) (rcol flat j) hi2 /\
     lo2 <= lo1 <= hi1 /\ hi1 <= hi2 /\ (exists a b, In a (rcol flat j) /\ In b (rcol flat j) /\ a <= lo2 /\ hi2 <= b) /\
     exists b, nth_error (p_best p) j = Some b /\
      (links = None -> k_one K (col flat j) = Ok b /\
        nth_error (p_err1 p) j = Some (fsub b (Fin lo1), fsub (Fin hi1) b) /\
        nth_error (p_err2 p) j = Some (fsub b (Fin lo2), fsub (Fin hi2) b)) /\
      exists o, nth_error (p_opp p) j = Some (Fin o) /\ 0 <= o <= 100 /\
       forall r, b = Fin r ->
         o = 100 * INR (length (filter (fun x => if Rlt_dec (r * x) 0 then true else false) (rcol flat j))) / INR (rows flat)) /\
  p_fit p = firstn (nfree vary) (p_best p).
Proof. exact summaries. Qed.
Print Assumptions C53_summaries.

(** C53: the specification determines the limits. *)
Theorem C53_unique : forall q l v1 v2, quantile q l v1 -> quantile q l v2 -> v1 = v2.
Proof. exact quantile_unique. Qed.
Print Assumptions C53_unique.

Example C53_example : exists p, posterior ex_kde None [true; true] ex_flat = Ok p /\
  p_best p = [Fin 1; Fin 1] /\ p_fit p = [Fin 1; Fin 1] /\ p_opp p = [Fin 0; Fin 0] /\ spans (15865/100000) (84135/100000) ex_flat (p_best p) (p_err1 p) 0.
Proof. exact ex_posterior. Qed.

(** C54: one group. *)
Theorem C54_one_group : forall K g vary flat p, posterior K (Some [g]) vary flat = Ok p ->
  (forall j, (j < cols flat)%nat -> spans (15865/100000) (84135/100000) flat (p_best p) (p_err1 p) j) /\
  (forall j, (j < cols flat)%nat -> ~ group g (cols flat) j -> exists b, k_one K (col flat j) = Ok b /\ nth_error (p_best p) j = Some b) /\
  (forall l, g = LinkInds l -> NoDup l -> exists init peak, 
      k_many K (map (col flat) l) init = Ok peak /\
      (forall k j, nth_error l k = Some j -> exists b, k_one K (col flat j) = Ok b /\ nth_error init k = Some b) /\
      forall k j, nth_error l k = Some j -> nth_error (p_best p) j = nth_error peak k).
Proof. exact linked_one. Qed.
Print Assumptions C54_one_group.

(** C54: the 2-sigma errors, any number of groups, for a search that stays at a peak it has found. *)
Theorem C54_two_sigma : forall K gs vary flat p, posterior K (Some gs) vary flat = Ok p ->
  (forall cs init peak, k_many K cs init = Ok peak -> k_many K cs peak = Ok peak /\ length peak = length init) ->
  (forall l, In (LinkInds l) gs -> NoDup l) ->
  forall j, (j < cols flat)%nat -> spans (2275/100000) (97725/100000) flat (p_best p) (p_err2 p) j.
Proof. exact linked_any. Qed.
Print Assumptions C54_two_sigma.

(** C54 fails for the 1-sigma errors of a second group (its example is also a case of the theorem above). *)
Theorem C54_second_group_refuted : exists K gs vary flat p, posterior K (Some gs) vary flat = Ok p /\
  (forall cs init peak, k_many K cs init = Ok peak -> k_many K cs peak = Ok peak /\ length peak = length init) /\
  (forall l, In (LinkInds l) gs -> NoDup l) /\ length gs = 2%nat /\ cols flat = 2%nat /\
  ~ spans (15865/100000) (84135/100000) flat (p_best p) (p_err1 p) 1.
Proof. exact linked_refuted. Qed.
Print Assumptions C54_second_group_refuted.

(** C82: a fit with the dispersion held fixed cannot be analysed if the density estimate rejects
    constant samples, as scipy's does. *)
Theorem C82_fixed_dispersion_fails : forall K links f h s, f_prof f = fiducial -> f_abs f = false -> length (f_vary f) = length (f_theta f) ->
  ~ free (f_vary f) 2 -> nth_error (f_theta f) 2 = Some (Fin s) -> (exists re, f_re f = Fin re) ->
  (forall c x, (forall y, In y c -> y = Fin x) -> exists e, k_one K c = Err e) ->
  exists e, chain_results K links f h = Err e.
Proof. exact fixed_dispersion. Qed.
Print Assumptions C82_fixed_dispersion_fails.

Example C82_example : (exists h', add_v_re_22 (ex_fit false false) (ex_chain 2) = Ok h') /\
  exists e, chain_results ex_reject None (ex_fit false false) (ex_chain 2) = Err e.
Proof. exact ex_fixed. Qed.
