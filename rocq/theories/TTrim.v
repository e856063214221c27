(* Properties C40-C42: trimming in wavelength and along the slit. *)
From Coq Require Import Reals List Bool Arith ZArith Lra Lia Sorted.
From Verif Require Import PyFloat PyBase Arr PyNum MMask SMask MTrim STrim PTrim PTrim2 PTrim3.
Import ListNotations.
Local Open Scope R_scope.

(* ---------------- C40 ---------------- *)

(** 1-D: exactly the pixels in the closed range, in order, all arrays alike. *)
Theorem C40_1D : forall s wave flux err mask z v rest obs o file ks, arrays1 s wave flux err mask ->
  zok z rest obs v -> asked v rest obs o -> kept o wave ks -> ks <> [] ->
  exists s' wave' flux' err' mask', trim_1D (Some s) z rest obs file = Ok (Some s') /\
    arrays1 s' wave' flux' err' mask' /\ picked1 ks wave wave' /\ picked1 ks flux flux' /\
    picked1 ks err err' /\ picked1 ks mask mask' /\
    s_rest s' = Some (map (fun x => fdiv x (fadd (Fin 1) v)) wave') /\
    s_trimo s' = Some o /\ s_trimr s' = rest /\ s_profile s' = s_profile s.
Proof. exact trim_1D_ok. Qed.
Print Assumptions C40_1D.
Example C40_example : kept (Fin 2, Fin 3) [Fin 1; Fin 2; NaN; Fin 3; Fin 4] [1; 3]%nat.
Proof. exact kept_example. Qed.
(** 1-D, nothing in range: no arrays. *)
Theorem C40_1D_empty : forall s wave flux err mask z v rest obs o file, arrays1 s wave flux err mask ->
  zok z rest obs v -> asked v rest obs o -> kept o wave [] ->
  exists s', trim_1D (Some s) z rest obs file = Ok (Some s') /\
    s_wave s' = None /\ s_flux s' = None /\ s_err s' = None /\ s_mask s' = None.
Proof. exact trim_1D_empty. Qed.
Print Assumptions C40_1D_empty.
(** 1-D: trimming the result again with the same range returns it unchanged. *)
Theorem C40_1D_twice : forall s wave flux err mask z v rest obs o file s', arrays1 s wave flux err mask ->
  zok z rest obs v -> asked v rest obs o ->
  trim_1D (Some s) z rest obs file = Ok (Some s') -> trim_1D (Some s') z rest obs file = Ok (Some s').
Proof. exact trim_1D_twice. Qed.
Print Assumptions C40_1D_twice.
(** An empty selection keeps the old observed wavelengths on the result. *)
Theorem C40_empty_stale_refuted : exists s s', arrays1 s [Fin 1] [Fin 1] [Fin 1] [Fin 1] /\
  trim_1D (Some s) (ZNp (Fin 0)) None (Some (Fin 2, Fin 3)) (Err ValueError) = Ok (Some s') /\ s_wave s' = None /\ s_obs s' = Some [Fin 1].
Proof. exact empty_stale_refuted. Qed.
Print Assumptions C40_empty_stale_refuted.
(** 2-D in place: exactly the columns in the closed range, for every image. *)
Theorem C40_2D : forall z rest obs o named file s wave flux err mask weight ks,
  arrays2 s wave flux err mask weight -> asked z rest obs o -> kept o wave ks -> ks <> [] ->
  exists s' wave' flux' err' mask' weight',
    trim_2D_inplace z rest obs named file s = (s', Ok tt) /\
    arrays2 s' wave' flux' err' mask' weight' /\
    picked1 ks wave wave' /\ picked2 ks flux flux' /\ picked2 ks err err' /\ picked2 ks mask mask' /\ picked2 ks weight weight' /\
    q_rest s' = Some (map (fun x => fdiv x (fadd (Fin 1) z)) wave') /\
    (forall a b, q_incl s = Some a -> q_cont s = Some b -> cols a = length wave -> cols b = length wave ->
       exists a' b', q_incl s' = Some a' /\ q_cont s' = Some b' /\ picked2 ks a a' /\ picked2 ks b b').
Proof. exact trim_2D_ok. Qed.
Print Assumptions C40_2D.
(** 2-D in place, nothing in range. *)
Theorem C40_2D_empty : forall z rest obs o named file s wave flux err mask weight,
  arrays2 s wave flux err mask weight -> asked z rest obs o -> kept o wave [] ->
  exists s', trim_2D_inplace z rest obs named file s = (s', Ok tt) /\
    q_wave s' = None /\ q_flux s' = None /\ q_err s' = None /\ q_mask s' = None /\ q_weight s' = None.
Proof. exact trim_2D_empty. Qed.
Print Assumptions C40_2D_empty.
(** 2-D in place: the second trim succeeds and shows the same spectrum. *)
Theorem C40_2D_twice : forall z rest obs o named file s wave flux err mask weight s',
  arrays2 s wave flux err mask weight -> asked z rest obs o ->
  (forall a, q_incl s = Some a -> cols a = length wave) -> (forall a, q_cont s = Some a -> cols a = length wave) ->
  trim_2D_inplace z rest obs named file s = (s', Ok tt) ->
  exists s'', trim_2D_inplace z rest obs named file s' = (s'', Ok tt) /\ same_spectrum s' s''.
Proof. exact trim_2D_twice. Qed.
Print Assumptions C40_2D_twice.
(** The trimmed copy agrees with trimming in place on everything but the continuum images, which
    it leaves as they were. *)
Theorem C40_2D_copy : forall z rest obs o named file s wave flux err mask weight ks,
  arrays2 s wave flux err mask weight -> asked z rest obs o -> kept o wave ks -> ks <> [] ->
  exists s' s2, trim_2D_copy z rest obs named file s = Ok s' /\ trim_2D_inplace z rest obs named file s = (s2, Ok tt) /\
    q_wave s' = q_wave s2 /\ q_obs s' = q_obs s2 /\ q_rest s' = q_rest s2 /\ q_flux s' = q_flux s2 /\ q_err s' = q_err s2 /\
    q_mask s' = q_mask s2 /\ q_weight s' = q_weight s2 /\ q_incl s' = q_incl s /\ q_cont s' = q_cont s /\
    q_trimo s' = q_trimo s2 /\ q_trimr s' = q_trimr s2.
Proof. exact trim_2D_copy_ok. Qed.
Print Assumptions C40_2D_copy.
(** With nothing in range the copy is what trimming in place would have left. *)
Theorem C40_2D_copy_empty : forall z rest obs o named file s wave flux err mask weight,
  arrays2 s wave flux err mask weight -> asked z rest obs o -> kept o wave [] ->
  exists s' s2, trim_2D_copy z rest obs named file s = Ok s' /\ trim_2D_inplace z rest obs named file s = (s2, Ok tt) /\ s' = s2.
Proof. exact trim_2D_copy_empty. Qed.
Print Assumptions C40_2D_copy_empty.
(** So the copy's continuum-including flux no longer matches its flux. *)
Theorem C40_copy_continuum_refuted : exists s s' a b, trim_2D_copy (Fin 0) None (Some (Fin 2, Fin 3)) false (Err ValueError) s = Ok s' /\
  q_flux s' = Some a /\ q_incl s' = Some b /\ cols a = 2%nat /\ cols b = 3%nat /\ arrays2 s [Fin 1; Fin 2; Fin 3] (ones 4 3) (ones 4 3) (ones 4 3) (ones 4 3).
Proof. exact copy_cont_refuted. Qed.
Print Assumptions C40_copy_continuum_refuted.

(** The range trimmed to is recorded in both frames. *)
Theorem C40_recorded : forall z rest obs o named file s wave flux err mask weight s',
  arrays2 s wave flux err mask weight -> asked z rest obs o -> trim_2D_inplace z rest obs named file s = (s', Ok tt) ->
  q_trimo s' = Some o /\ (forall r, rest = Some r -> q_trimr s' = Some r) /\
  (obs <> None -> q_trimr s' = Some (fdiv (fst o) (fadd (Fin 1) z), fdiv (snd o) (fadd (Fin 1) z))).
Proof. exact trim_2D_recorded. Qed.
Print Assumptions C40_recorded.

(** A line name stands for the range of the parameter file; asking for no range or for two changes nothing. *)
Theorem C40_request : forall z named file s,
  (forall r, file = Ok r -> trim_2D_inplace z None None true file s = trim_2D_inplace z (Some r) None named file s) /\
  (forall e, file = Err e -> trim_2D_inplace z None None true file s = (s, Err e)) /\
  trim_2D_inplace z None None false file s = (s, Err ValueError) /\
  (forall r o, trim_2D_inplace z (Some r) (Some o) named file s = (s, Err ValueError)).
Proof. exact trim_2D_request. Qed.
Print Assumptions C40_request.

(* ---------------- C41 ---------------- *)

(** A plain Python float redshift always fails with a rest-frame range, given or read. *)
Theorem C41_python_float : forall s r rest file, rest <> None \/ is_ok file = true ->
  trim_1D s (ZPy r) rest None file = Err AttributeError.
Proof. exact trim_1D_py. Qed.
Print Assumptions C41_python_float.
Theorem C41_python_float_refuted : exists s, arrays1 s [Fin 1] [Fin 1] [Fin 1] [Fin 1] /\
  trim_1D (Some s) (ZPy (Fin 0)) (Some (Fin 1, Fin 2)) None (Err ValueError) = Err AttributeError /\
  exists s', trim_1D (Some s) (ZNp (Fin 0)) (Some (Fin 1, Fin 2)) None (Err ValueError) = Ok (Some s').
Proof. exact py_float_refuted. Qed.
Print Assumptions C41_python_float_refuted.
(** Without a redshift: no result for a rest-frame range, TypeError for an observed-frame one. *)
Theorem C41_no_redshift : forall s o rest file, trim_1D s ZNone rest None file = Ok None /\
  (forall sp wave flux err mask ks, s = Some sp -> arrays1 sp wave flux err mask -> kept o wave ks -> ks <> [] ->
     trim_1D s ZNone rest (Some o) file = Err TypeError).
Proof. exact trim_1D_none. Qed.
Print Assumptions C41_no_redshift.

(* ---------------- C42 ---------------- *)

(** Spatial trimming shifts every image, the centre and the expected position by the same rows. *)
Theorem C42_moves_together : forall dither cut vert s t n p imgs ow y v,
  ready s n p imgs -> q_obs s = Some ow -> q_ypos s = Some y ->
  (forall a b, vert a b ow (Some y) = Ok v) -> (1 <= n)%nat ->
  (dither = true -> (0 <= v_max v)%Z /\ (v_min v <= Z.of_nat n)%Z) ->
  exists s' t' imgs' (lo hi : nat), trim_2D_spatial dither cut vert (s, t) = ((s', t'), Ok tt) /\
    ready s' (hi - lo) p imgs' /\ Forall2 (rows_from lo (hi - lo)) imgs imgs' /\
    (if dither then Z.of_nat lo = Z.max 0 (v_min v) /\ Z.of_nat hi = Z.min (Z.of_nat n - 1) (v_max v)
     else lo = 0%nat /\ hi = (n - 1)%nat) /\
    q_m0 s' = Some (v_m0 v - Z.of_nat lo)%Z /\ q_ypos s' = Some (fsub y (Fin (INR lo))) /\
    q_mlims s' = Some (hi - lo)%nat /\ q_obs s' = Some ow /\ q_wave s' = q_wave s.
Proof. exact spatial_moves. Qed.
Print Assumptions C42_moves_together.
Example C42_example : ready (sp2_of [Fin 1; Fin 2; Fin 3] (ones 4 3) (Fin 2)) 4 3 (repeat (ones 4 3) 9).
Proof. exact (sp2_of_ready [Fin 1; Fin 2; Fin 3] (ones 4 3) (Fin 2)). Qed.
(** The last row is lost without dithering. *)
Theorem C42_last_row_refuted : exists s s' t', ready s 4 3 (repeat (ones 4 3) 9) /\
  trim_2D_spatial false (Fin 2) (fun _ _ _ _ => Ok (mkVpos 2 (Fin 0) (Fin 5) 0 4)) (s, None) = ((s', t'), Ok tt) /\
  exists a, q_flux s' = Some a /\ rows a = 3%nat.
Proof. exact no_dither_drops. Qed.
Print Assumptions C42_last_row_refuted.
(** A window below the image keeps rows that are not in it. *)
Theorem C42_window_below_refuted : exists s s' t', ready s 10 3 (repeat (ones 10 3) 9) /\
  trim_2D_spatial true (Fin 2) (fun _ _ _ _ => Ok (mkVpos (-6) (Fin 0) (Fin 5) (-9) (-3))) (s, None) = ((s', t'), Ok tt) /\
  exists a, q_flux s' = Some a /\ rows a = 7%nat.
Proof. exact window_below_wraps. Qed.
Print Assumptions C42_window_below_refuted.
