(* Property theorems: what the continuum fits are given (C125). *)
From Coq Require Import Reals List Bool Arith ZArith.
From Verif Require Import PyFloat PyBase Arr PyNum MMask MTrim MPrep SPrep SCont PCont PCont3.
Import ListNotations.
Local Open Scope R_scope.

(** C125: the 1-D fit is given wavelengths, flux, error and mask of both windows, and may tilt the line exactly when each window has a usable column. *)
Theorem C125_slope : forall c wl wr e r p, cont_fit1 c wl wr e = (r, Ok p) ->
  exists ow t f1 r1 m' vary ys es ms, q_obs (e2 e) = Some ow /\ e1 e = Some t /\ s_flux t = Some f1 /\ s_err t = Some r1 /\ e1 r = Some (set_s_mask m' t) /\
    columns_of ow (wl ++ wr) (snd p) /\ columns_of f1 (wl ++ wr) ys /\ columns_of r1 (wl ++ wr) es /\ columns_of m' (wl ++ wr) ms /\
    g_fit1 c vary (snd p) ys es ms = Ok (fst p) /\
    ((forall x, In x m' -> isnan x = false) -> (vary = true <-> usable_in m' wl /\ usable_in m' wr)).
Proof. exact fit1_given. Qed.
Print Assumptions C125_slope.

Example C125_example_slope : exists r p m', cont_fit1 blind_cfg [1%nat] [3%nat] slope_env = (r, Ok p) /\ option_map s_mask (e1 r) = Some (Some m') /\ (forall x, In x m' -> isnan x = false) /\ usable_in m' [1%nat] /\ usable_in m' [3%nat].
Proof. exact slope_runs. Qed.

(** C125: every row is fitted on its own pixels of the same columns, its continuum is the line of the common slope and the fitted intercept, and its flux what is left; other rows stay. *)
Theorem C125_rows : forall c slope b1 xs wl wr is,
  NoDup is -> forall e r ic er mk ct fx w, cont_rows c slope b1 xs wl wr is e = (r, Ok tt) ->
  q_incl (e2 e) = Some ic -> q_err (e2 e) = Some er -> q_mask (e2 e) = Some mk -> q_cont (e2 e) = Some ct -> q_flux (e2 e) = Some fx -> q_wave (e2 e) = Some w ->
  exists ct' fx', q_cont (e2 r) = Some ct' /\ q_flux (e2 r) = Some fx' /\
    (forall i, In i is -> exists b, g_fitrow c i slope b1 xs (map (at2 ic i) (wl ++ wr)) (map (at2 er i) (wl ++ wr)) (map (at2 mk i) (wl ++ wr)) = Ok b /\
       forall j x, nth_error w j = Some x -> at2 ct' i j = fadd (fmul slope x) b /\ at2 fx' i j = fsub (at2 ic i j) (at2 ct' i j)) /\
    (forall i j, ~ In i is -> at2 ct' i j = at2 ct i j /\ at2 fx' i j = at2 fx i j).
Proof. exact rows_given. Qed.
Print Assumptions C125_rows.

Example C125_example_rows : NoDup [0%nat] /\ exists r ct fx, cont_rows blind_cfg (Fin 2) (Fin 0) [Fin 10] [0%nat] [] [0%nat] px_env = (r, Ok tt) /\
  q_cont (e2 r) = Some ct /\ q_flux (e2 r) = Some fx /\ at2 ct 0 0 = Fin 25 /\ at2 fx 0 0 = Fin (-20).
Proof. exact px_rows. Qed.
