(* Model: trimming of spectra and the preparation of a 2-D spectrum for fitting
   (misfit/general/galaxy_utils.py, misfit/galaxy.py).  Assignments are made one by one on a
   state, so that an exception leaves the object as the code would. *)
From Coq Require Import Reals List Bool Arith ZArith.
From Verif Require Import PyFloat PyBase Arr PyNum MMask.
Import ListNotations.
Local Open Scope R_scope.

(** ObsSpectrum1D (misfit/galaxy.py:458-545): arrays, extraction profile and recorded ranges. *)
Record sp1 : Type := mkSp1 {
  s_wave : option (list fl);
  s_obs : option (list fl);
  s_rest : option (list fl);
  s_flux : option (list fl);
  s_err : option (list fl);
  s_mask : option (list fl);
  s_profile : option (list fl);
  s_trimo : option (fl * fl);
  s_trimr : option (fl * fl)
}.

(** ObsSpectrum2D (misfit/galaxy.py:550-720): the attributes that fit preparation reads or writes.
    None is Python's None or, for attributes first created during preparation, not existing. *)
Record sp2 : Type := mkSp2 {
  q_wave : option (list fl);
  q_obs : option (list fl);
  q_rest : option (list fl);
  q_flux : option (arr2 fl);
  q_err : option (arr2 fl);
  q_mask : option (arr2 fl);
  q_weight : option (arr2 fl);
  q_incl : option (arr2 fl);
  q_cont : option (arr2 fl);
  q_qual : option (arr2 fl);
  q_sky : option (arr2 fl);
  q_low : option (arr2 fl);
  q_wh_sky : list nat;
  q_wh_nosky : list nat;
  q_low_inds : list nat;
  q_median : option fl;
  q_cutoff : option (fl * bool);
  q_rfull : option (fl * fl);
  q_rline : option (fl * fl);
  q_rmline : option (fl * fl);
  q_trimo : option (fl * fl);
  q_trimr : option (fl * fl);
  q_dlam : option fl;
  q_lam0 : option fl;
  q_ypos : option fl;
  q_m0 : option Z;
  q_m0_fit : fl;
  q_m0_snr : fl;
  q_mlims : option nat;
  q_full : option (Z * Z * Z);
  q_wprof : option (list fl);
  q_wmat : option (arr2 fl);
  q_m0_shift : option fl;
  q_prepared : bool
}.

(** attribute assignment (misfit/galaxy.py:280) *)
Definition set_q_wave (v : option (list fl)) (s : sp2) : sp2 :=
  mkSp2 v (q_obs s) (q_rest s) (q_flux s) (q_err s) (q_mask s) (q_weight s) (q_incl s) (q_cont s) (q_qual s) (q_sky s) (q_low s) (q_wh_sky s) (q_wh_nosky s) (q_low_inds s) (q_median s) (q_cutoff s) (q_rfull s) (q_rline s) (q_rmline s) (q_trimo s) (q_trimr s) (q_dlam s) (q_lam0 s) (q_ypos s) (q_m0 s) (q_m0_fit s) (q_m0_snr s) (q_mlims s) (q_full s) (q_wprof s) (q_wmat s) (q_m0_shift s) (q_prepared s).
(** attribute assignment (misfit/galaxy.py:454; None when never set) *)
Definition set_q_obs (v : option (list fl)) (s : sp2) : sp2 :=
  mkSp2 (q_wave s) v (q_rest s) (q_flux s) (q_err s) (q_mask s) (q_weight s) (q_incl s) (q_cont s) (q_qual s) (q_sky s) (q_low s) (q_wh_sky s) (q_wh_nosky s) (q_low_inds s) (q_median s) (q_cutoff s) (q_rfull s) (q_rline s) (q_rmline s) (q_trimo s) (q_trimr s) (q_dlam s) (q_lam0 s) (q_ypos s) (q_m0 s) (q_m0_fit s) (q_m0_snr s) (q_mlims s) (q_full s) (q_wprof s) (q_wmat s) (q_m0_shift s) (q_prepared s).
(** attribute assignment (misfit/galaxy.py:455) *)
Definition set_q_rest (v : option (list fl)) (s : sp2) : sp2 :=
  mkSp2 (q_wave s) (q_obs s) v (q_flux s) (q_err s) (q_mask s) (q_weight s) (q_incl s) (q_cont s) (q_qual s) (q_sky s) (q_low s) (q_wh_sky s) (q_wh_nosky s) (q_low_inds s) (q_median s) (q_cutoff s) (q_rfull s) (q_rline s) (q_rmline s) (q_trimo s) (q_trimr s) (q_dlam s) (q_lam0 s) (q_ypos s) (q_m0 s) (q_m0_fit s) (q_m0_snr s) (q_mlims s) (q_full s) (q_wprof s) (q_wmat s) (q_m0_shift s) (q_prepared s).
(** attribute assignment (misfit/galaxy.py:281) *)
Definition set_q_flux (v : option (arr2 fl)) (s : sp2) : sp2 :=
  mkSp2 (q_wave s) (q_obs s) (q_rest s) v (q_err s) (q_mask s) (q_weight s) (q_incl s) (q_cont s) (q_qual s) (q_sky s) (q_low s) (q_wh_sky s) (q_wh_nosky s) (q_low_inds s) (q_median s) (q_cutoff s) (q_rfull s) (q_rline s) (q_rmline s) (q_trimo s) (q_trimr s) (q_dlam s) (q_lam0 s) (q_ypos s) (q_m0 s) (q_m0_fit s) (q_m0_snr s) (q_mlims s) (q_full s) (q_wprof s) (q_wmat s) (q_m0_shift s) (q_prepared s).
(** attribute assignment (misfit/galaxy.py:282) *)
Definition set_q_err (v : option (arr2 fl)) (s : sp2) : sp2 :=
  mkSp2 (q_wave s) (q_obs s) (q_rest s) (q_flux s) v (q_mask s) (q_weight s) (q_incl s) (q_cont s) (q_qual s) (q_sky s) (q_low s) (q_wh_sky s) (q_wh_nosky s) (q_low_inds s) (q_median s) (q_cutoff s) (q_rfull s) (q_rline s) (q_rmline s) (q_trimo s) (q_trimr s) (q_dlam s) (q_lam0 s) (q_ypos s) (q_m0 s) (q_m0_fit s) (q_m0_snr s) (q_mlims s) (q_full s) (q_wprof s) (q_wmat s) (q_m0_shift s) (q_prepared s).
(** attribute assignment (misfit/galaxy.py:680) *)
Definition set_q_mask (v : option (arr2 fl)) (s : sp2) : sp2 :=
  mkSp2 (q_wave s) (q_obs s) (q_rest s) (q_flux s) (q_err s) v (q_weight s) (q_incl s) (q_cont s) (q_qual s) (q_sky s) (q_low s) (q_wh_sky s) (q_wh_nosky s) (q_low_inds s) (q_median s) (q_cutoff s) (q_rfull s) (q_rline s) (q_rmline s) (q_trimo s) (q_trimr s) (q_dlam s) (q_lam0 s) (q_ypos s) (q_m0 s) (q_m0_fit s) (q_m0_snr s) (q_mlims s) (q_full s) (q_wprof s) (q_wmat s) (q_m0_shift s) (q_prepared s).
(** attribute assignment (misfit/galaxy.py:677) *)
Definition set_q_weight (v : option (arr2 fl)) (s : sp2) : sp2 :=
  mkSp2 (q_wave s) (q_obs s) (q_rest s) (q_flux s) (q_err s) (q_mask s) v (q_incl s) (q_cont s) (q_qual s) (q_sky s) (q_low s) (q_wh_sky s) (q_wh_nosky s) (q_low_inds s) (q_median s) (q_cutoff s) (q_rfull s) (q_rline s) (q_rmline s) (q_trimo s) (q_trimr s) (q_dlam s) (q_lam0 s) (q_ypos s) (q_m0 s) (q_m0_fit s) (q_m0_snr s) (q_mlims s) (q_full s) (q_wprof s) (q_wmat s) (q_m0_shift s) (q_prepared s).
(** attribute assignment (misfit/general/galaxy_utils.py:344) *)
Definition set_q_incl (v : option (arr2 fl)) (s : sp2) : sp2 :=
  mkSp2 (q_wave s) (q_obs s) (q_rest s) (q_flux s) (q_err s) (q_mask s) (q_weight s) v (q_cont s) (q_qual s) (q_sky s) (q_low s) (q_wh_sky s) (q_wh_nosky s) (q_low_inds s) (q_median s) (q_cutoff s) (q_rfull s) (q_rline s) (q_rmline s) (q_trimo s) (q_trimr s) (q_dlam s) (q_lam0 s) (q_ypos s) (q_m0 s) (q_m0_fit s) (q_m0_snr s) (q_mlims s) (q_full s) (q_wprof s) (q_wmat s) (q_m0_shift s) (q_prepared s).
(** attribute assignment (misfit/general/galaxy_utils.py:345) *)
Definition set_q_cont (v : option (arr2 fl)) (s : sp2) : sp2 :=
  mkSp2 (q_wave s) (q_obs s) (q_rest s) (q_flux s) (q_err s) (q_mask s) (q_weight s) (q_incl s) v (q_qual s) (q_sky s) (q_low s) (q_wh_sky s) (q_wh_nosky s) (q_low_inds s) (q_median s) (q_cutoff s) (q_rfull s) (q_rline s) (q_rmline s) (q_trimo s) (q_trimr s) (q_dlam s) (q_lam0 s) (q_ypos s) (q_m0 s) (q_m0_fit s) (q_m0_snr s) (q_mlims s) (q_full s) (q_wprof s) (q_wmat s) (q_m0_shift s) (q_prepared s).
(** attribute assignment (misfit/galaxy.py:695) *)
Definition set_q_qual (v : option (arr2 fl)) (s : sp2) : sp2 :=
  mkSp2 (q_wave s) (q_obs s) (q_rest s) (q_flux s) (q_err s) (q_mask s) (q_weight s) (q_incl s) (q_cont s) v (q_sky s) (q_low s) (q_wh_sky s) (q_wh_nosky s) (q_low_inds s) (q_median s) (q_cutoff s) (q_rfull s) (q_rline s) (q_rmline s) (q_trimo s) (q_trimr s) (q_dlam s) (q_lam0 s) (q_ypos s) (q_m0 s) (q_m0_fit s) (q_m0_snr s) (q_mlims s) (q_full s) (q_wprof s) (q_wmat s) (q_m0_shift s) (q_prepared s).
(** attribute assignment (misfit/galaxy.py:696) *)
Definition set_q_sky (v : option (arr2 fl)) (s : sp2) : sp2 :=
  mkSp2 (q_wave s) (q_obs s) (q_rest s) (q_flux s) (q_err s) (q_mask s) (q_weight s) (q_incl s) (q_cont s) (q_qual s) v (q_low s) (q_wh_sky s) (q_wh_nosky s) (q_low_inds s) (q_median s) (q_cutoff s) (q_rfull s) (q_rline s) (q_rmline s) (q_trimo s) (q_trimr s) (q_dlam s) (q_lam0 s) (q_ypos s) (q_m0 s) (q_m0_fit s) (q_m0_snr s) (q_mlims s) (q_full s) (q_wprof s) (q_wmat s) (q_m0_shift s) (q_prepared s).
(** attribute assignment (misfit/galaxy.py:697) *)
Definition set_q_low (v : option (arr2 fl)) (s : sp2) : sp2 :=
  mkSp2 (q_wave s) (q_obs s) (q_rest s) (q_flux s) (q_err s) (q_mask s) (q_weight s) (q_incl s) (q_cont s) (q_qual s) (q_sky s) v (q_wh_sky s) (q_wh_nosky s) (q_low_inds s) (q_median s) (q_cutoff s) (q_rfull s) (q_rline s) (q_rmline s) (q_trimo s) (q_trimr s) (q_dlam s) (q_lam0 s) (q_ypos s) (q_m0 s) (q_m0_fit s) (q_m0_snr s) (q_mlims s) (q_full s) (q_wprof s) (q_wmat s) (q_m0_shift s) (q_prepared s).
(** attribute assignment (misfit/galaxy.py:686) *)
Definition set_q_wh_sky (v : list nat) (s : sp2) : sp2 :=
  mkSp2 (q_wave s) (q_obs s) (q_rest s) (q_flux s) (q_err s) (q_mask s) (q_weight s) (q_incl s) (q_cont s) (q_qual s) (q_sky s) (q_low s) v (q_wh_nosky s) (q_low_inds s) (q_median s) (q_cutoff s) (q_rfull s) (q_rline s) (q_rmline s) (q_trimo s) (q_trimr s) (q_dlam s) (q_lam0 s) (q_ypos s) (q_m0 s) (q_m0_fit s) (q_m0_snr s) (q_mlims s) (q_full s) (q_wprof s) (q_wmat s) (q_m0_shift s) (q_prepared s).
(** attribute assignment (misfit/galaxy.py:687) *)
Definition set_q_wh_nosky (v : list nat) (s : sp2) : sp2 :=
  mkSp2 (q_wave s) (q_obs s) (q_rest s) (q_flux s) (q_err s) (q_mask s) (q_weight s) (q_incl s) (q_cont s) (q_qual s) (q_sky s) (q_low s) (q_wh_sky s) v (q_low_inds s) (q_median s) (q_cutoff s) (q_rfull s) (q_rline s) (q_rmline s) (q_trimo s) (q_trimr s) (q_dlam s) (q_lam0 s) (q_ypos s) (q_m0 s) (q_m0_fit s) (q_m0_snr s) (q_mlims s) (q_full s) (q_wprof s) (q_wmat s) (q_m0_shift s) (q_prepared s).
(** attribute assignment (misfit/galaxy.py:694) *)
Definition set_q_low_inds (v : list nat) (s : sp2) : sp2 :=
  mkSp2 (q_wave s) (q_obs s) (q_rest s) (q_flux s) (q_err s) (q_mask s) (q_weight s) (q_incl s) (q_cont s) (q_qual s) (q_sky s) (q_low s) (q_wh_sky s) (q_wh_nosky s) v (q_median s) (q_cutoff s) (q_rfull s) (q_rline s) (q_rmline s) (q_trimo s) (q_trimr s) (q_dlam s) (q_lam0 s) (q_ypos s) (q_m0 s) (q_m0_fit s) (q_m0_snr s) (q_mlims s) (q_full s) (q_wprof s) (q_wmat s) (q_m0_shift s) (q_prepared s).
(** attribute assignment (misfit/galaxy.py:682) *)
Definition set_q_median (v : option fl) (s : sp2) : sp2 :=
  mkSp2 (q_wave s) (q_obs s) (q_rest s) (q_flux s) (q_err s) (q_mask s) (q_weight s) (q_incl s) (q_cont s) (q_qual s) (q_sky s) (q_low s) (q_wh_sky s) (q_wh_nosky s) (q_low_inds s) v (q_cutoff s) (q_rfull s) (q_rline s) (q_rmline s) (q_trimo s) (q_trimr s) (q_dlam s) (q_lam0 s) (q_ypos s) (q_m0 s) (q_m0_fit s) (q_m0_snr s) (q_mlims s) (q_full s) (q_wprof s) (q_wmat s) (q_m0_shift s) (q_prepared s).
(** attribute assignment (misfit/galaxy.py:683-684: cutoff, units supported) *)
Definition set_q_cutoff (v : option (fl * bool)) (s : sp2) : sp2 :=
  mkSp2 (q_wave s) (q_obs s) (q_rest s) (q_flux s) (q_err s) (q_mask s) (q_weight s) (q_incl s) (q_cont s) (q_qual s) (q_sky s) (q_low s) (q_wh_sky s) (q_wh_nosky s) (q_low_inds s) (q_median s) v (q_rfull s) (q_rline s) (q_rmline s) (q_trimo s) (q_trimr s) (q_dlam s) (q_lam0 s) (q_ypos s) (q_m0 s) (q_m0_fit s) (q_m0_snr s) (q_mlims s) (q_full s) (q_wprof s) (q_wmat s) (q_m0_shift s) (q_prepared s).
(** attribute assignment (misfit/galaxy.py:717) *)
Definition set_q_rfull (v : option (fl * fl)) (s : sp2) : sp2 :=
  mkSp2 (q_wave s) (q_obs s) (q_rest s) (q_flux s) (q_err s) (q_mask s) (q_weight s) (q_incl s) (q_cont s) (q_qual s) (q_sky s) (q_low s) (q_wh_sky s) (q_wh_nosky s) (q_low_inds s) (q_median s) (q_cutoff s) v (q_rline s) (q_rmline s) (q_trimo s) (q_trimr s) (q_dlam s) (q_lam0 s) (q_ypos s) (q_m0 s) (q_m0_fit s) (q_m0_snr s) (q_mlims s) (q_full s) (q_wprof s) (q_wmat s) (q_m0_shift s) (q_prepared s).
(** attribute assignment (misfit/galaxy.py:718) *)
Definition set_q_rline (v : option (fl * fl)) (s : sp2) : sp2 :=
  mkSp2 (q_wave s) (q_obs s) (q_rest s) (q_flux s) (q_err s) (q_mask s) (q_weight s) (q_incl s) (q_cont s) (q_qual s) (q_sky s) (q_low s) (q_wh_sky s) (q_wh_nosky s) (q_low_inds s) (q_median s) (q_cutoff s) (q_rfull s) v (q_rmline s) (q_trimo s) (q_trimr s) (q_dlam s) (q_lam0 s) (q_ypos s) (q_m0 s) (q_m0_fit s) (q_m0_snr s) (q_mlims s) (q_full s) (q_wprof s) (q_wmat s) (q_m0_shift s) (q_prepared s).
(** attribute assignment (misfit/galaxy.py:719) *)
Definition set_q_rmline (v : option (fl * fl)) (s : sp2) : sp2 :=
  mkSp2 (q_wave s) (q_obs s) (q_rest s) (q_flux s) (q_err s) (q_mask s) (q_weight s) (q_incl s) (q_cont s) (q_qual s) (q_sky s) (q_low s) (q_wh_sky s) (q_wh_nosky s) (q_low_inds s) (q_median s) (q_cutoff s) (q_rfull s) (q_rline s) v (q_trimo s) (q_trimr s) (q_dlam s) (q_lam0 s) (q_ypos s) (q_m0 s) (q_m0_fit s) (q_m0_snr s) (q_mlims s) (q_full s) (q_wprof s) (q_wmat s) (q_m0_shift s) (q_prepared s).
(** attribute assignment (misfit/galaxy.py:714) *)
Definition set_q_trimo (v : option (fl * fl)) (s : sp2) : sp2 :=
  mkSp2 (q_wave s) (q_obs s) (q_rest s) (q_flux s) (q_err s) (q_mask s) (q_weight s) (q_incl s) (q_cont s) (q_qual s) (q_sky s) (q_low s) (q_wh_sky s) (q_wh_nosky s) (q_low_inds s) (q_median s) (q_cutoff s) (q_rfull s) (q_rline s) (q_rmline s) v (q_trimr s) (q_dlam s) (q_lam0 s) (q_ypos s) (q_m0 s) (q_m0_fit s) (q_m0_snr s) (q_mlims s) (q_full s) (q_wprof s) (q_wmat s) (q_m0_shift s) (q_prepared s).
(** attribute assignment (misfit/galaxy.py:715) *)
Definition set_q_trimr (v : option (fl * fl)) (s : sp2) : sp2 :=
  mkSp2 (q_wave s) (q_obs s) (q_rest s) (q_flux s) (q_err s) (q_mask s) (q_weight s) (q_incl s) (q_cont s) (q_qual s) (q_sky s) (q_low s) (q_wh_sky s) (q_wh_nosky s) (q_low_inds s) (q_median s) (q_cutoff s) (q_rfull s) (q_rline s) (q_rmline s) (q_trimo s) v (q_dlam s) (q_lam0 s) (q_ypos s) (q_m0 s) (q_m0_fit s) (q_m0_snr s) (q_mlims s) (q_full s) (q_wprof s) (q_wmat s) (q_m0_shift s) (q_prepared s).
(** attribute assignment (misfit/galaxy.py:666) *)
Definition set_q_dlam (v : option fl) (s : sp2) : sp2 :=
  mkSp2 (q_wave s) (q_obs s) (q_rest s) (q_flux s) (q_err s) (q_mask s) (q_weight s) (q_incl s) (q_cont s) (q_qual s) (q_sky s) (q_low s) (q_wh_sky s) (q_wh_nosky s) (q_low_inds s) (q_median s) (q_cutoff s) (q_rfull s) (q_rline s) (q_rmline s) (q_trimo s) (q_trimr s) v (q_lam0 s) (q_ypos s) (q_m0 s) (q_m0_fit s) (q_m0_snr s) (q_mlims s) (q_full s) (q_wprof s) (q_wmat s) (q_m0_shift s) (q_prepared s).
(** attribute assignment (misfit/galaxy.py:671) *)
Definition set_q_lam0 (v : option fl) (s : sp2) : sp2 :=
  mkSp2 (q_wave s) (q_obs s) (q_rest s) (q_flux s) (q_err s) (q_mask s) (q_weight s) (q_incl s) (q_cont s) (q_qual s) (q_sky s) (q_low s) (q_wh_sky s) (q_wh_nosky s) (q_low_inds s) (q_median s) (q_cutoff s) (q_rfull s) (q_rline s) (q_rmline s) (q_trimo s) (q_trimr s) (q_dlam s) v (q_ypos s) (q_m0 s) (q_m0_fit s) (q_m0_snr s) (q_mlims s) (q_full s) (q_wprof s) (q_wmat s) (q_m0_shift s) (q_prepared s).
(** attribute assignment (misfit/galaxy.py:672) *)
Definition set_q_ypos (v : option fl) (s : sp2) : sp2 :=
  mkSp2 (q_wave s) (q_obs s) (q_rest s) (q_flux s) (q_err s) (q_mask s) (q_weight s) (q_incl s) (q_cont s) (q_qual s) (q_sky s) (q_low s) (q_wh_sky s) (q_wh_nosky s) (q_low_inds s) (q_median s) (q_cutoff s) (q_rfull s) (q_rline s) (q_rmline s) (q_trimo s) (q_trimr s) (q_dlam s) (q_lam0 s) v (q_m0 s) (q_m0_fit s) (q_m0_snr s) (q_mlims s) (q_full s) (q_wprof s) (q_wmat s) (q_m0_shift s) (q_prepared s).
(** attribute assignment (misfit/galaxy.py:669) *)
Definition set_q_m0 (v : option Z) (s : sp2) : sp2 :=
  mkSp2 (q_wave s) (q_obs s) (q_rest s) (q_flux s) (q_err s) (q_mask s) (q_weight s) (q_incl s) (q_cont s) (q_qual s) (q_sky s) (q_low s) (q_wh_sky s) (q_wh_nosky s) (q_low_inds s) (q_median s) (q_cutoff s) (q_rfull s) (q_rline s) (q_rmline s) (q_trimo s) (q_trimr s) (q_dlam s) (q_lam0 s) (q_ypos s) v (q_m0_fit s) (q_m0_snr s) (q_mlims s) (q_full s) (q_wprof s) (q_wmat s) (q_m0_shift s) (q_prepared s).
(** attribute assignment (misfit/general/galaxy_utils.py:248) *)
Definition set_q_m0_fit (v : fl) (s : sp2) : sp2 :=
  mkSp2 (q_wave s) (q_obs s) (q_rest s) (q_flux s) (q_err s) (q_mask s) (q_weight s) (q_incl s) (q_cont s) (q_qual s) (q_sky s) (q_low s) (q_wh_sky s) (q_wh_nosky s) (q_low_inds s) (q_median s) (q_cutoff s) (q_rfull s) (q_rline s) (q_rmline s) (q_trimo s) (q_trimr s) (q_dlam s) (q_lam0 s) (q_ypos s) (q_m0 s) v (q_m0_snr s) (q_mlims s) (q_full s) (q_wprof s) (q_wmat s) (q_m0_shift s) (q_prepared s).
(** attribute assignment (misfit/general/galaxy_utils.py:249) *)
Definition set_q_m0_snr (v : fl) (s : sp2) : sp2 :=
  mkSp2 (q_wave s) (q_obs s) (q_rest s) (q_flux s) (q_err s) (q_mask s) (q_weight s) (q_incl s) (q_cont s) (q_qual s) (q_sky s) (q_low s) (q_wh_sky s) (q_wh_nosky s) (q_low_inds s) (q_median s) (q_cutoff s) (q_rfull s) (q_rline s) (q_rmline s) (q_trimo s) (q_trimr s) (q_dlam s) (q_lam0 s) (q_ypos s) (q_m0 s) (q_m0_fit s) v (q_mlims s) (q_full s) (q_wprof s) (q_wmat s) (q_m0_shift s) (q_prepared s).
(** attribute assignment (misfit/galaxy.py:670: (0, this)) *)
Definition set_q_mlims (v : option nat) (s : sp2) : sp2 :=
  mkSp2 (q_wave s) (q_obs s) (q_rest s) (q_flux s) (q_err s) (q_mask s) (q_weight s) (q_incl s) (q_cont s) (q_qual s) (q_sky s) (q_low s) (q_wh_sky s) (q_wh_nosky s) (q_low_inds s) (q_median s) (q_cutoff s) (q_rfull s) (q_rline s) (q_rmline s) (q_trimo s) (q_trimr s) (q_dlam s) (q_lam0 s) (q_ypos s) (q_m0 s) (q_m0_fit s) (q_m0_snr s) v (q_full s) (q_wprof s) (q_wmat s) (q_m0_shift s) (q_prepared s).
(** attribute assignment (misfit/general/galaxy_utils.py:240-242: full_m0, full_l_ind, full_r_ind) *)
Definition set_q_full (v : option (Z * Z * Z)) (s : sp2) : sp2 :=
  mkSp2 (q_wave s) (q_obs s) (q_rest s) (q_flux s) (q_err s) (q_mask s) (q_weight s) (q_incl s) (q_cont s) (q_qual s) (q_sky s) (q_low s) (q_wh_sky s) (q_wh_nosky s) (q_low_inds s) (q_median s) (q_cutoff s) (q_rfull s) (q_rline s) (q_rmline s) (q_trimo s) (q_trimr s) (q_dlam s) (q_lam0 s) (q_ypos s) (q_m0 s) (q_m0_fit s) (q_m0_snr s) (q_mlims s) v (q_wprof s) (q_wmat s) (q_m0_shift s) (q_prepared s).
(** attribute assignment (misfit/galaxy.py:703) *)
Definition set_q_wprof (v : option (list fl)) (s : sp2) : sp2 :=
  mkSp2 (q_wave s) (q_obs s) (q_rest s) (q_flux s) (q_err s) (q_mask s) (q_weight s) (q_incl s) (q_cont s) (q_qual s) (q_sky s) (q_low s) (q_wh_sky s) (q_wh_nosky s) (q_low_inds s) (q_median s) (q_cutoff s) (q_rfull s) (q_rline s) (q_rmline s) (q_trimo s) (q_trimr s) (q_dlam s) (q_lam0 s) (q_ypos s) (q_m0 s) (q_m0_fit s) (q_m0_snr s) (q_mlims s) (q_full s) v (q_wmat s) (q_m0_shift s) (q_prepared s).
(** attribute assignment (misfit/galaxy.py:704) *)
Definition set_q_wmat (v : option (arr2 fl)) (s : sp2) : sp2 :=
  mkSp2 (q_wave s) (q_obs s) (q_rest s) (q_flux s) (q_err s) (q_mask s) (q_weight s) (q_incl s) (q_cont s) (q_qual s) (q_sky s) (q_low s) (q_wh_sky s) (q_wh_nosky s) (q_low_inds s) (q_median s) (q_cutoff s) (q_rfull s) (q_rline s) (q_rmline s) (q_trimo s) (q_trimr s) (q_dlam s) (q_lam0 s) (q_ypos s) (q_m0 s) (q_m0_fit s) (q_m0_snr s) (q_mlims s) (q_full s) (q_wprof s) v (q_m0_shift s) (q_prepared s).
(** attribute assignment (misfit/general/galaxy_utils.py:1470) *)
Definition set_q_m0_shift (v : option fl) (s : sp2) : sp2 :=
  mkSp2 (q_wave s) (q_obs s) (q_rest s) (q_flux s) (q_err s) (q_mask s) (q_weight s) (q_incl s) (q_cont s) (q_qual s) (q_sky s) (q_low s) (q_wh_sky s) (q_wh_nosky s) (q_low_inds s) (q_median s) (q_cutoff s) (q_rfull s) (q_rline s) (q_rmline s) (q_trimo s) (q_trimr s) (q_dlam s) (q_lam0 s) (q_ypos s) (q_m0 s) (q_m0_fit s) (q_m0_snr s) (q_mlims s) (q_full s) (q_wprof s) (q_wmat s) v (q_prepared s).
(** attribute assignment (misfit/galaxy.py:690) *)
Definition set_q_prepared (v : bool) (s : sp2) : sp2 :=
  mkSp2 (q_wave s) (q_obs s) (q_rest s) (q_flux s) (q_err s) (q_mask s) (q_weight s) (q_incl s) (q_cont s) (q_qual s) (q_sky s) (q_low s) (q_wh_sky s) (q_wh_nosky s) (q_low_inds s) (q_median s) (q_cutoff s) (q_rfull s) (q_rline s) (q_rmline s) (q_trimo s) (q_trimr s) (q_dlam s) (q_lam0 s) (q_ypos s) (q_m0 s) (q_m0_fit s) (q_m0_snr s) (q_mlims s) (q_full s) (q_wprof s) (q_wmat s) (q_m0_shift s) v.

(** Using None as an array (misfit/general/galaxy_utils.py:61-64, 121-132): exception [e]. *)
Definition need {A} (e : exn) (o : option A) : res A :=
  match o with Some a => Ok a | None => Err e end.
(** arr[wh] of an attribute that may be None (misfit/general/galaxy_utils.py:61-64). *)
Definition take_o (o : option (list fl)) (wh : list nat) : res (list fl) :=
  do l <- need TypeError o; take l wh.
(** image[:,wh] (misfit/general/galaxy_utils.py:122-125). *)
Definition take_cols (a : arr2 fl) (wh : list nat) : res (arr2 fl) :=
  if forallb (fun w => Nat.ltb w (cols a)) wh
  then Ok (mk2 (rows a) (length wh) (fun i j => at2 a i (nth j wh 0%nat))) else Err IndexError.
(** image[:,wh] of an attribute that may be None (misfit/general/galaxy_utils.py:122-125). *)
Definition take_cols_o (o : option (arr2 fl)) (wh : list nat) : res (arr2 fl) :=
  do a <- need TypeError o; take_cols a wh.
(** image[l:r,:] (misfit/general/galaxy_utils.py:206-216). *)
Definition slice_rows (a : arr2 fl) (l r : Z) : arr2 fl :=
  let lo := slice_bound (rows a) l in
  let hi := slice_bound (rows a) r in
  mk2 (hi - lo) (cols a) (fun i j => at2 a (lo + i)%nat j).
(** image[l:r,:] of an attribute that may be None (misfit/general/galaxy_utils.py:206-216). *)
Definition slice_rows_o (o : option (arr2 fl)) (l r : Z) : res (arr2 fl) :=
  do a <- need TypeError o; Ok (slice_rows a l r).

(** The closed range test (misfit/general/galaxy_utils.py:57-58, 117-118, 151-152). *)
Definition within (r : fl * fl) (w : fl) : bool := fgeb w (fst r) && fleb w (snd r).
(** np.array(range)*(1.+z) (misfit/general/galaxy_utils.py:99, 108). *)
Definition to_obs (z : fl) (r : fl * fl) : fl * fl :=
  (fmul (fst r) (fadd (Fin 1) z), fmul (snd r) (fadd (Fin 1) z)).
(** np.array(range)/(1.+z) (misfit/general/galaxy_utils.py:101). *)
Definition to_rest (z : fl) (r : fl * fl) : fl * fl :=
  (fdiv (fst r) (fadd (Fin 1) z), fdiv (snd r) (fadd (Fin 1) z)).
(** wave/(1.+galaxy.z) (misfit/galaxy.py:455). *)
Definition rest_of (z : fl) (w : list fl) : list fl := map (fun x => fdiv x (fadd (Fin 1) z)) w.

(** galaxy.z: None, a Python float or a numpy float (misfit/galaxy.py:188; the difference matters
    for .tolist(), misfit/general/galaxy_utils.py:48). *)
Inductive znum : Type := ZNone | ZPy (r : fl) | ZNp (r : fl).
(** 1. + galaxy.z with z possibly None (misfit/galaxy.py:455). *)
Definition z_value (z : znum) : res fl :=
  match z with ZNone => Err TypeError | ZPy r => Ok r | ZNp r => Ok r end.

(** misfit/general/galaxy_utils.py:25-75 [trim_spectrum_1D]; [file] is what read_wave_range
    returns for the line.  The copy made on line 53 is what is returned; the input is not
    written to. *)
Definition trim_1D (s : option sp1) (z : znum) (rest obs : option (fl * fl)) (file : res (fl * fl))
  : res (option sp1) :=
  match z, obs with
  | ZNone, None => Ok None
  | _, _ =>
    do rest' <- match rest, obs with None, None => do r <- file; Ok (Some r) | _, _ => Ok rest end;
    do obs' <- match obs with
               | Some o => Ok o
               | None => match rest', z with
                         | Some r, ZNp v => Ok (to_obs v r)
                         | _, _ => Err AttributeError
                         end
               end;
    match s with
    | None => Ok None
    | Some s =>
      do ow <- need AttributeError (s_obs s);
      let wh := where_ (within obs') ow in
      match wh with
      | [] => Ok (Some (mkSp1 None (s_obs s) (s_rest s) None None None (s_profile s) (Some obs') rest'))
      | _ => do w <- take_o (s_wave s) wh;
             do f <- take_o (s_flux s) wh;
             do e <- take_o (s_err s) wh;
             do m <- take_o (s_mask s) wh;
             do zv <- z_value z;
             Ok (Some (mkSp1 (Some w) (Some w) (Some (rest_of zv w)) (Some f) (Some e) (Some m)
                             (s_profile s) (Some obs') rest'))
      end
    end
  end.

(** The wavelength range of a 2-D trim (misfit/general/galaxy_utils.py:91-108): (rest, obs);
    [named] says whether a parameter file or a line name is given. *)
Definition trim_range_2D (z : fl) (rest obs : option (fl * fl)) (named : bool) (file : res (fl * fl))
  : res ((fl * fl) * (fl * fl)) :=
  match rest, obs with
  | Some _, Some _ => Err ValueError
  | Some r, None => Ok (r, to_obs z r)
  | None, Some o => Ok (to_rest z o, o)
  | None, None => if named then do r <- file; Ok (r, to_obs z r) else Err ValueError
  end.

(** misfit/general/galaxy_utils.py:78-142 [trim_spectrum_2D_wavelength] with inplace=True. *)
Definition trim_2D_inplace (z : fl) (rest obs : option (fl * fl)) (named : bool) (file : res (fl * fl))
  : ST sp2 unit :=
  sdo r <- liftR (trim_range_2D z rest obs named file);
  sdo _ <- modS (set_q_trimo (Some (snd r)));
  sdo _ <- modS (set_q_trimr (Some (fst r)));
  sdo s <- getS;
  sdo ow <- liftR (need AttributeError (q_obs s));
  let wh := where_ (within (snd r)) ow in
  match wh with
  | [] => sdo _ <- modS (set_q_wave None); sdo _ <- modS (set_q_flux None);
          sdo _ <- modS (set_q_err None); sdo _ <- modS (set_q_mask None);
          modS (set_q_weight None)
  | _ =>
    sdo w <- liftR (take_o (q_wave s) wh); sdo _ <- modS (set_q_wave (Some w));
    sdo f <- liftR (take_cols_o (q_flux s) wh); sdo _ <- modS (set_q_flux (Some f));
    sdo e <- liftR (take_cols_o (q_err s) wh); sdo _ <- modS (set_q_err (Some e));
    sdo m <- liftR (take_cols_o (q_mask s) wh); sdo _ <- modS (set_q_mask (Some m));
    sdo g <- liftR (take_cols_o (q_weight s) wh); sdo _ <- modS (set_q_weight (Some g));
    sdo _ <- match take_cols_o (q_incl s) wh, take_cols_o (q_cont s) wh with
             | Ok a, Ok b => sdo _ <- modS (set_q_incl (Some a)); modS (set_q_cont (Some b))
             | _, _ => sdo _ <- modS (set_q_incl None); modS (set_q_cont None)
             end;
    sdo _ <- modS (set_q_obs (Some w));
    modS (set_q_rest (Some (rest_of z w)))
  end.

(** misfit/general/galaxy_utils.py:143-171 [trim_spectrum_2D_wavelength] with inplace=False: a
    trimmed copy; flux_incl_cont and cont_model of the copy are not trimmed. *)
Definition trim_2D_copy (z : fl) (rest obs : option (fl * fl)) (named : bool) (file : res (fl * fl))
  (s : sp2) : res sp2 :=
  do r <- trim_range_2D z rest obs named file;
  do ow <- need AttributeError (q_obs s);
  let wh := where_ (within (snd r)) ow in
  let s1 := set_q_trimr (Some (fst r)) (set_q_trimo (Some (snd r)) s) in
  match wh with
  | [] => Ok (set_q_weight None (set_q_mask None (set_q_err None (set_q_flux None (set_q_wave None s1)))))
  | _ =>
    do w <- take_o (q_wave s) wh;
    do f <- take_cols_o (q_flux s) wh;
    do e <- take_cols_o (q_err s) wh;
    do m <- take_cols_o (q_mask s) wh;
    do g <- take_cols_o (q_weight s) wh;
    Ok (set_q_rest (Some (rest_of z w)) (set_q_obs (Some w)
       (set_q_weight (Some g) (set_q_mask (Some m) (set_q_err (Some e) (set_q_flux (Some f) (set_q_wave (Some w) s1)))))))
  end.

(** What vert_position returns (misfit/general/galaxy_utils.py:1240): m0, m0_shift_fit,
    m0_peak_snr, m_min, m_max. *)
Record vpos : Type := mkVpos { v_m0 : Z; v_shift : fl; v_snr : fl; v_min : Z; v_max : Z }.

(** flux*mask (misfit/general/galaxy_utils.py:185-186): same shapes; numpy's broadcasting of a
    single row or column is not modelled and treated as the error of any other mismatch. *)
Definition times2 (a b : arr2 fl) : res (arr2 fl) :=
  if shape_eqb a b then Ok (mk2 (rows a) (cols a) (fun i j => fmul (at2 a i j) (at2 b i j)))
  else Err ValueError.

(** misfit/general/galaxy_utils.py:176-276 [trim_spectrum_2D_spatial].  [vert] is
    [vert_position] on the sky-masked flux and error, the observed wavelengths and ypos.  The
    state is the 2-D spectrum and the 1-D one of the galaxy. *)
Definition trim_2D_spatial (dither : bool) (cut : fl)
  (vert : arr2 fl -> arr2 fl -> list fl -> option fl -> res vpos) : ST (sp2 * option sp1) unit :=
  let up f := modS (fun st : sp2 * option sp1 => (f (fst st), snd st)) in
  sdo st <- getS;
  let s := fst st in
  sdo fx <- liftR (need AttributeError (q_flux s));
  sdo sk <- liftR (need AttributeError (q_sky s));
  sdo fm <- liftR (times2 fx sk);
  sdo er <- liftR (need AttributeError (q_err s));
  sdo em <- liftR (times2 er sk);
  sdo ow <- liftR (need AttributeError (q_obs s));
  sdo v <- liftR (vert fm em ow (q_ypos s));
  let n := Z.of_nat (rows fx) in
  let l := if dither then Z.max 0 (v_min v) else 0%Z in
  let r := if dither then Z.min (n - 1) (v_max v) else (n - 1)%Z in
  sdo _ <- up (set_q_flux (Some (slice_rows fx l r)));
  sdo _ <- up (set_q_err (Some (slice_rows er l r)));
  sdo a <- liftR (slice_rows_o (q_incl s) l r); sdo _ <- up (set_q_incl (Some a));
  sdo a <- liftR (slice_rows_o (q_cont s) l r); sdo _ <- up (set_q_cont (Some a));
  sdo a <- liftR (slice_rows_o (q_weight s) l r); sdo _ <- up (set_q_weight (Some a));
  sdo a <- liftR (slice_rows_o (q_mask s) l r); sdo _ <- up (set_q_mask (Some a));
  sdo ql <- liftR (slice_rows_o (q_qual s) l r); sdo _ <- up (set_q_qual (Some ql));
  sdo a <- liftR (slice_rows_o (q_sky s) l r); sdo _ <- up (set_q_sky (Some a));
  sdo lw <- liftR (slice_rows_o (q_low s) l r); sdo _ <- up (set_q_low (Some lw));
  sdo p <- liftR (mask_low_snr_rows_2D (slice_rows fx l r) (slice_rows er l r) ql a cut);
  sdo _ <- up (set_q_low_inds (snd p));
  sdo _ <- match snd st with
           | Some t => match s_profile t with
                       | Some pr => modS (fun st : sp2 * option sp1 => (fst st, Some
                           (mkSp1 (s_wave t) (s_obs t) (s_rest t) (s_flux t) (s_err t) (s_mask t)
                                  (Some (slice pr l r)) (s_trimo t) (s_trimr t))))
                       | None => ret tt
                       end
           | None => ret tt
           end;
  sdo _ <- up (set_q_full (Some (v_m0 v, l, r)));
  sdo _ <- up (set_q_m0 (Some (v_m0 v - l)%Z));
  sdo _ <- up (set_q_m0_fit (v_shift v));
  sdo _ <- up (set_q_m0_snr (v_snr v));
  sdo _ <- up (set_q_mlims (Some (rows (slice_rows fx l r))));
  sdo y <- liftR (need TypeError (q_ypos s));
  up (set_q_ypos (Some (fsub y (Fin (IZR l))))).
