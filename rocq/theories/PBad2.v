(* Proofs: after fit preparation no pixel is unusable. *)
From Coq Require Import Reals List Bool Arith ZArith Lra Lia.
From Verif Require Import PyFloat PyBase Arr PyNum MKernels SKernels PKernels PData MMask SMask PMask PMask2 MTrim STrim PTrim PTrim2 MPrep SPrep PPrep PPrep2 PPrep3 PPrep4 PPrep5 PPrepEx SBad PBad.
Import ListNotations.
Local Open Scope R_scope.

Lemma prep_llike c e e' wave fx er n : raw (e2 e) wave fx er n -> physical wave -> shared e fx er -> fit_prep c e = (e', Ok tt) ->
  no_zero_error fx er (q_mask (e2 e)) (q_weight (e2 e)) ->
  exists fx' er', q_flux (e2 e') = Some fx' /\ q_err (e2 e') = Some er' /\
     forall m w md cs, shape m (rows fx') (cols fx') -> shape w (rows fx') (cols fx') -> shape md (rows fx') (cols fx') ->
       finite2 m -> finite2 w -> finite2 md -> isfinite (model_llike (mkdata fx' er' m w cs) md) = true.
Proof.
  intros R Ph Al H N. destruct (prep_facts _ _ _ _ _ _ _ R Ph Al H) as (wave' & n' & fx' & er' & m' & w' & ic & ct & ql & sk & lw & a & rf & rl & Co & P & L & _).
  destruct Co as (W & _ & Rd & _). destruct Rd as [Rd Sh]. cbn [map] in Rd. injection Rd as E1 E2 E3 E4 E5 E6 E7 E8 E9.
  assert (Sf : shape fx' n' (length wave')) by (apply Sh; cbn; tauto).
  exists fx', er'. split; [congruence|]. split; [congruence|].
  intros m w md cs Sm Sw Sd Fm Fw Fd. rewrite (proj1 Sf), (proj2 Sf) in Sm, Sw, Sd. apply finite_iff. intros i j Hi Hj.
  rewrite (proj1 Sd) in Hi. rewrite (proj2 Sd) in Hj. unfold finite2 in *. rewrite (proj1 Sm), (proj2 Sm) in Fm. rewrite (proj1 Sw), (proj2 Sw) in Fw. rewrite (proj1 Sd), (proj2 Sd) in Fd.
  assert (Ff : isfinite (at2 fx' i j) = true) by apply (P i j Hi Hj).
  assert (Fe : isfinite (at2 er' i j) = true) by apply (P i j Hi Hj).
  assert (Nz : at2 er' i j <> Fin 0) by (apply (P i j Hi Hj); apply no_zero_noz; [|exact N]; destruct R as (_ & _ & _ & _ & R & _); exact R).
  unfold pixel_is_fine. cbn [flux ferr smask fwt].
  destruct (isfinite_Fin _ Ff) as (f & Ef). destruct (isfinite_Fin _ Fe) as (r & Er). destruct (isfinite_Fin _ (Fm i j Hi Hj)) as (k & Ek). destruct (isfinite_Fin _ (Fw i j Hi Hj)) as (v & Ev). destruct (isfinite_Fin _ (Fd i j Hi Hj)) as (y & Ey).
  exists f, r, k, v, y. rewrite Er in Nz. repeat split; auto. congruence.
Qed.
Lemma prep_llike_example : exists e', fit_prep (ex_cfg true false) (ex_env (Some (Fin 2))) = (e', Ok tt) /\
  raw (e2 (ex_env (Some (Fin 2)))) [Fin 10; Fin 11] ex_flux (ones 4 2) 4 /\ physical [Fin 10; Fin 11] /\ shared (ex_env (Some (Fin 2))) ex_flux (ones 4 2) /\ at2 ex_flux 0 0 = NaN /\
  no_zero_error ex_flux (ones 4 2) (q_mask (e2 (ex_env (Some (Fin 2))))) (q_weight (e2 (ex_env (Some (Fin 2))))).
Proof.
  destruct (ex_prep true false) as (e' & H). exists e'. split; [exact H|]. destruct (ex_preparable true false) as [(R & Ph & _) _].
  split; [exact R|]. split; [exact Ph|]. split; [exact (ex_shared _)|]. split; [reflexivity|]. intros i j. cbn. intros. exfalso. match goal with X : Fin 1 = Fin 0 |- _ => injection X; lra end.
Qed.
