(* The range recorded by a 2-D wavelength trim, and how it is asked for. *)
From Coq Require Import Reals List Bool Arith ZArith Lra Lia.
From Verif Require Import PyFloat PyBase Arr PyNum PKernels MMask SMask MTrim STrim PTrim PTrim2.
Import ListNotations.
Local Open Scope R_scope.

Lemma trim_2D_recorded z rest obs o named file s wave flux err mask weight s' :
  arrays2 s wave flux err mask weight -> asked z rest obs o -> trim_2D_inplace z rest obs named file s = (s', Ok tt) ->
  q_trimo s' = Some o /\ (forall r, rest = Some r -> q_trimr s' = Some r) /\
  (obs <> None -> q_trimr s' = Some (fdiv (fst o) (fadd (Fin 1) z), fdiv (snd o) (fadd (Fin 1) z))).
Proof.
  intros A Ha H. assert (T : exists r, trim_range_2D z rest obs named file = Ok (r, o) /\ (forall r', rest = Some r' -> r' = r) /\
     (obs <> None -> r = (fdiv (fst o) (fadd (Fin 1) z), fdiv (snd o) (fadd (Fin 1) z)))).
  { destruct Ha; cbn; eexists; (split; [reflexivity|]); split; intros; first [congruence|reflexivity]. }
  destruct T as (r & T & R1 & R2). assert (X : q_trimo s' = Some o /\ q_trimr s' = Some r).
  { pose proof (kept_where o wave) as K. set (ks := where_ (within o) wave) in *. destruct ks as [|k kt] eqn:Ek.
    - destruct A as (W & O & _). unfold trim_2D_inplace in H. rewrite (bind_lift _ _ _ _ T) in H. cbv beta in H. cbn [fst snd] in H. rewrite bind_mod, bind_mod, bind_get in H.
      change (q_obs (set_q_trimr (Some r) (set_q_trimo (Some o) s))) with (q_obs s) in H.
      rewrite O in H. rewrite (bind_lift _ wave) in H by reflexivity. cbv beta zeta in H. fold ks in H. rewrite Ek in H. rewrite !bind_mod in H.
      inversion H. split; reflexivity.
    - rewrite (trim_2D_run z rest obs o named file s wave flux err mask weight _ r A T K) in H by discriminate. inversion H. split; reflexivity. }
  destruct X as [X1 X2]. split; [exact X1|]. split; [intros r' E; rewrite (R1 _ E); exact X2|intros N; now rewrite <- (R2 N)].
Qed.

Lemma trim_2D_request z named file s :
  (forall r, file = Ok r -> trim_2D_inplace z None None true file s = trim_2D_inplace z (Some r) None named file s) /\
  (forall e, file = Err e -> trim_2D_inplace z None None true file s = (s, Err e)) /\
  trim_2D_inplace z None None false file s = (s, Err ValueError) /\
  (forall r o, trim_2D_inplace z (Some r) (Some o) named file s = (s, Err ValueError)).
Proof. repeat split; intros; subst; reflexivity. Qed.

