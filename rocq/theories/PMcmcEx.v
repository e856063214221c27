(* Properties of sampling runs, and examples. *)
From Coq Require Import Reals List Bool Arith ZArith Lra Lia.
From Verif Require Import PyFloat PyBase Arr PyNum PMask PTrim MMcmc SMcmc PMcmc.
Import ListNotations.
Local Open Scope R_scope.

Lemma save_fields o u : u_chain (fst (save o u)) = u_chain u /\ u_log (fst (save o u)) = u_log u /\
  u_file (fst (save o u)) = (if o_file o then Some (u_chain u) else u_file u).
Proof. unfold save, modS. cbn. auto. Qed.

(** The log, and with it the number of finished steps, of either version. *)
Lemma finished2 m o u u' r : run_emcee_2 m o u = (u', r) -> start u -> forall n, In (LFinished n) (u_log u') ->
  outcome m o u u' [] (Some n) /\
  if Z.ltb 1 (ncpus o) then r = Ok n /\ u_file u' = (if o_file o then Some (u_chain u') else u_file u)
  else r = Err AttributeError /\ u_file u' = u_file u.
Proof.
  intros E S n I. apply run2_inv in E. destruct E as [(e & -> & L & _)|(u1 & r1 & O & F & X)].
  - rewrite L, S in I. destruct I.
  - assert (R : u_log u' = u_log u1 /\ u_chain u' = u_chain u1).
    { destruct r1 as [n'|e]; [|destruct X as [_ ->]; auto]. destruct (1 <? ncpus o)%Z; destruct X as [_ ->]; auto. }
    destruct R as [R1 R2]. rewrite R1 in I.
    assert (E1 : r1 = Ok n).
    { destruct O as (burn & l & _ & _ & _ & _ & _ & ev & L & L' & _). rewrite L, S in I. apply L' in I.
      destruct r1; cbn in I; congruence. }
    subst r1. cbn [of_res] in O. split.
    + unfold outcome in *. rewrite R1, R2. exact O.
    + destruct (1 <? ncpus o)%Z; destruct X as [-> ->]; split; auto. 
      destruct (save_fields o u1) as (X1 & X2 & X3). rewrite X3, X1, F. reflexivity.
Qed.

Lemma finished3 m o oldb old u u' r : run_emcee_3 m o oldb old u = (u', r) -> start u -> 
  forall n, In (LFinished n) (u_log u') ->
  outcome m o u u' (if o_over o then [] else old) (Some n) /\
  r = Ok n /\ u_file u' = (if o_file o then Some (u_chain u') else u_file u).
Proof.
  intros E S n I. apply run3_inv in E. destruct E as [(e & -> & L & _)|(u1 & r1 & O & F & X)].
  - rewrite L, S in I. destruct I.
  - assert (R : u_log u' = u_log u1 /\ u_chain u' = u_chain u1).
    { destruct r1 as [n'|e]; destruct X as [_ ->]; auto. }
    destruct R as [R1 R2]. rewrite R1 in I.
    assert (E1 : r1 = Ok n).
    { destruct O as (burn & l & _ & _ & _ & _ & _ & ev & L & L' & _). rewrite L, S in I. apply L' in I.
      destruct r1; cbn in I; congruence. }
    subst r1. cbn [of_res] in O. split.
    + unfold outcome in *. rewrite R1, R2. exact O.
    + destruct X as [-> ->]; split; auto. 
      destruct (save_fields o u1) as (X1 & X2 & X3). rewrite X3, X1, F. reflexivity.
Qed.

(** A result means that the log says so. *)
Lemma ok2_finished m o u u' n : run_emcee_2 m o u = (u', Ok n) -> In (LFinished n) (u_log u').
Proof.
  intros E. apply run2_inv in E. destruct E as [(e & X & _)|(u1 & r1 & O & F & X)]; [discriminate|].
  destruct r1 as [n'|e]; [|destruct X; discriminate]. destruct (1 <? ncpus o)%Z; destruct X as [X ->]; [|discriminate].
  injection X as <-. destruct O as (burn & l & _ & _ & _ & _ & _ & ev & L & _ & O).
  destruct (O n eq_refl) as (_ & _ & e & ca & -> & _). destruct (save_fields o u1) as (_ & X2 & _). rewrite X2, L.
  rewrite !in_app_iff. cbn. auto 6.
Qed.
Lemma ok3_finished m o oldb old u u' n : run_emcee_3 m o oldb old u = (u', Ok n) -> In (LFinished n) (u_log u').
Proof.
  intros E. apply run3_inv in E. destruct E as [(e & X & _)|(u1 & r1 & O & F & X)]; [discriminate|].
  destruct r1 as [n'|e]; [|destruct X; discriminate]. destruct X as [X ->].
  injection X as <-. destruct O as (burn & l & _ & _ & _ & _ & _ & ev & L & _ & O).
  destruct (O n eq_refl) as (_ & _ & e & ca & -> & _). destruct (save_fields o u1) as (_ & X2 & _). rewrite X2, L.
  rewrite !in_app_iff. cbn. auto 6.
Qed.

Lemma stopping_of m o u u' old n : outcome m o u u' old (Some n) ->
  exists burn l, steps m (u_calls u) (u_pos u) (burn ++ l) /\ length burn = nburn o /\ u_chain u' = old ++ l /\
    length l = n /\ stops m o (u_calls u + nburn o) old l.
Proof.
  intros (burn & l & A1 & A2 & A3 & A4 & A5 & ev & L & _ & O). destruct (O n eq_refl) as (X1 & X2 & _).
  exists burn, l. rewrite <- A3. auto 7.
Qed.

Lemma stopping2 m o u u' r n : run_emcee_2 m o u = (u', r) -> start u -> In (LFinished n) (u_log u') ->
  exists burn l, steps m (u_calls u) (u_pos u) (burn ++ l) /\ length burn = nburn o /\ u_chain u' = l /\
    length l = n /\ stops m o (u_calls u + nburn o) [] l.
Proof. intros E S I. destruct (finished2 _ _ _ _ _ E S n I) as [O _]. exact (stopping_of _ _ _ _ _ _ O). Qed.
Lemma stopping3 m o oldb old u u' r n : run_emcee_3 m o oldb old u = (u', r) -> start u -> In (LFinished n) (u_log u') ->
  exists burn l, steps m (u_calls u) (u_pos u) (burn ++ l) /\ length burn = nburn o /\
    u_chain u' = (if o_over o then [] else old) ++ l /\
    length l = n /\ stops m o (u_calls u + nburn o) (if o_over o then [] else old) l.
Proof. intros E S I. destruct (finished3 _ _ _ _ _ _ _ E S n I) as [O _]. exact (stopping_of _ _ _ _ _ _ O). Qed.

Lemma converged_limits m o c old l k : converged m o c old l k -> limits_set o /\ (50 <= k)%nat.
Proof.
  intros (lo & hi & n & ts & mx & E1 & E2 & E3 & X & Y & _). unfold limits_set. rewrite E1, E2, E3.
  repeat split; auto; congruence.
Qed.
Lemma limits_dec o : limits_set o \/ ~ limits_set o.
Proof.
  unfold limits_set. destruct (o_minaf o), (o_maxaf o), (o_neff o), (o_all o);
    try (left; repeat split; congruence); right; intuition congruence.
Qed.

Lemma all_steps m o u u' r n : ~ limits_set o -> start u -> In (LFinished n) (u_log u') ->
  (run_emcee_2 m o u = (u', r) \/ exists oldb old, run_emcee_3 m o oldb old u = (u', r)) -> Z.of_nat n = o_nsteps o.
Proof.
  intros NL S I E.
  assert (X : exists c old l, length l = n /\ stops m o c old l).
  { destruct E as [E|(oldb & old & E)].
    - destruct (stopping2 _ _ _ _ _ _ E S I) as (b & l & _ & _ & _ & X & Y). eauto.
    - destruct (stopping3 _ _ _ _ _ _ _ _ E S I) as (b & l & _ & _ & _ & X & Y). eauto. }
  destruct X as (c & old & l & <- & _ & _ & _ & [C|C]); auto. elim NL. now apply converged_limits in C.
Qed.

Lemma no_steps m o u : (o_nsteps o <= 0)%Z ->
  (forall u' n, run_emcee_2 m o u <> (u', Ok n)) /\ (forall oldb old u' n, run_emcee_3 m o oldb old u <> (u', Ok n)).
Proof.
  intros H. split.
  - intros u' n E. apply run2_inv in E. destruct E as [(e & X & _)|(u1 & r1 & O & F & X)]; [discriminate|].
    destruct r1 as [n'|e]; [|destruct X; discriminate].
    destruct O as (burn & l & _ & _ & _ & A & _ & ev & _ & _ & O). destruct (O n' eq_refl) as (_ & (Y & Y' & _) & _). lia.
  - intros oldb old u' n E. apply run3_inv in E. destruct E as [(e & X & _)|(u1 & r1 & O & F & X)]; [discriminate|].
    destruct r1 as [n'|e]; [|destruct X; discriminate].
    destruct O as (burn & l & _ & _ & _ & A & _ & ev & _ & _ & O). destruct (O n' eq_refl) as (_ & (Y & Y' & _) & _). lia.
Qed.

(** Caution. *)
Lemma caution_of m o u u' old n : start u -> outcome m o u u' old (Some n) ->
  (In LCaution (u_log u') <-> limits_set o /\ Z.of_nat n = o_nsteps o) /\
  (limits_set o -> (exists burn l, length burn = nburn o /\ u_chain u' = old ++ l /\
      steps m (u_calls u) (u_pos u) (burn ++ l) /\ ~ converged m o (u_calls u + nburn o) old l (length l)) ->
   In LCaution (u_log u')).
Proof.
  intros S (burn & l & A1 & A2 & A3 & A4 & A5 & ev & L & _ & O). destruct (O n eq_refl) as (-> & X2 & e & ca & -> & He & Hc).
  rewrite S in L. cbn in L. rewrite L.
  assert (I : In LCaution (e ++ ca ++ [LFinished (length l)]) <-> In LCaution ca).
  { rewrite !in_app_iff. split; [|auto]. intros [X|[X|[X|[]]]]; auto; [|discriminate]. exfalso.
    destruct He as [[_ ->]|[_ ->]]; [|destruct X]. unfold early in X. rewrite in_app_iff in X.
    destruct X as [X|[X|[]]]; [|discriminate]. destruct (Nat.eqb (length l) 50); [destruct X as [X|[]]; discriminate|destruct X]. }
  rewrite I. assert (J : In LCaution ca <-> limits_set o /\ Z.of_nat (length l) = o_nsteps o).
  { destruct Hc as [[-> Y]|[-> Y]]; cbn; tauto. }
  rewrite J. split; [tauto|]. intros Ls (burn' & l' & B1 & B2 & B3 & B4). split; auto.
  assert (l' = l).
  { rewrite A2 in B2. apply app_inv_head in B2. now symmetry. }
  subst l'. destruct X2 as (_ & _ & _ & [X|X]); auto. rewrite A3 in X. contradiction.
Qed.

(** Runs that finish. *)
Lemma one_step_ok m u : works m -> exists s, one_step m u = (mkRun (fst s) (S (u_calls u)) (u_chain u ++ [s]) (u_log u) (u_file u), Ok tt).
Proof.
  intros [W _]. destruct (W (u_calls u) (u_pos u)) as [s E]. exists s. unfold one_step, bindS, getS, liftR, modS. now rewrite E.
Qed.

Lemma loop_total m o : works m -> forall k ii last u, exists u' fin, sample_loop m o k ii last u = (u', Ok fin).
Proof.
  intros W. induction k as [|k IH]; intros ii last u; [cbn; unfold ret; eauto|].
  rewrite sample_loop_step. unfold bindS at 1. destruct (one_step_ok m u W) as [s ->].
  set (u1 := mkRun _ _ _ _ _). clearbody u1. unfold bindS at 1, getS. unfold bindS at 1, liftR.
  assert (T : forall b u2, exists u' fin, (if b : bool then
        sdo _ <- (if Nat.eqb ii acor_force_min then write (LMinLimit (ii + 1)) else ret tt);
        if Nat.leb acor_force_min ii then sdo _ <- write (LEarly (ii + 1)); ret (Some ii)
        else sample_loop m o k (S ii) (Some ii)
      else sample_loop m o k (S ii) (Some ii)) u2 = (u', Ok fin)).
  { intros [] u2; [|apply IH]. unfold bindS at 1.
    assert (X : exists u3, (if Nat.eqb ii acor_force_min then write (LMinLimit (ii + 1)) else ret tt) u2 = (u3, Ok tt)).
    { destruct (Nat.eqb ii acor_force_min); unfold write, modS, ret; eauto. }
    destruct X as [u3 ->]. destruct (Nat.leb acor_force_min ii); [|apply IH].
    unfold bindS, write, modS, ret. eauto. }
  destruct W as [_ W]. destruct (W (u_calls u1) (u_chain u1)) as [->|(t & ts & ->)]; unfold bindS at 1.
  - unfold converged_now. destruct (o_minaf o), (o_maxaf o), (o_neff o); apply (T false).
  - unfold converged_now. destruct (o_minaf o), (o_maxaf o), (o_neff o); try apply (T false). cbn [np_max bind]. apply T.
Qed.

Lemma loop_last m o k ii last u u' fin : (0 < k)%nat -> sample_loop m o k ii last u = (u', Ok fin) -> fin <> None.
Proof.
  revert ii last u. induction k as [|k IH]; intros ii last u Hk; [lia|].
  rewrite sample_loop_step. unfold bindS at 1. destruct (one_step m u) as [u1 [[]|e]]; [|discriminate].
  unfold bindS at 1, getS. unfold bindS at 1, liftR.
  destruct (match em_acor m (u_calls u1) (u_chain u1) with AcorTimes ts => Ok (Some ts) | AcorShort => Ok None | AcorRaise e => Err e end); [|discriminate].
  unfold bindS at 1. destruct (converged_now o ii (em_af m (u_calls u1) (u_chain u1)) a) as [b|e]; [|discriminate].
  assert (R : forall u2, sample_loop m o k (S ii) (Some ii) u2 = (u', Ok fin) -> fin <> None).
  { intros u2 E. destruct k as [|k']; [cbn in E; unfold ret in E; congruence|]. eapply IH; [lia|exact E]. }
  destruct b; [|apply R]. unfold bindS at 1.
  destruct ((if Nat.eqb ii acor_force_min then write (LMinLimit (ii + 1)) else ret tt) u1) as [u2 [[]|e]]; [|discriminate].
  destruct (Nat.leb acor_force_min ii); [|apply R]. unfold bindS, write, modS, ret. congruence.
Qed.

Lemma finish_ok o ii u : exists u', finish o (Some ii) u = (u', Ok (ii + 1)%nat).
Proof.
  destruct (finish o (Some ii) u) as [u' r] eqn:E. apply finish_spec in E. destruct E as (_ & _ & _ & -> & _). eauto.
Qed.

Lemma burn_total m : works m -> forall k u, exists u', burn_loop m k u = (u', Ok tt).
Proof.
  intros W. induction k as [|k IH]; intros u; [cbn; unfold ret; eauto|].
  cbn [burn_loop]. unfold bindS. destruct (one_step_ok m u W) as [s ->]. apply IH.
Qed.

Lemma main_total m o u : works m -> (1 <= o_nsteps o)%Z ->
  exists u' n, bindS (sample_loop m o (Z.to_nat (o_nsteps o)) 0 None) (finish o) u = (u', Ok n).
Proof.
  intros W H. unfold bindS. destruct (loop_total m o W (Z.to_nat (o_nsteps o)) 0 None u) as (u1 & fin & E). rewrite E.
  apply loop_last in E; [|lia]. destruct fin as [ii|]; [|congruence]. destruct (finish_ok o ii u1) as [u2 X]. eauto.
Qed.

Lemma total2 m o u : works m -> (1 <= o_nsteps o)%Z -> start u ->
  exists u' n, In (LFinished n) (u_log u') /\
    run_emcee_2 m o u = (u', if Z.ltb 1 (ncpus o) then Ok n else Err AttributeError).
Proof.
  intros W H S. destruct (run_emcee_2 m o u) as [u' r] eqn:E. pose proof E as E0.
  unfold run_emcee_2 in E. unfold bindS at 1, set_chain at 1, modS in E.
  set (u0 := mkRun (u_pos u) (u_calls u) [] (u_log u) (u_file u)) in *.
  set (B := if Z.ltb 0 (o_nburn o) then _ else _) in E.
  assert (HB : exists u1, B u0 = (u1, Ok tt)).
  { unfold B. destruct (Z.ltb 0 (o_nburn o)); [|unfold ret; eauto]. unfold bindS.
    destruct (burn_total m W (Z.to_nat (o_nburn o)) u0) as [u1 ->]. unfold set_chain, modS. eauto. }
  destruct HB as [u1 HB]. unfold bindS at 1 in E. rewrite HB in E.
  rewrite <- (bindS_assoc (sample_loop m o (Z.to_nat (o_nsteps o)) 0 None) (finish o)) in E. unfold bindS at 1 in E.
  destruct (main_total m o u1 W H) as (u2 & n & E2). rewrite E2 in E.
  assert (I : In (LFinished n) (u_log u')).
  { assert (X : In (LFinished n) (u_log u2)).
    { unfold bindS in E2. destruct (sample_loop m o (Z.to_nat (o_nsteps o)) 0 None u1) as [u3 [fin|]]; [|discriminate].
      apply finish_spec in E2. destruct E2 as (_ & _ & _ & E2). destruct fin as [ii|]; [|destruct E2; discriminate].
      destruct E2 as [En (ca & -> & _)]. injection En as ->. rewrite !in_app_iff. cbn. auto. }
    unfold bindS at 1, liftR in E. destruct (1 <? ncpus o)%Z; [|injection E as <- <-; exact X].
    unfold bindS, save, modS, ret in E. injection E as <- <-. exact X. }
  exists u', n. split; auto. f_equal. destruct (finished2 _ _ _ _ _ E0 S n I) as [_ X].
  destruct (1 <? ncpus o)%Z; destruct X; auto.
Qed.

Lemma total3 m o oldb old u : works m -> (forall c h, em_acor m c h <> AcorShort) -> (1 <= o_nsteps o)%Z ->
  exists u' n, run_emcee_3 m o oldb old u = (u', Ok n).
Proof.
  intros W NS H. unfold run_emcee_3. unfold bindS at 1, set_chain at 1, modS.
  set (u0 := mkRun _ _ _ _ _). set (B := if Z.ltb 0 (o_nburn o) then _ else _).
  assert (HB : exists u1, B u0 = (u1, Ok tt)).
  { unfold B. destruct (Z.ltb 0 (o_nburn o)); [|unfold ret; eauto]. unfold bindS.
    destruct (burn_total m W (Z.to_nat (o_nburn o)) u0) as [u1 ->]. unfold getS, liftR. exists u1. f_equal.
    destruct W as [_ W]. specialize (NS (u_calls u1) (u_chain u1)).
    destruct (W (u_calls u1) (u_chain u1)) as [X|(t & ts & ->)]; [contradiction|reflexivity]. }
  destruct HB as [u1 HB]. clearbody B. unfold bindS at 1. rewrite HB. unfold bindS at 1, set_chain, modS.
  rewrite <- (bindS_assoc (sample_loop m o (Z.to_nat (o_nsteps o)) 0 None) (finish o)). unfold bindS at 1.
  match goal with |- context [bindS _ (finish o) ?v] => destruct (main_total m o v W H) as (u2 & n & E2); rewrite E2 end.
  unfold bindS, save, modS, ret. eauto.
Qed.

(** A sampler that never moves, with a short autocorrelation time. *)
Definition still : emcee := mkEmcee (fun _ p => Ok (p, map (fun _ => Fin 0) p)) (fun _ _ => Fin (35/100)) (fun _ _ => AcorTimes [Fin 1; Fin 2]).
Definition opts (n nb : Z) (ncpu : option Z) (over : bool) : mopts :=
  mkMopts ncpu 4 false n nb (Some (Fin 10)) (Some (Fin (2/10))) (Some (Fin (5/10))) false over true.
Definition two_walkers : run := mkRun [[Fin 1]; [Fin 2]] 0 [] [] None.

Lemma still_works : works still.
Proof. split; [intros; eexists; reflexivity|]. intros. right. do 2 eexists. reflexivity. Qed.

Lemma still_converged n nb nc ov c old l k : (50 <= k)%nat -> converged still (opts n nb nc ov) c old l k.
Proof.
  intros H. exists (Fin (2/10)), (Fin (5/10)), (Fin 10), [Fin 1; Fin 2], (Fin 2). cbn [opts o_minaf o_maxaf o_neff o_all em_af em_acor still].
  assert (INR 49 <= INR (k - 1)) by (apply le_INR; lia). rewrite (INR_IZR_INZ 49) in H0. cbn in H0.
  repeat split; auto; try (cbn [fltb fmul]; apply Rltb_true; lra).
  - cbn. auto.
  - intros t [<-|[<-|[]]]; cbn [fleb]; apply Rleb_true; lra.
Qed.

Lemma still_run_3 n nb nc ov oldb old : (50 <= n)%Z ->
  exists u', run_emcee_3 still (opts n nb nc ov) oldb old two_walkers = (u', Ok 50%nat) /\
    u_log u' = [LMinLimit 50; LEarly 50] ++ (if Z.eqb n 50 then [LCaution] else []) ++ [LFinished 50].
Proof.
  intros Hn. destruct (total3 still (opts n nb nc ov) oldb old two_walkers still_works) as (u' & k & E); [discriminate|cbn; lia|].
  assert (S : start two_walkers) by reflexivity.
  pose proof (ok3_finished _ _ _ _ _ _ _ E) as I. destruct (finished3 _ _ _ _ _ _ _ E S k I) as [O _].
  destruct O as (burn & l & A1 & A2 & A3 & A4 & A5 & ev & L & _ & O). destruct (O k eq_refl) as (Ek & X2 & e & ca & -> & He & Hc).
  assert (K : k = 50%nat).
  { destruct X2 as (Y1 & Y2 & Y3 & Y4). destruct (Nat.lt_trichotomy k 50) as [Q|[Q|Q]]; auto.
    - exfalso. destruct Y4 as [Y4|Y4]; [apply converged_limits in Y4; lia|]. cbn in Y4. lia.
    - exfalso. apply (Y3 50%nat); [lia|]. now apply still_converged. }
  clear Ek. subst k. exists u'. split; auto. rewrite L. cbn [two_walkers u_log app].
  destruct He as [[_ ->]|[He _]]; [|elim He; now apply still_converged].
  change (early 50) with [LMinLimit 50; LEarly 50]. 
  replace ca with (if Z.eqb n 50 then [LCaution] else []); [reflexivity|].
  destruct (Z.eqb_spec n 50) as [->|Q]; destruct Hc as [[-> Y]|[-> Y]]; auto.
  - elim Y. split; [|reflexivity]. repeat split; cbn; congruence.
  - destruct Y as [_ Y]. cbn in Y. lia.
Qed.

Lemma caution_refuted : exists m o u u', run_emcee_3 m o [] [] u = (u', Ok 50%nat) /\ start u /\
  (forall c old l, converged m o c old l 50) /\ In LCaution (u_log u').
Proof.
  exists still, (opts 50 0 None true), two_walkers. destruct (still_run_3 50 0 None true [] []) as (u' & E & L); [lia|].
  exists u'. repeat split; auto; [intros; now apply still_converged|]. rewrite L. cbn. auto.
Qed.

Lemma saved3 m o oldb old u u' n : run_emcee_3 m o oldb old u = (u', Ok n) -> start u -> o_file o = true ->
  u_file u' = Some (u_chain u').
Proof.
  intros E S F. destruct (finished3 _ _ _ _ _ _ _ E S n (ok3_finished _ _ _ _ _ _ _ E)) as (_ & _ & X). now rewrite F in X.
Qed.
Lemma several_ncpus o : several_processes o -> (1 < ncpus o)%Z.
Proof. unfold ncpus. intros (-> & [(n & -> & H) | (-> & H)]); exact H. Qed.
Lemma one_ncpus o : one_process o -> (ncpus o <= 1)%Z.
Proof. unfold ncpus. intros [-> | [(n & -> & H) | (-> & H)]]; [reflexivity|destruct (o_nothread o); lia..]. Qed.
Lemma saved2 m o u u' r n : run_emcee_2 m o u = (u', r) -> start u -> In (LFinished n) (u_log u') -> o_file o = true ->
  several_processes o -> r = Ok n /\ u_file u' = Some (u_chain u').
Proof.
  intros E S I F N. apply several_ncpus in N. destruct (finished2 _ _ _ _ _ E S n I) as [_ X]. apply Z.ltb_lt in N. rewrite N, F in X. exact X.
Qed.
Lemma lost2 m o u : works m -> (1 <= o_nsteps o)%Z -> start u -> one_process o ->
  exists u' n, run_emcee_2 m o u = (u', Err AttributeError) /\ In (LFinished n) (u_log u') /\ u_file u' = u_file u.
Proof.
  intros W H S N. apply one_ncpus in N. destruct (total2 m o u W H S) as (u' & n & I & E). exists u', n.
  destruct (finished2 _ _ _ _ _ E S n I) as [_ X]. assert (L : (1 <? ncpus o)%Z = false) by (apply Z.ltb_ge; lia).
  rewrite L in *. destruct X. auto.
Qed.

Lemma only_this_run m o oldb old u u' n : run_emcee_3 m o oldb old u = (u', Ok n) -> start u -> o_file o = true ->
  o_over o = true \/ old = [] ->
  exists burn l, length burn = nburn o /\ steps m (u_calls u) (u_pos u) (burn ++ l) /\ length l = n /\ u_file u' = Some l.
Proof.
  intros E S F O. destruct (stopping3 _ _ _ _ _ _ _ _ E S (ok3_finished _ _ _ _ _ _ _ E)) as (burn & l & A & B & C & D & _).
  exists burn, l. repeat split; auto. rewrite (saved3 _ _ _ _ _ _ _ E S F), C. destruct O as [-> | ->]; [|destruct (o_over o)]; reflexivity.
Qed.
Lemma mixed_chain_refuted : exists m o old u u' n l, run_emcee_3 m o [] old u = (u', Ok n) /\ start u /\ old <> [] /\
  u_file u' = Some (old ++ l) /\ length l = n /\ steps m (u_calls u) (u_pos u) l.
Proof.
  set (old := [([[Fin 7]; [Fin 8]], [Fin 0; Fin 0])] : list snap).
  destruct (still_run_3 60 0 None false [] old) as (u' & E & _); [lia|].
  assert (S : start two_walkers) by reflexivity.
  destruct (stopping3 _ _ _ _ _ _ _ _ E S (ok3_finished _ _ _ _ _ _ _ E)) as (burn & l & A & B & C & D & _).
  exists still, (opts 60 0 None false), old, two_walkers, u', 50%nat, l. repeat split; auto; [discriminate| |].
  - rewrite (saved3 _ _ _ _ _ _ _ E S eq_refl), C. reflexivity.
  - destruct burn; [exact A|discriminate].
Qed.

(** The packed chain. *)
Lemma make_dict_ok nw nd c b : (0 < nd)%nat -> exists d, make_dict (chain_of nw nd c) (lnp_of nw c) (Z.of_nat b) = Ok d /\
  rows (d_flat d) = (nw * (length c - b))%nat /\ cols (d_flat d) = nd /\ length (d_flatlnp d) = (nw * (length c - b))%nat /\
  forall w k j p, (w < nw)%nat -> (b + k < length c)%nat -> (j < nd)%nat -> nth_error c (b + k) = Some p ->
    at2 (d_flat d) (w * (length c - b) + k) j = lnth (nth w (fst p) []) j /\
    lnth (d_flatlnp d) (w * (length c - b) + k) = lnth (snd p) w.
Proof.
  intros Hn. unfold make_dict. cbn [chain_of lnp_of dim0 dim1 dim2 rows cols at2 at3].
  rewrite (proj2 (Nat.eqb_neq nd 0)) by lia. eexists. split; [reflexivity|]. cbn [d_flat d_flatlnp rows cols at2 at3].
  assert (B : slice_bound (length c) (Z.of_nat b) = Nat.min b (length c)).
  { unfold slice_bound. rewrite (proj2 (Z.ltb_ge (Z.of_nat b) 0)) by lia. lia. }
  rewrite B. replace (length c - Nat.min b (length c))%nat with (length c - b)%nat by lia.
  split; auto. split; auto. split; [now rewrite map_length, seq_length|].
  intros w k j p Hw Hk Hj Hp. set (K := (length c - b)%nat) in *. assert (HK : (k < K)%nat) by lia.
  assert (D : ((w * K + k) / K = w)%nat) by (rewrite Nat.div_add_l, Nat.div_small by lia; lia).
  assert (M : ((w * K + k) mod K = k)%nat) by (rewrite Nat.add_comm, Nat.mod_add, Nat.mod_small by lia; lia).
  assert (Q : nth (Nat.min b (length c) + k) c ([], []) = p).
  { replace (Nat.min b (length c)) with b by lia. now apply nth_error_nth. }
  assert (Q' : forall d, nth (Nat.min b (length c) + k) c d = p).
  { intros d. replace (Nat.min b (length c)) with b by lia. now apply nth_error_nth. }
  split.
  - now rewrite D, M, Q'.
  - unfold lnth at 1. erewrite nth_error_nth; [reflexivity|]. rewrite nth_error_map, nth_error_nth' with (d := 0%nat) by (rewrite seq_length; nia).
    rewrite seq_nth by nia. cbn [option_map]. rewrite Nat.add_0_l, D, M, Q'. reflexivity.
Qed.

Lemma make_dict_no_param nw c b : make_dict (chain_of nw 0 c) (lnp_of nw c) b = Err ValueError.
Proof. reflexivity. Qed.

Lemma ex_lost2 : exists u' n, run_emcee_2 still (opts 60 5 (Some 1%Z) true) two_walkers = (u', Err AttributeError) /\
  In (LFinished n) (u_log u') /\ u_file u' = None.
Proof.
  apply lost2; [exact still_works|discriminate|reflexivity|]. right. left. exists 1%Z. split; [reflexivity|lia].
Qed.
