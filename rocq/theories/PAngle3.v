(* Proofs: fits with angles in another unit, and the shapes this applies to. *)
From Coq Require Import Reals Lra Lia List Bool Arith ZArith FunctionalExtensionality.
From Verif Require Import PyFloat PyBase Arr PyNum MParams MKernels MAper2D MProf SParams SAper2D SMirror SBright SFrame SAngle PParams PKernels PAper2D PAper2DVal PAper2DOk PLos PMirror PMirror2 PMirror5 PBright PBright2 PBright3 PBright4 PFrame PUnits PLine PScale PAngle PAngle2.
Import ListNotations.
Local Open Scope R_scope.

Lemma pick_rank : forall vary ws m, free vary m -> nth (rank vary m) (pick vary ws) 1 = nth m ws 1.
Proof.
  induction vary as [|b v IH]; intros ws m H; [destruct m; discriminate|]. destruct m as [|m].
  - unfold free in H. cbn in H. injection H as ->. cbn. now destruct ws.
  - unfold free in H. cbn [nth_error] in H. assert (E : nth m (tl ws) 1 = nth (S m) ws 1) by (destruct ws; [destruct m; reflexivity|reflexivity]).
    rewrite <- E, <- (IH (tl ws) m H). destruct b; reflexivity.
Qed.
Lemma weigh_update ws th vary tf : length vary = length th -> length tf = nfree vary ->
  exists t, update_parameters th vary tf = (t, Ok tt) /\ length t = length th /\ update_parameters (weigh ws th) vary (weigh (pick vary ws) tf) = (weigh ws t, Ok tt).
Proof.
  intros V F. destruct (update_parameters_spec th vary tf V) as (t & E & L & A & B); [lia|]. exists t. split; [exact E|]. split; [exact L|].
  destruct (update_parameters_spec (weigh ws th) vary (weigh (pick vary ws) tf)) as (t' & E' & L' & A' & B'); [now rewrite weigh_len|rewrite weigh_len; lia|].
  rewrite E'. f_equal. apply list_ext. intros m. rewrite weigh_nth.
  destruct (nth_error vary m) as [[]|] eqn:Q.
  - rewrite (A' m Q), (A m Q), weigh_nth, pick_rank by exact Q. reflexivity.
  - assert (N : ~ free vary m) by (unfold free; congruence). now rewrite (B' m N), (B m N), weigh_nth.
  - assert (N : ~ free vary m) by (unfold free; congruence). now rewrite (B' m N), (B m N), weigh_nth.
Qed.

Section Fit.
Variables (u kp : R) (ws : list R) (psf : fl -> fl -> fl) (P : profs) (c : cfg).
Hypothesis Hu : 0 < u.
Hypothesis Hk : 0 < kp.
Hypothesis Hpsf : same_psf u kp (i_prof (c_ins c)) psf.
Hypothesis Hd : same_disc u ws (c_prof c) P.
Hypothesis Hfit : o_shift (c_opt c) || o_eff (c_opt c) = true -> same_centres u (p_lmfit (c_prof c)) (p_lmfit P).
Let c' := in_angle u psf P c.
Notation RelA := (ARel u kp).
Definition oA (o o' : option aper) : Prop := match o, o' with Some x, Some x' => RelA x x' | None, None => True | _, _ => False end.
Definition kA (k k' : kinmodel) : Prop :=
  k_noscale k = false /\ k_noscale k' = false /\ k_vary k' = k_vary k /\ oA (k_aper k) (k_aper k') /\
  k_theta k' = weigh ws (k_theta k) /\ length (k_vary k) = length (k_theta k) /\ (p_nvel (c_prof c) + 2 <= length (k_theta k))%nat.
Definition kAr (p q : kinmodel * res unit) : Prop := kA (fst p) (fst q) /\ snd p = snd q /\ (snd p = Ok tt -> k_model (fst p) = k_model (fst q)).
Lemma store_angle k k' x x' : kA k k' -> RelA x x' -> kAr (store_model c k x) (store_model c' k' x').
Proof.
  intros H (t & v & ->). unfold store_model. cbn [AB a_model]. pose proof H as (N & N' & _). rewrite N, N'.
  destruct (a_model x) as [im|]; cbn [option_map].
  - change (g_data (c_gal c')) with (g_data (c_gal c)). rewrite (scale_bright _ _ _ (Huu u Hu)).
    destruct (scale_model _ _); (split; [destruct H as (_ & _ & H); repeat split; apply H|]); (split; [reflexivity|]); intros E; [reflexivity|discriminate].
  - split; [exact H|]. split; [reflexivity|discriminate].
Qed.
Lemma update_aper_angle k k' : kA k k' -> kAr (km_update_aper c k) (km_update_aper c' k').
Proof.
  intros H. pose proof H as (N & N' & V & A & T & L & M). unfold km_update_aper.
  destruct (k_aper k) as [x|] eqn:E, (k_aper k') as [x'|] eqn:E'; try contradiction.
  - destruct (a_update u kp ws psf P c Hu Hk Hd Hfit (k_theta k) x x' A) as [X Y]. rewrite <- T in X, Y.
    fold c' in X, Y. destruct (aper_update c (k_theta k) x) as [y r], (aper_update c' (k_theta k') x') as [y' r']. cbn [fst snd] in X, Y. subst r'.
    apply V_A in X.
    assert (KF : kA (mkkm (k_theta k) (k_vary k) (k_noscale k) (Some y) (k_model k) (a_stamp y)) (mkkm (k_theta k') (k_vary k') (k_noscale k') (Some y') (k_model k') (a_stamp y')))
      by (repeat (split; [assumption|]); exact M).
    destruct r as [[]|e]; [apply store_angle; assumption|]. split; [exact KF|]. split; [reflexivity|discriminate].
  - split; [exact H|]. split; [reflexivity|discriminate].
Qed.
Lemma params_angle k k' tf : kA k k' -> length tf = nfree (k_vary k) -> exists t, update_parameters (k_theta k) (k_vary k) tf = (t, Ok tt) /\
  update_parameters (k_theta k') (k_vary k') (weigh (pick (k_vary k) ws) tf) = (weigh ws t, Ok tt) /\
  kA (mkkm t (k_vary k) (k_noscale k) (k_aper k) (k_model k) (k_stamp k)) (mkkm (weigh ws t) (k_vary k') (k_noscale k') (k_aper k') (k_model k') (k_stamp k')).
Proof.
  intros (N & N' & V & A & T & L & M) F. destruct (weigh_update ws (k_theta k) (k_vary k) tf L F) as (t & E & Lt & E'). exists t. split; [exact E|]. rewrite T, V. split; [exact E'|].
  split; [exact N|]. split; [exact N'|]. split; [reflexivity|]. split; [exact A|]. split; [reflexivity|]. cbn [k_vary k_theta]. rewrite Lt. auto.
Qed.
Lemma update_angle k k' tf : kA k k' -> kAr (km_update c tf k) (km_update c' (weigh (pick (k_vary k) ws) tf) k').
Proof.
  intros H. pose proof H as (_ & _ & V & _). unfold km_update. rewrite V at 1. rewrite weigh_len. destruct (Nat.eqb _ _) eqn:F; cbn [negb].
  - apply Nat.eqb_eq in F. rewrite n_free_param_nfree in F. destruct (params_angle k k' tf H F) as (t & E & E' & K). rewrite E, E'. apply update_aper_angle. exact K.
  - split; [exact H|]. split; [reflexivity|discriminate].
Qed.
Lemma make_angle k k' tf : kA k k' -> kAr (km_make c tf k) (km_make c' (weigh (pick (k_vary k) ws) tf) k').
Proof.
  intros H. pose proof H as (_ & _ & V & _). unfold km_make. rewrite V at 1. rewrite weigh_len. destruct (Nat.eqb _ _) eqn:F; cbn [negb].
  2:{ split; [exact H|]. split; [reflexivity|discriminate]. }
  apply Nat.eqb_eq in F. rewrite n_free_param_nfree in F. destruct (params_angle k k' tf H F) as (t & E & E' & K). rewrite E, E'.
  pose proof K as (N & N' & _ & A & T & L & M). cbn [k_theta k_vary k_noscale k_aper k_stamp] in *.
  destruct (k_aper k) as [x|] eqn:Ex, (k_aper k') as [x'|] eqn:Ex'; try contradiction.
  - apply update_aper_angle. exact K.
  - pose proof (a_new u kp ws psf P c Hu Hk Hpsf Hd Hfit t (k_stamp k) (k_stamp k') M) as Y. fold c' in Y.
    destruct (aper_new c t (k_stamp k)) as [st [x|e]], (aper_new c' (weigh ws t) (k_stamp k')) as [st' [x'|e']]; cbn [fst snd] in Y; try contradiction.
    + apply V_A in Y. apply store_angle; [|exact Y]. split; [exact N|]. split; [exact N'|]. split; [exact V|]. split; [exact Y|]. split; [reflexivity|]. auto.
    + subst e'. split; [|split; [reflexivity|discriminate]]. split; [exact N|]. split; [exact N'|]. split; [exact V|]. split; [exact I|]. split; [reflexivity|]. auto.
Qed.
Lemma vary_make k tf : k_vary (fst (km_make c tf k)) = k_vary k.
Proof.
  unfold km_make. destruct (negb _); [reflexivity|]. destruct (update_parameters _ _ _) as [t [[]|e]]; [|reflexivity]. cbn [k_aper k_stamp].
  assert (S : forall k x, k_vary (fst (store_model c k x)) = k_vary k). { intros q x. unfold store_model. destruct (a_model x); [|reflexivity]. destruct (k_noscale q); [reflexivity|]. destruct (scale_model _ _); reflexivity. }
  destruct (k_aper k) as [x|] eqn:E.
  - unfold km_update_aper. cbn [k_aper k_theta]. destruct (aper_update c t x) as [y [[]|e]]; [now rewrite S|reflexivity].
  - destruct (aper_new c t (k_stamp k)) as [st [y|e]]; [now rewrite S|reflexivity].
Qed.
Lemma vary_llike k tf : k_vary (fst (km_llike c k tf)) = k_vary k.
Proof.
  unfold km_llike, km_update. destruct (negb _); [reflexivity|]. destruct (update_parameters _ _ _) as [t [[]|e]]; [|reflexivity].
  assert (S : forall k x, k_vary (fst (store_model c k x)) = k_vary k). { intros q x. unfold store_model. destruct (a_model x); [|reflexivity]. destruct (k_noscale q); [reflexivity|]. destruct (scale_model _ _); reflexivity. }
  unfold km_update_aper. cbn [k_aper k_theta]. destruct (k_aper k) as [x|]; [|reflexivity]. destruct (aper_update c t x) as [y [[]|e]]; [|reflexivity].
  specialize (S (mkkm t (k_vary k) (k_noscale k) (Some y) (k_model k) (a_stamp y)) y).
  cbn [k_vary k_noscale k_model]. destruct (store_model _ _ _) as [q [[]|e]]; [|exact S]. destruct (k_model q); exact S.
Qed.
Lemma llike_angle k k' tf : kA k k' -> kA (fst (km_llike c k tf)) (fst (km_llike c' k' (weigh (pick (k_vary k) ws) tf))) /\ snd (km_llike c k tf) = snd (km_llike c' k' (weigh (pick (k_vary k) ws) tf)).
Proof.
  intros H. unfold km_llike. destruct (update_angle k k' tf H) as (X & Y & M).
  destruct (km_update c tf k) as [y [[]|e]], (km_update c' (weigh (pick (k_vary k) ws) tf) k') as [y' [[]|e']]; cbn [fst snd] in *; try discriminate.
  - rewrite (M eq_refl) in *. destruct (k_model y'); split; auto.
  - injection Y as <-. split; auto.
Qed.
Lemma seq_angle tfs : forall k k', kA k k' -> likelihoods c k tfs = likelihoods c' k' (map (weigh (pick (k_vary k) ws)) tfs).
Proof.
  induction tfs as [|tf tfs IH]; intros k k' H; [reflexivity|]. cbn [likelihoods map]. destruct (llike_angle k k' tf H) as [X Y]. pose proof (vary_llike k tf) as Q.
  destruct (km_llike c k tf) as [y r], (km_llike c' k' (weigh (pick (k_vary k) ws) tf)) as [y' r']. cbn [fst snd] in *. subst r'. f_equal. rewrite <- Q. now apply IH.
Qed.
End Fit.

Lemma angle_image u ws psf P c th st st' : angle_change u ws psf P c -> (p_nvel (c_prof c) + 2 <= length th)%nat ->
  picture_times (u * u) (snd (aper_new c th st)) (snd (aper_new (in_angle u psf P c) (weigh ws th) st')).
Proof.
  intros (Hu & (k & Hk & Hp) & Hd & Hf) L. pose proof (a_new u k ws psf P c Hu Hk Hp Hd Hf th st st' L) as Y. unfold picture_times.
  destruct (snd (aper_new c th st)) as [x|e], (snd (aper_new (in_angle u psf P c) (weigh ws th) st')) as [x'|e']; try contradiction; [|exact Y].
  destruct Y as (t & v & _ & ->). reflexivity.
Qed.
Lemma angle_fit u ws psf P c k tf0 tfs : angle_change u ws psf P c -> (p_nvel (c_prof c) + 2 <= length (k_theta k))%nat -> length (k_vary k) = length (k_theta k) ->
  k_noscale k = false -> k_aper k = None ->
  let c' := in_angle u psf P c in let free := weigh (pick (k_vary k) ws) in
  let p := km_make c tf0 k in let p' := km_make c' (free tf0) (with_theta (weigh ws (k_theta k)) k) in
  snd p = snd p' /\ (snd p = Ok tt -> k_model (fst p) = k_model (fst p')) /\ likelihoods c (fst p) tfs = likelihoods c' (fst p') (map free tfs).
Proof.
  intros (Hu & (kp & Hk & Hp) & Hd & Hf) L V N A c' free p p'.
  destruct (make_angle u kp ws psf P c Hu Hk Hp Hd Hf k (with_theta (weigh ws (k_theta k)) k) tf0) as (X & Y & M).
  { split; [exact N|]. split; [exact N|]. split; [reflexivity|]. unfold with_theta. cbn [k_aper k_theta k_vary]. rewrite A. split; [exact I|]. auto. }
  split; [exact Y|]. split; [exact M|].
  pose proof (seq_angle u kp ws psf P c Hu Hk Hd Hf tfs _ _ X) as Q. rewrite (vary_make c k tf0) in Q. exact Q.
Qed.
(* the shapes of the package *)
Lemma angle_gauss : forall u sig, 0 < u -> same_psf u 1 (fun x y => gauss_pt sig x y (Fin 0)) (fun x y => gauss_pt (fmul (Fin u) sig) x y (Fin 0)).
Proof. intros u sig Hu x y. rewrite <- (s_0 u) at 1. now rewrite (z_gpt u Hu), one_s. Qed.
Lemma angle_moffat : forall u al be, 0 < u -> same_psf u (/ (u * u)) (fun x y => moffat_pt al be x y (Fin 0)) (fun x y => moffat_pt (fmul (Fin u) al) be x y (Fin 0)).
Proof. intros u al be Hu x y. rewrite <- (s_0 u) at 1. now rewrite (z_mpt u Hu). Qed.
Lemma zero_s u r : 0 < u -> fmul (Fin 0) (fmul (Fin u) r) = fmul (Fin 0) r.
Proof. intros H. destruct r; rewrite ?(s_PInf u H), ?(s_NInf u H); try reflexivity. cbn. f_equal. ring. Qed.
Lemma angle_disc : forall u nd Ie n re q0 I I' fit fit', 0 < u ->
  ((forall r z, int_fiducial Ie n re q0 r z = Ok (I r z)) /\ (forall r z, int_fiducial Ie n (fmul (Fin u) re) q0 r z = Ok (I' r z)) \/
   (forall r z, int_expscale Ie n re q0 r z = Ok (I r z)) /\ (forall r z, int_expscale Ie n (fmul (Fin u) re) q0 r z = Ok (I' r z))) ->
  same_disc u [1; u] (mkprofs 2 nd vel_arctan disp_const I fit) (mkprofs 2 nd vel_arctan disp_const I' fit').
Proof.
  intros u nd Ie n re q0 I I' fit fit' Hu HI.
  assert (W : forall i, (2 <= i)%nat -> nth i [1; u] 1 = 1) by (intros [|[|[|i]]] H; try lia; reflexivity).
  assert (V : forall th r z, vel_arctan (firstn 2 (weigh [1; u] th)) (fmul (Fin u) r) (fmul (Fin u) z) = vel_arctan (firstn 2 th) r z).
  { intros [|a [|b th]] r z; try reflexivity. unfold weigh, mapi. cbn [mapi_from firstn nth vel_arctan]. now rewrite one_s, (s_div_both u Hu). }
  split; [reflexivity|]. split; [reflexivity|]. split; [exact W|]. split; [exact V|].
  split; [intros [|d ds] r z; [reflexivity|]; cbn [p_disp disp_const]; now rewrite zero_s|]. intros r z. cbn [p_int].
  destruct (scale_light u Ie n re q0 r z Hu) as [A B]. apply Ok_inj. destruct HI as [[X Y]|[X Y]]; rewrite <- X, <- Y; assumption.
Qed.
(* the example of the other unit theorems *)
Definition y_disc (u : R) : profs := mkprofs 2 1 vel_arctan disp_const (fun r _ => fexp (fneg (fdiv r (Fin u)))) (fun _ _ => (Fin 1, Fin 0, Fin u)).
Lemma y_angle u : 0 < u -> angle_change u [1; u] (fun _ _ => Fin 1) (y_disc u) y_cfg.
Proof.
  intros Hu. split; [exact Hu|]. split; [exists 1; split; [lra|intros x y; cbn; now rewrite Rmult_1_r]|]. split; [|discriminate].
  split; [reflexivity|]. split; [reflexivity|]. split; [intros [|[|[|i]]] H; cbn in H; try lia; reflexivity|]. split.
  { intros [|a [|b th]] r z; try reflexivity. unfold weigh, mapi. cbn [mapi_from firstn nth p_vel p_nvel y_disc y_cfg c_prof y_prof vel_arctan]. now rewrite one_s, (s_div_both u Hu). }
  split; [intros [|d ds] r z; [reflexivity|]; cbn [p_disp y_disc y_cfg c_prof y_prof disp_const]; now rewrite zero_s|]. intros r z. cbn [y_disc p_int y_cfg c_prof y_prof]. do 2 f_equal.
  replace (Fin u) with (fmul (Fin u) (Fin 1)) at 2 by (cbn; now rewrite Rmult_1_r). rewrite (s_div_both u Hu).
  destruct r as [a| | |]; cbn; try reflexivity; [replace (Reqb 1 0) with false by (symmetry; apply Reqb_false; lra); f_equal; field|..];
    replace (Rltb 1 0) with false by (symmetry; apply Rltb_false; lra); reflexivity.
Qed.
Lemma z_angle : let th := [Fin 200; Fin (1/2); Fin 50; Fin 0; Fin 1] in let th' := [Fin 200; Fin 30; Fin 50; Fin 0; Fin 1] in
  let c' := in_angle 60 (fun _ _ => Fin 1) (y_disc 60) y_cfg in
  let p := km_make y_cfg (firstn 3 th) (PBright4.z_kin th) in let p' := km_make c' (firstn 3 th') (PBright4.z_kin th') in
  i_slit (c_ins c') = 60 /\ snd p = Ok tt /\ snd p' = Ok tt /\ k_model (fst p) = k_model (fst p') /\
  likelihoods y_cfg (fst p) [[Fin 150; Fin (1/4); Fin 40]; [Fin 90]] = likelihoods c' (fst p') [[Fin 150; Fin 15; Fin 40]; [Fin 90]].
Proof.
  intros th th' c' p p'. split; [cbn; lra|].
  assert (Hu : 0 < 60) by lra.
  destruct (angle_fit 60 [1; 60] (fun _ _ => Fin 1) (y_disc 60) y_cfg (PBright4.z_kin th) (firstn 3 th) [[Fin 150; Fin (1/4); Fin 40]; [Fin 90]] (y_angle 60 Hu)) as (A & B & C); try reflexivity; [cbn; lia|].
  assert (W : weigh [1; 60] th = th'). { unfold th, th', weigh, mapi. cbn [mapi_from nth fmul]. repeat (f_equal; try lra). }
  assert (F : forall a b d, weigh (pick (k_vary (PBright4.z_kin th)) [1; 60]) [Fin a; Fin b; Fin d] = [Fin a; Fin (60 * b); Fin d]).
  { intros a b d. unfold weigh, mapi. cbn [PBright4.z_kin k_vary pick hd tl mapi_from nth fmul]. repeat (f_equal; try lra). }
  assert (G : weigh (pick (k_vary (PBright4.z_kin th)) [1; 60]) [Fin 90] = [Fin 90]).
  { unfold weigh, mapi. cbn [PBright4.z_kin k_vary pick hd tl mapi_from nth fmul]. repeat (f_equal; try lra). }
  change (k_theta (PBright4.z_kin th)) with th in A, B, C. rewrite W in A, B, C. change (with_theta th' (PBright4.z_kin th)) with (PBright4.z_kin th') in A, B, C.
  assert (E3 : weigh (pick (k_vary (PBright4.z_kin th)) [1; 60]) (firstn 3 th) = firstn 3 th') by (unfold th, th'; cbn [firstn]; rewrite F; repeat (f_equal; try lra)).
  rewrite E3 in A, B, C. cbn [map] in C. rewrite F, G in C. replace (60 * (1/4)) with 15 in C by lra.
  assert (E : snd p = Ok tt). { destruct z_make as (k & m & E & _). unfold p, th. rewrite E. reflexivity. }
  split; [exact E|]. split; [unfold p'; etransitivity; [symmetry; exact A|exact E]|]. split; [exact (B E)|exact C].
Qed.
