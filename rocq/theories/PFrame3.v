(* Proofs: fits with wavelengths in another unit or frame. *)
From Coq Require Import Reals Lra Lia List Bool Arith ZArith FunctionalExtensionality.
From Verif Require Import PyFloat PyBase Arr PyNum MParams MKernels MAper2D SParams SAper2D SMirror SBright SFrame PKernels PAper2D PAper2DOk PLos PMirror PMirror2 PMirror5 PBright PBright2 PBright3 PBright4 PFrame PFrame2.
Import ListNotations.
Local Open Scope R_scope.

Lemma mapi_snoc {A B} (f : nat -> A -> B) l x : mapi f (l ++ [x]) = mapi f l ++ [f (length l) x].
Proof.
  unfold mapi. change (length l) with (0 + length l)%nat. generalize 0%nat. induction l as [|y l IH]; intros n; cbn [app mapi_from length].
  - now rewrite Nat.add_0_r.
  - rewrite IH. do 2 f_equal. cbn [app]. do 2 f_equal. lia.
Qed.
Lemma update_snoc vary tf z z' : forall is j l, nth (length l) vary false = false ->
  exists l' r, length l' = length l /\ update_loop is j vary tf (l ++ [z]) = (l' ++ [z], r) /\ update_loop is j vary tf (l ++ [z']) = (l' ++ [z'], r).
Proof.
  induction is as [|i is IH]; intros j l H; cbn [update_loop]; [exists l, (Ok tt); auto|].
  unfold getn. destruct (nth_error vary i) as [[]|] eqn:E; [|apply IH; exact H|exists l, (Err IndexError); auto].
  destruct (nth_error tf j) as [x|]; [|exists l, (Err IndexError); auto].
  assert (N : Nat.eqb (length l) i = false). { apply Nat.eqb_neq. intros <-. rewrite (nth_error_nth _ _ false E) in H. discriminate. }
  rewrite !mapi_snoc, N. assert (L : length (mapi (fun k y => if Nat.eqb k i then x else y) l) = length l) by apply mapi_length.
  destruct (IH (S j) (mapi (fun k y => if Nat.eqb k i then x else y) l)) as (l' & r & A & B & C); [now rewrite L|]. exists l', r. rewrite A, L. auto.
Qed.

Section Fit.
Variables (u v : R) (c : cfg) (z0 z0' : fl).
Hypothesis Hu : 0 < u.
Hypothesis Hv : 0 < v.
Hypothesis Hw : o_spec (c_opt c) = Wave.
Hypothesis Hz : same_place u v z0 z0'.
Let c' := in_frame u v c.
Notation RelF := (Rel u z0 z0').
Definition orel (o o' : option aper) : Prop := match o, o' with Some x, Some x' => RelF x x' | None, None => True | _, _ => False end.
Definition kF (k k' : kinmodel) : Prop :=
  k_noscale k = false /\ k_noscale k' = false /\ k_vary k' = k_vary k /\ k_stamp k' = k_stamp k /\ orel (k_aper k) (k_aper k') /\
  exists l, k_theta k = l ++ [z0] /\ k_theta k' = l ++ [z0'] /\ (p_nvel (c_prof c) + p_ndisp (c_prof c) <= length l)%nat /\ nth (length l) (k_vary k) false = false.
Definition kFr (p q : kinmodel * res unit) : Prop := kF (fst p) (fst q) /\ snd p = snd q /\ (snd p = Ok tt -> k_model (fst p) = k_model (fst q)).
Lemma kF_model k k' m m' : kF k k' -> kF (mkkm (k_theta k) (k_vary k) (k_noscale k) (k_aper k) m (k_stamp k)) (mkkm (k_theta k') (k_vary k') (k_noscale k') (k_aper k') m' (k_stamp k')).
Proof. intros H. exact H. Qed.
Lemma store_frame k k' x x' : kF k k' -> RelF x x' -> kFr (store_model c k x) (store_model c' k' x').
Proof.
  intros H (_ & t & k1 & k2 & k3 & k4 & _ & _ & _ & G & ->). unfold store_model. cbn [FB a_model]. pose proof H as (N & N' & _). rewrite N, N'.
  destruct (a_model x) as [im|]; cbn [option_map].
  - change (g_data (c_gal c')) with (g_data (c_gal c)). rewrite (scale_bright _ _ _ (gn_pos u k4 Hu G)).
    destruct (scale_model _ _); (split; [exact (kF_model k k' _ _ H)||(rewrite <- N at 1; rewrite <- N'; exact (kF_model k k' _ _ H))|]); (split; [reflexivity|]); intros E; [reflexivity|discriminate].
  - split; [exact H|]. split; [reflexivity|discriminate].
Qed.
Lemma update_aper_frame k k' : kF k k' -> kFr (km_update_aper c k) (km_update_aper c' k').
Proof.
  intros H. pose proof H as (N & N' & V & S & A & l & T & T' & L & F). unfold km_update_aper.
  destruct (k_aper k) as [x|] eqn:E, (k_aper k') as [x'|] eqn:E'; try contradiction.
  - destruct (f_update u v c z0 z0' Hu Hv Hw Hz (k_theta k) (k_theta k') x x' A) as [X Y].
    { rewrite T, T'. exists l, z0, z0'. auto. }
    fold c' in X, Y. destruct (aper_update c (k_theta k) x) as [y r], (aper_update c' (k_theta k') x') as [y' r']. cbn [fst snd] in X, Y. subst r'.
    assert (ST : a_stamp y' = a_stamp y) by (destruct X as (_ & t & k1 & k2 & k3 & k4 & _ & _ & _ & _ & ->); reflexivity).
    assert (KF : kF (mkkm (k_theta k) (k_vary k) (k_noscale k) (Some y) (k_model k) (a_stamp y)) (mkkm (k_theta k') (k_vary k') (k_noscale k') (Some y') (k_model k') (a_stamp y'))).
    { split; [exact N|]. split; [exact N'|]. split; [exact V|]. split; [exact ST|]. split; [exact X|]. exists l. auto. }
    destruct r as [[]|e]; [apply store_frame; assumption|]. split; [exact KF|]. split; [reflexivity|discriminate].
  - split; [exact H|]. split; [reflexivity|discriminate].
Qed.
Lemma params_frame k k' tf : kF k k' -> exists t t' r, update_parameters (k_theta k) (k_vary k) tf = (t, r) /\ update_parameters (k_theta k') (k_vary k') tf = (t', r) /\
  kF (mkkm t (k_vary k) (k_noscale k) (k_aper k) (k_model k) (k_stamp k)) (mkkm t' (k_vary k') (k_noscale k') (k_aper k') (k_model k') (k_stamp k')).
Proof.
  intros (N & N' & V & S & A & l & T & T' & L & F). unfold update_parameters. rewrite T, T', V, !app_length. cbn [length].
  destruct (update_snoc (k_vary k) tf z0 z0' (seq 0 (length l + 1)) 0 l F) as (l' & r & L' & E & E'). exists (l' ++ [z0]), (l' ++ [z0']), r.
  split; [exact E|]. split; [exact E'|]. split; [exact N|]. split; [exact N'|]. split; [reflexivity|]. split; [exact S|]. split; [exact A|]. exists l'. rewrite L'. auto.
Qed.
Lemma update_frame k k' tf : kF k k' -> kFr (km_update c tf k) (km_update c' tf k').
Proof.
  intros H. pose proof H as (_ & _ & V & _). unfold km_update. destruct (params_frame k k' tf H) as (t & t' & r & E & E' & K). rewrite E, E'. rewrite V at 1. destruct (negb _).
  - split; [exact H|]. split; [reflexivity|discriminate].
  - destruct r as [[]|e]; [apply update_aper_frame; exact K|]. split; [exact K|]. split; [reflexivity|discriminate].
Qed.
Lemma make_frame k k' tf : kF k k' -> kFr (km_make c tf k) (km_make c' tf k').
Proof.
  intros H. pose proof H as (_ & _ & V & _). unfold km_make. destruct (params_frame k k' tf H) as (t & t' & r & E & E' & K). rewrite E, E'. rewrite V at 1. destruct (negb _).
  - split; [exact H|]. split; [reflexivity|discriminate].
  - destruct r as [[]|e]; [|split; [exact K|]; split; [reflexivity|discriminate]].
    pose proof K as (N & N' & _ & S & A & l & T & T' & L & F). cbn [k_theta k_vary k_noscale k_aper k_stamp] in *.
    destruct (k_aper k) as [x|] eqn:Ex, (k_aper k') as [x'|] eqn:Ex'; try contradiction.
    + apply update_aper_frame. exact K.
    + rewrite S, T, T'. destruct (f_new u v c z0 z0' Hu Hv Hw Hz l (k_stamp k) L) as [X Y]. fold c' in X, Y.
      destruct (aper_new c (l ++ [z0]) (k_stamp k)) as [st [x|e]], (aper_new c' (l ++ [z0']) (k_stamp k)) as [st' [x'|e']]; cbn [fst snd] in X, Y; try contradiction; subst st'.
      * apply store_frame; [|exact Y]. split; [exact N|]. split; [exact N'|]. split; [exact V|]. split; [reflexivity|]. split; [exact Y|]. exists l. auto.
      * subst e'. split; [|split; [reflexivity|discriminate]]. split; [exact N|]. split; [exact N'|]. split; [exact V|]. split; [reflexivity|]. split; [exact I|]. exists l. auto.
Qed.
Lemma llike_frame k k' tf : kF k k' -> kF (fst (km_llike c k tf)) (fst (km_llike c' k' tf)) /\ snd (km_llike c k tf) = snd (km_llike c' k' tf).
Proof.
  intros H. unfold km_llike. destruct (update_frame k k' tf H) as (X & Y & M).
  destruct (km_update c tf k) as [y [[]|e]], (km_update c' tf k') as [y' [[]|e']]; cbn [fst snd] in *; try discriminate.
  - rewrite (M eq_refl) in *. destruct (k_model y'); split; auto.
  - injection Y as <-. split; auto.
Qed.
Lemma seq_frame tfs : forall k k', kF k k' -> likelihoods c k tfs = likelihoods c' k' tfs.
Proof.
  induction tfs as [|tf tfs IH]; intros k k' H; [reflexivity|]. cbn [likelihoods]. destruct (llike_frame k k' tf H) as [X Y].
  destruct (km_llike c k tf) as [y r], (km_llike c' k' tf) as [y' r']. cbn [fst snd] in *. subst r'. f_equal. now apply IH.
Qed.
End Fit.

Lemma frame_image u v c th th' st : 0 < u -> 0 < v -> o_spec (c_opt c) = Wave -> moved u v c th th' ->
  exists k, (k = 1 \/ k = / u) /\ image_times k (aper_new c th st) (aper_new (in_frame u v c) th' st).
Proof.
  intros Hu Hv Hw (l & z & z' & -> & -> & L & Hz). destruct (f_new u v c z z' Hu Hv Hw Hz l st L) as [X Y]. unfold image_times.
  destruct (snd (aper_new c (l ++ [z]) st)) as [x|e], (snd (aper_new (in_frame u v c) (l ++ [z']) st)) as [x'|e']; try contradiction.
  - destruct Y as (_ & t & k1 & k2 & k3 & k4 & _ & _ & _ & G & ->). exists k4. split; [exact G|]. split; [exact X|reflexivity].
  - exists 1. split; [now left|]. split; [exact X|exact Y].
Qed.
Lemma frame_fit u v c k th' tf0 tfs : 0 < u -> 0 < v -> o_spec (c_opt c) = Wave -> moved u v c (k_theta k) th' ->
  k_noscale k = false -> k_aper k = None -> nth (length (k_theta k) - 1) (k_vary k) false = false ->
  let c' := in_frame u v c in
  let p := km_make c tf0 k in let p' := km_make c' tf0 (with_theta th' k) in
  snd p = snd p' /\ (snd p = Ok tt -> k_model (fst p) = k_model (fst p')) /\ likelihoods c (fst p) tfs = likelihoods c' (fst p') tfs.
Proof.
  intros Hu Hv Hw (l & z & z' & E & E' & L & Hz) N A F c' p p'.
  destruct (make_frame u v c z z' Hu Hv Hw Hz k (with_theta th' k) tf0) as (X & Y & M).
  { split; [exact N|]. split; [exact N|]. split; [reflexivity|]. split; [reflexivity|]. unfold with_theta. cbn [k_aper k_theta k_vary]. rewrite A. split; [exact I|].
    exists l. split; [exact E|]. split; [exact E'|]. split; [exact L|]. rewrite E, app_length in F. cbn [length] in F. now rewrite Nat.add_sub in F. }
  split; [exact Y|]. split; [exact M|]. exact (seq_frame u v c z z' Hu Hv Hw Hz tfs _ _ X).
Qed.
Lemma z_frame : let th := [Fin 200; Fin (1/2); Fin 50; Fin 0; Fin 1] in let th' := [Fin 200; Fin (1/2); Fin 50; Fin 0; Fin 0] in
  let c' := in_frame (1/2) 1 y_cfg in
  let p := km_make y_cfg (firstn 3 th) (z_kin th) in let p' := km_make c' (firstn 3 th) (z_kin th') in
  g_wave (c_gal y_cfg) = [Fin 13126; Fin 13134] /\ g_wave (c_gal c') = [Fin (1/2 * 13126); Fin (1/2 * 13134)] /\
  snd p = Ok tt /\ snd p' = Ok tt /\ k_model (fst p) = k_model (fst p') /\
  likelihoods y_cfg (fst p) [[Fin 150; Fin (1/4); Fin 40]; [Fin 90]] = likelihoods c' (fst p') [[Fin 150; Fin (1/4); Fin 40]; [Fin 90]].
Proof.
  intros th th' c' p p'. split; [reflexivity|]. split; [reflexivity|].
  destruct (frame_fit (1/2) 1 y_cfg (z_kin th) th' (firstn 3 th) [[Fin 150; Fin (1/4); Fin 40]; [Fin 90]]) as (A & B & C); try reflexivity; try lra.
  { exists [Fin 200; Fin (1/2); Fin 50; Fin 0], (Fin 1), (Fin 0). split; [reflexivity|]. split; [reflexivity|]. split; [cbn; lia|]. unfold same_place. cbn. f_equal. lra. }
  assert (E : snd p = Ok tt). { destruct z_make as (k & m & E & _). unfold p, th. rewrite E. reflexivity. }
  split; [exact E|]. split; [rewrite <- E; symmetry; exact A|]. split; [exact (B E)|exact C].
Qed.
Lemma z_frame_image : forall st, exists k, (k = 1 \/ k = / 10) /\
  image_times k (aper_new y_cfg [Fin 200; Fin (1/2); Fin 50; Fin 0; Fin 1] st) (aper_new (in_frame 10 10 y_cfg) [Fin 200; Fin (1/2); Fin 50; Fin 0; Fin 1] st).
Proof.
  intros st. apply frame_image; try lra; [reflexivity|]. exists [Fin 200; Fin (1/2); Fin 50; Fin 0], (Fin 1), (Fin 1). repeat split. cbn. lia.
Qed.
