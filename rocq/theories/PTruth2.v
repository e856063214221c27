(* Proofs: the true parameters fit a noise-free observation best, on the model objects. *)
From Coq Require Import Reals Lra List Bool Arith ZArith Lia.
From Verif Require Import PyFloat PyBase Arr PyNum MParams MKernels MAper2D SParams SKernels SAper2D SMirror STruth PParams PKernels PData PAper2D PAper2DHist PAper2DTop PAper2DOk PTruth.
From Verif Require MGeom MMock.
Import ListNotations.
Local Open Scope R_scope.

Lemma new_data d c th st : aper_new (observed d c) th st = aper_new c th st. Proof. reflexivity. Qed.

Lemma make_inv c tf k k' : fresh k -> km_make c tf k = (k', Ok tt) ->
  exists a m st, length tf = nfree (k_vary k) /\ update_parameters (k_theta k) (k_vary k) tf = (k_theta k', Ok tt) /\ aper_new c (k_theta k') (k_stamp k) = (st, Ok a) /\ a_model a = Some m /\
    if k_noscale k then k_model k' = Some m else exists m2, scale_model (g_data (c_gal c)) m = Ok m2 /\ k_model k' = Some m2.
Proof.
  unfold fresh, km_make. intros F E. rewrite n_free_param_nfree in E. destruct (Nat.eqb_spec (length tf) (nfree (k_vary k))) as [L|L]; [|discriminate]. cbn [negb] in E.
  destruct (update_parameters (k_theta k) (k_vary k) tf) as [th [[]|e]] eqn:U; [|discriminate]. cbn [k_aper k_stamp] in E. rewrite F in E.
  destruct (aper_new c th (k_stamp k)) as [st [a|e]] eqn:N; [|discriminate]. unfold store_model in E. cbn [k_noscale k_theta k_vary k_aper k_stamp] in E.
  destruct (a_model a) as [m|] eqn:M; [|discriminate]. exists a, m, st. destruct (k_noscale k) eqn:NS.
  - injection E as <-. cbn [k_theta k_model]. split; [exact L|]. split; [reflexivity|]. split; [exact N|]. split; [exact M|reflexivity].
  - destruct (scale_model (g_data (c_gal c)) m) as [m2|e] eqn:Sc; [|discriminate]. injection E as <-. cbn [k_theta k_model]. split; [exact L|]. split; [reflexivity|]. split; [exact N|]. split; [exact M|]. exists m2. split; reflexivity.
Qed.
Lemma make_intro c tf k th a m st m2 : fresh k -> k_noscale k = false -> length tf = nfree (k_vary k) -> update_parameters (k_theta k) (k_vary k) tf = (th, Ok tt) ->
  aper_new c th (k_stamp k) = (st, Ok a) -> a_model a = Some m -> scale_model (g_data (c_gal c)) m = Ok m2 ->
  exists k', km_make c tf k = (k', Ok tt) /\ k_model k' = Some m2.
Proof.
  unfold fresh. intros F NS L U N M Sc. unfold km_make. rewrite n_free_param_nfree, L, Nat.eqb_refl. cbn [negb]. rewrite U. cbn [k_aper k_stamp]. rewrite F, N. unfold store_model. cbn [k_noscale k_theta k_vary k_aper k_stamp].
  rewrite M, NS, Sc. eauto.
Qed.

(* lnlike on an evaluated object is that of a new one *)
Lemma llike_fresh c k0 k tf : offsets_fixed k0 -> fresh k0 -> history c k0 k ->
  forall k2 v, km_llike c k tf = (k2, Ok v) <-> exists m, km_make c tf k0 = (k2, Ok tt) /\ k_model k2 = Some m /\ v = model_llike (g_data (c_gal c)) m.
Proof.
  intros O F H k2 v. destruct (history_independent c k0 k (CUpdate tf) O F H) as (A & B). cbn [run args] in A, B. unfold km_llike. split.
  - destruct (km_update c tf k) as [q [[]|e]] eqn:E; [|discriminate]. specialize (B eq_refl). cbn [fst snd] in A, B. destruct (k_model q) as [m|] eqn:M; [|discriminate].
    intros X. injection X as <- <-. exists m. split; [|now split]. rewrite (surjective_pairing (km_make c tf k0)), <- A, <- B. reflexivity.
  - intros (m & E & M & ->). rewrite E in A, B. cbn [fst snd] in A, B. destruct (km_update c tf k) as [q r]. cbn [fst snd] in A, B. subst r. rewrite (B eq_refl), M. reflexivity.
Qed.

Lemma truth c n p F S W ok cs A km tfm k1 m kf tf k :
  fresh km -> k_noscale km = true -> km_make c tfm km = (k1, Ok tt) -> k_model k1 = Some m ->
  usable n p S W ok cs -> noise_free n p F cs A m ->
  let d := findata n p F S W ok cs in
  offsets_fixed kf -> fresh kf -> k_noscale kf = false -> k_stamp kf = k_stamp km ->
  length tf = nfree (k_vary kf) -> fst (update_parameters (k_theta kf) (k_vary kf) tf) = k_theta k1 ->
  history (observed d c) kf k ->
  exists k2 m2 L, km_llike (observed d c) k tf = (k2, Ok (Fin L)) /\ k_model k2 = Some m2 /\ model_chisq d m2 = Fin 0 /\
    (forall i j, (i < n)%nat -> (j < p)%nat -> ok i j = true -> at2 m2 i j = Fin (F i j)) /\
    forall tf' k3 v, km_llike (observed d c) k tf' = (k3, Ok v) -> at_most v L /\
      (v = Fin L -> exists m3, k_model k3 = Some m3 /\ forall i j, (i < n)%nat -> (j < p)%nat -> ok i j = true -> W i j <> 0 -> at2 m3 i j = Fin (F i j)).
Proof.
  intros Fm NSm Em Mm HU HN d O Ff NSf St L UP H.
  destruct (make_inv c tfm km k1 Fm Em) as (a & m' & st & _ & _ & N & M & Q). rewrite NSm, Mm in Q. injection Q as <-.
  destruct (scale_truth n p F S W ok cs A m HU HN) as (m2 & Sc & R2 & C2 & V2).
  destruct (update_parameters_spec (k_theta kf) (k_vary kf) tf (proj1 O)) as (th & U & _); [lia|]. rewrite U in UP. cbn [fst] in UP. subst th.
  destruct (make_intro (observed d c) tf kf (k_theta k1) a m st m2 Ff NSf L U) as (k2 & E2 & M2); [rewrite St; exact N|exact M|exact Sc|].
  destruct (llike_exact n p F S W ok cs m2 HU R2 C2 V2) as (LL & CC).
  exists k2, m2, (best_llike n p S ok). split; [apply (llike_fresh _ kf k tf O Ff H); exists m2; split; [exact E2|]; split; [exact M2|]; symmetry; exact LL|].
  split; [exact M2|]. split; [exact CC|]. split; [intros i j Hi Hj Ho; destruct (V2 i j Hi Hj) as (y & -> & G); now rewrite G|].
  intros tf' k3 v E3. apply (llike_fresh _ kf k tf' O Ff H) in E3 as (m3 & E3 & M3 & ->).
  assert (SH : rows m3 = n /\ cols m3 = p).
  { destruct (history_shape (observed d c) kf k3 Ff (h_start _ _ _ _ E3)) as (x & X1 & X2 & X3). rewrite M3 in X1. injection X1 as <-.
    destruct (history_shape (observed d c) kf k2 Ff (h_start _ _ _ _ E2)) as (y & Y1 & Y2 & Y3). rewrite M2 in Y1. injection Y1 as <-. split; congruence. }
  destruct SH as (R3 & C3). split; [now apply (llike_bound n p F S W ok cs)|]. intros TI. exists m3. split; [exact M3|].
  apply (llike_tie n p F S W ok cs m3 HU R3 C3 TI).
Qed.

(* the posterior *)
Lemma posterior c n p F S W ok cs A km tfm k1 m kf tf k bounds :
  fresh km -> k_noscale km = true -> km_make c tfm km = (k1, Ok tt) -> k_model k1 = Some m ->
  usable n p S W ok cs -> noise_free n p F cs A m ->
  let c' := observed (findata n p F S W ok cs) c in
  offsets_fixed kf -> fresh kf -> k_noscale kf = false -> k_stamp kf = k_stamp km ->
  length tf = nfree (k_vary kf) -> fst (update_parameters (k_theta kf) (k_vary kf) tf) = k_theta k1 ->
  history c' kf k -> log_prior (k_theta kf) (k_vary kf) bounds tf = Ok (Fin 0) ->
  exists L, snd (lnprob (log_prior (k_theta kf) (k_vary kf) bounds) (km_llike c') k tf) = Ok (Fin L) /\
    forall tf' q, snd (lnprob (log_prior (k_theta kf) (k_vary kf) bounds) (km_llike c') k tf') = Ok q -> q = NInf \/ exists x, q = Fin x /\ x <= L.
Proof.
  intros Fm NSm Em Mm HU HN c' O Ff NSf St L UP H PR.
  destruct (truth c n p F S W ok cs A km tfm k1 m kf tf k Fm NSm Em Mm HU HN O Ff NSf St L UP H) as (k2 & m2 & LL & E & _ & _ & _ & B). fold c' in E, B.
  exists LL. split.
  - unfold lnprob. rewrite PR, E. cbn [isfinite negb snd fadd]. f_equal. f_equal. ring.
  - intros tf' q. unfold lnprob. destruct (log_prior _ _ _ tf') as [x|e] eqn:P'; [|discriminate].
    assert (X : x = Fin 0 \/ x = NInf). { unfold log_prior in P'. destruct (prior_loop _ _ _ _ _) as [st|e]; [|discriminate]. cbn [bind] in P'. injection P' as <-. destruct (forallb _ st); auto. }
    destruct X as [->| ->]; [|cbn; intros Q; injection Q as <-; now left]. cbn [isfinite negb].
    destruct (km_llike c' k tf') as [k3 [v|e]] eqn:E3; [|discriminate]. cbn [snd]. intros Q. injection Q as <-.
    destruct (B tf' k3 v E3) as ([->|[->|(y & -> & Hy)]] & _); cbn [fadd isfinite negb]; [now left|now left|]. right. eexists. split; [reflexivity|lra].
Qed.

(* the simulated observation *)
Import MMock.
Definition mock_theta (a : mockargs) : list fl := [ma_va a; ma_rt a; ma_sigma0 a; ma_yshift a; ma_z a].
Definition mock_fixed (a : mockargs) : kinmodel := mkkm (mock_theta a) [false; false; false; false; false] true None None NoStamp.
Lemma mock_image a d0 m : mock_slit_obs a d0 = Ok (Some m) ->
  exists mk, MGeom.generate_mock (ma_z a) (ma_va a) (ma_rt a) (ma_sigma0 a) (ma_yshift a) (ma_dither a) (length (ma_wave a)) (Fin (ma_pix a)) (ma_slit_len a) (ma_nymin a) = Ok mk /\
  forall d, exists k1, km_make (mock_cfg a mk d) [] (mock_fixed a) = (k1, Ok tt) /\ k_model k1 = Some m /\ k_theta k1 = mock_theta a.
Proof.
  unfold mock_slit_obs. destruct (MGeom.generate_mock _ _ _ _ _ _ _ _ _ _) as [mk|e] eqn:G; [|discriminate]. cbn [bind].
  assert (T : MGeom.k_theta mk = mock_theta a /\ MGeom.k_vary mk = [false; false; false; false; false]).
  { unfold MGeom.generate_mock in G. cbv zeta in G. destruct (PyNum.int_ceil _); [|discriminate]. cbn [bind] in G. injection G as <-. split; reflexivity. }
  destruct T as (T1 & T2). rewrite T1, T2. fold (mock_fixed a). destruct (km_make (mock_cfg a mk d0) [] (mock_fixed a)) as [k [[]|e]] eqn:E; [|discriminate]. cbn [bind]. intros Q. injection Q as Q.
  exists mk. split; [reflexivity|]. intros d.
  destruct (make_inv (mock_cfg a mk d0) [] (mock_fixed a) k eq_refl E) as (ap & m' & st & _ & U & N & M & X). cbn [mock_fixed k_noscale] in X. rewrite Q in X. injection X as <-.
  assert (TH : k_theta k = mock_theta a). { cbn in U. injection U as <-. reflexivity. }
  change (aper_new (mock_cfg a mk d0)) with (aper_new (mock_cfg a mk d)) in N.
  exists (mkkm (k_theta k) [false; false; false; false; false] true (Some ap) (Some m) st). split; [|split; [reflexivity|exact TH]].
  unfold km_make. change (update_parameters (k_theta (mock_fixed a)) (k_vary (mock_fixed a)) []) with (update_parameters (mock_theta a) [false; false; false; false; false] []).
  change (n_free_param (k_vary (mock_fixed a))) with 0%nat. cbn [length Nat.eqb negb]. cbn [mock_fixed k_theta k_vary] in U. rewrite U. cbn [mock_fixed k_aper k_stamp k_vary k_noscale k_model].
  change (k_stamp (mock_fixed a)) with NoStamp in N. rewrite N. unfold store_model. rewrite M. reflexivity.
Qed.

Lemma mock_truth a d0 m n p F S W ok cs A kf tf :
  mock_slit_obs a d0 = Ok (Some m) -> usable n p S W ok cs -> noise_free n p F cs A m ->
  offsets_fixed kf -> fresh kf -> k_noscale kf = false -> k_stamp kf = NoStamp ->
  length tf = nfree (k_vary kf) -> fst (update_parameters (k_theta kf) (k_vary kf) tf) = [ma_va a; ma_rt a; ma_sigma0 a; ma_yshift a; ma_z a] ->
  exists mk, MGeom.generate_mock (ma_z a) (ma_va a) (ma_rt a) (ma_sigma0 a) (ma_yshift a) (ma_dither a) (length (ma_wave a)) (Fin (ma_pix a)) (ma_slit_len a) (ma_nymin a) = Ok mk /\
  let d := findata n p F S W ok cs in let c := mock_cfg a mk d in
  forall k, history c kf k ->
  exists k2 m2 L, km_llike c k tf = (k2, Ok (Fin L)) /\ k_model k2 = Some m2 /\ model_chisq d m2 = Fin 0 /\
    (forall i j, (i < n)%nat -> (j < p)%nat -> ok i j = true -> at2 m2 i j = Fin (F i j)) /\
    forall tf' k3 v, km_llike c k tf' = (k3, Ok v) -> at_most v L /\
      (v = Fin L -> exists m3, k_model k3 = Some m3 /\ forall i j, (i < n)%nat -> (j < p)%nat -> ok i j = true -> W i j <> 0 -> at2 m3 i j = Fin (F i j)).
Proof.
  intros HM HU HN O Ff NSf St L UP. destruct (mock_image a d0 m HM) as (mk & G & X). exists mk. split; [exact G|]. intros d c k H.
  destruct (X d) as (k1 & E & M & T).
  exact (truth c n p F S W ok cs A (mock_fixed a) [] k1 m kf tf k eq_refl eq_refl E M HU HN O Ff NSf St L (eq_trans UP (eq_sym T)) H).
Qed.
