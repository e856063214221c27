(* Concrete fits: witnesses for sharing, pruning and setting up again. *)
From Coq Require Import String Reals Lra List Bool Arith ZArith Lia.
From Verif Require Import PyFloat PyBase Arr PyNum MParams MKernels MAper2D MPost MShare SParams SAper2D SShare PParams PAper2D PAper2DHist PAper2DOk PAper2DEx PPost2 PPost3 PPostEx PShareSt PShare PShareEx PShareFit PSharePrune.
Import ListNotations.
Local Open Scope R_scope.

(* ---- one fit ---- *)

Definition x_bounds : list (fl * fl) := [(Fin 0, Fin 1); (Fin 0, Fin 1); (Fin 10, Fin 20)].
Definition x_set (a b : bool) : settings := mkSet (w_th 0) [a; false; b] (Some x_bounds).
Definition x_fit (s : settings) : fit := mkFit w_cfg s None None NoStamp.

Lemma x_make s st tf : t_theta s = w_th 0 -> length (t_vary s) = 3%nat -> initialize_fitting_theta (t_theta s) (t_vary s) = Ok tf ->
  exists k m, km_make w_cfg tf (new_km s st) = (k, Ok tt) /\ k_model k = Some m /\ rows m = 1%nat /\ cols m = 2%nat.
Proof.
  intros Ht Hv Hi. assert (Hl : length (t_vary s) = length (t_theta s)) by (rewrite Ht, Hv; reflexivity).
  destruct (make_ok w_cfg (new_km s st) tf (w_th 0) [1; 2]) as (k & m & E & Em & Rm & Cm).
  - reflexivity.
  - exact Hl.
  - destruct (init_fit_spec _ _ Hl) as (r & E & L & _). rewrite Hi in E. injection E as <-. exact L.
  - cbn [new_km k_theta k_vary]. rewrite (unpack_pack _ _ _ Hl Hi). exact Ht.
  - apply w_posed.
  - right. cbn. repeat split; try reflexivity. intros c [<-|[<-|[]]]; lia.
  - exists k, m. auto.
Qed.

Lemma x_eval x : prior_eval (mkPrior (w_th 0) [true; false; false] (Some x_bounds)) [Fin x] = Ok (if Rleb 0 x then (if Rleb x 1 then Fin 0 else NInf) else NInf).
Proof.
  assert (X : prior_eval (mkPrior (w_th 0) [true; false; false] (Some x_bounds)) [Fin x] = Ok (if ((Rleb 0 x && Rleb x 1) && true) then Fin 0 else NInf)) by reflexivity.
  rewrite X. destruct (Rleb 0 x), (Rleb x 1); reflexivity.
Qed.

Lemma x_setup : exists f1 f2 v, length (t_vary (ft_set (x_fit (x_set true false)))) = length (t_theta (ft_set (x_fit (x_set true false)))) /\
  setup_model (x_fit (x_set true false)) = (f1, Ok tt) /\ fit_lnprob f1 [Fin (1/2)] = (f2, v) /\ used f1 f2 /\
  prior_eval (mkPrior (w_th 0) [true; false; false] (Some x_bounds)) [Fin (1/2)] = Ok (Fin 0).
Proof.
  destruct (x_make (x_set true false) NoStamp [Fin 0]) as (k & m & E & _); try reflexivity.
  unfold setup_model. cbn [x_fit ft_set ft_stamp ft_cfg ft_prior x_set t_theta t_vary t_bounds].
  change (initialize_fitting_theta (w_th 0) [true; false; false]) with (Ok [Fin 0]). cbv iota.
  change (mkSet (w_th 0) [true; false; false] (Some x_bounds)) with (x_set true false). rewrite E. eexists.
  match goal with |- exists f2 v, _ /\ (?f, _) = _ /\ _ => destruct (fit_lnprob f [Fin (1/2)]) as [f2 v] eqn:EL end.
  exists f2, v. split; [reflexivity|]. split; [reflexivity|]. split; [exact EL|]. split.
  - eapply UsedErr; [constructor|reflexivity|exact EL].
  - rewrite x_eval.
    rewrite (proj2 (Rleb_true 0 (1/2))), (proj2 (Rleb_true (1/2) 1)) by lra. reflexivity.
Qed.

(** The prior of a fit set up twice with different free parameters. *)
Lemma refit_witness : exists s0 s1 f, length (t_vary s1) = length (t_theta s1) /\ t_bounds s1 = Some x_bounds /\ ft_prior f = None /\
  exists p k, ft_prior (setups [s0; s1] f) = Some p /\ ft_km (setups [s0; s1] f) = Some k /\ k_vary k = t_vary s1 /\ pr_vary p <> k_vary k /\
    in_support (t_vary s1) x_bounds [Fin 15] /\ snd (fit_lnprob (setups [s0; s1] f) [Fin 15]) = Ok NInf /\
    ~ in_support (t_vary s1) x_bounds [Fin (1/2)] /\ prior_eval p [Fin (1/2)] = Ok (Fin 0).
Proof.
  exists (x_set true false), (x_set false true), (x_fit (x_set true false)). split; [reflexivity|]. split; [reflexivity|]. split; [reflexivity|].
  destruct (setups_pattern (x_fit (x_set true false)) (x_set true false) [x_set false true] eq_refl) as (p & k & P & Kk & Pv & Kv).
  assert (P' : p = mkPrior (w_th 0) [true; false; false] (Some x_bounds)).
  { revert P. unfold setups. cbn [fold_left].
    destruct (setup_fields (set_settings (x_set false true) (fst (setup_model (set_settings (x_set true false) (x_fit (x_set true false))))))) as (k1 & _ & _ & C & _).
    rewrite C. cbn [set_settings ft_prior ft_set].
    destruct (setup_fields (set_settings (x_set true false) (x_fit (x_set true false)))) as (k2 & _ & _ & C2 & _). rewrite C2. intros X; inversion X. reflexivity. }
  exists p, k. split; [exact P|]. split; [exact Kk|]. split; [exact Kv|]. split; [rewrite Pv, Kv; discriminate|].
  split.
  { intros i lo hi x F B T. unfold free in F. destruct i as [|[|[|i]]]; cbn in F; try discriminate; [|destruct i; discriminate].
    cbn in B, T. injection B as <- <-. injection T as <-. split; constructor; lra. }
  split.
  { unfold fit_lnprob. rewrite P, P'. unfold lnprob. rewrite x_eval. rewrite (proj2 (Rleb_true 0 15)), (proj2 (Rleb_false 15 1)) by lra. reflexivity. }
  split.
  { intros H. destruct (H 2%nat (Fin 10) (Fin 20) (Fin (1/2)) eq_refl eq_refl eq_refl) as [H1 _]. inversion H1; subst. lra. }
  rewrite P', x_eval.
  rewrite (proj2 (Rleb_true 0 (1/2))), (proj2 (Rleb_true (1/2) 1)) by lra. reflexivity.
Qed.

(* ---- two fits ---- *)

Definition y_vary (i : nat) : list bool := [true; negb (Nat.eqb i 0); false].
Definition y_fits (shared : bool) (i : nat) : fdecl :=
  mkFdecl (mkDecl w_cfg (y_vary i) false i i 0 i) (if shared then 0%nat else i)
    (fun th => mkFitted false (mkKprof 0 1 (fun _ _ => Fin 0) (fun _ _ => Fin 0)) th (y_vary i) ["sigma"; "m0"; "z"]%string (Fin 1)) None.
Definition y_world : fworld := mkFworld s_world (fun _ => None).
Definition y_ops : list fop :=
  [FSetup 0 (w_th 0); FAnalyze 0 (ex_chain 1); FSetup 1 (w_th 0); FAnalyze 1 (ex_chain 2); FSetup 0 (w_th 0)].

Lemma peaks_ex cs : (forall c, In c cs -> c <> [] /\ forallb isfinite c = true) -> exists r, peaks ex_kde cs = Ok r.
Proof.
  induction cs as [|c cs IH]; intros H; [exists []; reflexivity|]. destruct (H c (or_introl eq_refl)) as [H1 H2].
  destruct IH as [r E]; [intros x Hx; apply H; now right|]. exists (Fin 1 :: r). cbn [peaks].
  rewrite H2, E. destruct c; [congruence|reflexivity].
Qed.

Lemma y_results shared i : (i < 2)%nat -> exists h p, chain_results ex_kde None (fd_fitted (y_fits shared i) (w_th 0)) (ex_chain (S i)) = Ok (h, p) /\
  length (p_best p) = (S i + 4)%nat.
Proof.
  intros Hi. destruct (derive_ok (fd_fitted (y_fits shared i) (w_th 0)) (ex_chain (S i))) as [h E]; try reflexivity; try (cbn; lia).
  { destruct i as [|[|i]]; cbn; lia. }
  assert (C : cols (h_flat h) = (S i + 4)%nat /\ rows (h_flat h) = 2%nat /\ forall a b, (a < 2)%nat -> (b < S i + 4)%nat -> isfinite (at2 (h_flat h) a b) = true).
  { destruct i as [|[|i]]; [| |lia]; unfold add_v_re_22 in E; cbn in E; injection E as <-; cbn [h_flat cols rows]; (split; [reflexivity|]); (split; [reflexivity|]);
    intros a b Ha Hb; destruct a as [|[|a]]; try lia; do 7 (destruct b as [|b]; [reflexivity|]); lia. }
  destruct C as (C1 & C2 & C3).
  destruct (peaks_ex (map (col (h_flat h)) (seq 0 (cols (h_flat h))))) as [r Er].
  { intros c Hc. apply in_map_iff in Hc. destruct Hc as (j & <- & Hj). apply in_seq in Hj. unfold col. rewrite C2. split; [discriminate|].
    cbn [seq map forallb]. rewrite !C3 by lia. reflexivity. }
  unfold chain_results. rewrite E. cbn [bind]. unfold posterior. rewrite Er. cbn [bind fst snd]. eexists _, _. split; [reflexivity|].
  cbn [p_best]. destruct (peaks_spec _ _ _ Er) as [L _]. rewrite L, map_length, seq_length. exact C1.
Qed.

Lemma fobserved_snoc K F i : forall ops o fw, fobserved K F i (ops ++ [o]) fw =
  (fobserved K F i ops fw ++ if Nat.eqb (ftarget o) i then
     [(snd (fstep K F (frun K F ops fw) o), fw_res (frun K F (ops ++ [o]) fw) (fd_res (F i)), image (fw_w (frun K F (ops ++ [o]) fw)) i)] else [])%list.
Proof.
  induction ops as [|o' ops IH]; intros o fw; cbn [app fobserved].
  - unfold frun. cbn [fold_left app]. destruct (fstep K F fw o). destruct (Nat.eqb _ _); reflexivity.
  - specialize (IH o (fst (fstep K F fw o'))). unfold frun in *. cbn [fold_left app]. destruct (fstep K F fw o') as [fw' r]. cbn [fst] in *.
    rewrite IH. destruct (Nat.eqb (ftarget o') i); reflexivity.
Qed.

Lemma fsetup_res K F fw i th : fw_res (fst (fstep K F fw (FSetup i th))) = fw_res fw.
Proof. cbn [fstep]. destruct (initialize_fitting_theta _ _); [|reflexivity]. destruct (step _ _ (Make i _)). reflexivity. Qed.

Lemma fsetup_km K F fw i th : w_km (fw_w (fst (fstep K F fw (FSetup i th)))) i <> None.
Proof.
  cbn [fstep]. destruct (initialize_fitting_theta _ _) as [tf|e].
  - match goal with |- context [step (kms F) ?w (Make i tf)] => set (w1 := w) end.
    assert (N : w_km w1 i <> None) by (unfold w1; cbn [step fst w_km]; rewrite upd_same; discriminate).
    cbn [step]. destruct (w_km w1 i); [|congruence]. destruct (km_make _ tf _). cbn [fst fw_w store w_km]. rewrite upd_same. discriminate.
  - cbn [fst fw_w step w_km]. rewrite upd_same. discriminate.
Qed.

Lemma fsetup_theta K F fw i th : length (d_vary (fd_km (F i))) = length th ->
  w_theta (fw_w (fst (fstep K F fw (FSetup i th)))) (d_theta (fd_km (F i))) = th.
Proof.
  intros L. cbn [fstep]. destruct (init_fit_spec th (d_vary (fd_km (F i))) L) as (tf & E & Lt & _). rewrite E.
  match goal with |- context [step (kms F) ?w (Make i tf)] => set (w1 := w) end.
  assert (N : w_km w1 i = Some (mkkm th (d_vary (fd_km (F i))) (d_noscale (fd_km (F i))) None None (w_stamp (fw_w fw) (d_ins (fd_km (F i)))))).
  { unfold w1. cbn [step fst w_km]. rewrite upd_same. unfold kms. cbn [w_theta w_stamp]. rewrite upd_same. reflexivity. }
  assert (T : w_theta w1 (d_theta (fd_km (F i))) = th) by (unfold w1; cbn [step fst w_theta]; apply upd_same).
  cbn [step]. rewrite N. match goal with |- context [km_make ?c tf ?k] => pose proof (make_theta_fun c tf k) as MT; destruct (km_make c tf k) as [k' r] end.
  cbn [fst fw_w store w_theta]. unfold kms in *. rewrite upd_same. cbn [fst] in MT. rewrite MT. unfold load. cbn [k_vary k_theta].
  rewrite T, n_free_param_nfree, Lt, Nat.eqb_refl, (unpack_pack _ _ _ L E). reflexivity.
Qed.

Lemma fanalyze_res K F fw i h hh p : w_km (fw_w fw) i <> None ->
  chain_results K (fd_links (F i)) (fd_fitted (F i) (w_theta (fw_w fw) (d_theta (fd_km (F i))))) h = Ok (hh, p) ->
  fw_res (fst (fstep K F fw (FAnalyze i h))) = upd (fw_res fw) (fd_res (F i)) (Some p).
Proof.
  intros N C. cbn [fstep]. destruct (w_km (fw_w fw) i); [|congruence]. rewrite C. destruct (step _ _ _). reflexivity.
Qed.

Definition sizes (l : list (res unit * option post * option (arr2 fl))) : list (option nat) :=
  map (fun o => option_map (fun p => length (p_best p)) (snd (fst o))) l.

Lemma y_run shared : exists p0 p1,
  fobserved ex_kde (y_fits shared) 0 y_ops y_world =
    (fobserved ex_kde (y_fits shared) 0 [FSetup 0 (w_th 0); FAnalyze 0 (ex_chain 1); FSetup 1 (w_th 0); FAnalyze 1 (ex_chain 2)] y_world ++
     [(snd (fstep ex_kde (y_fits shared) (frun ex_kde (y_fits shared) [FSetup 0 (w_th 0); FAnalyze 0 (ex_chain 1); FSetup 1 (w_th 0); FAnalyze 1 (ex_chain 2)] y_world) (FSetup 0 (w_th 0))),
       Some (if shared then p1 else p0), image (fw_w (frun ex_kde (y_fits shared) y_ops y_world)) 0)])%list /\
  fw_res (frun ex_kde (y_fits shared) [FSetup 0 (w_th 0); FAnalyze 0 (ex_chain 1); FSetup 0 (w_th 0)] y_world) (fd_res (y_fits shared 0)) = Some p0 /\
  length (p_best p0) = 5%nat /\ length (p_best p1) = 6%nat.
Proof.
  destruct (y_results shared 0) as (h0 & p0 & C0 & L0); [lia|]. destruct (y_results shared 1) as (h1 & p1 & C1 & L1); [lia|].
  exists p0, p1. set (F := y_fits shared) in *. set (K := ex_kde) in *.
  set (f1 := fst (fstep K F y_world (FSetup 0 (w_th 0)))). set (f2 := fst (fstep K F f1 (FAnalyze 0 (ex_chain 1)))).
  set (f3 := fst (fstep K F f2 (FSetup 1 (w_th 0)))). set (f4 := fst (fstep K F f3 (FAnalyze 1 (ex_chain 2)))).
  assert (R2 : fw_res f2 = upd (fw_res f1) (fd_res (F 0%nat)) (Some p0)).
  { apply fanalyze_res with (hh := h0); [apply fsetup_km|]. unfold f1. rewrite fsetup_theta by reflexivity. exact C0. }
  assert (R4 : fw_res f4 = upd (fw_res f3) (fd_res (F 1%nat)) (Some p1)).
  { apply fanalyze_res with (hh := h1); [apply fsetup_km|]. unfold f3. rewrite fsetup_theta by reflexivity. exact C1. }
  split; [|split; [|split; [exact L0|exact L1]]].
  - change y_ops with ([FSetup 0 (w_th 0); FAnalyze 0 (ex_chain 1); FSetup 1 (w_th 0); FAnalyze 1 (ex_chain 2)] ++ [FSetup 0 (w_th 0)])%list at 1.
    rewrite fobserved_snoc. cbn [ftarget Nat.eqb]. do 2 f_equal.
    change (frun K F ([FSetup 0 (w_th 0); FAnalyze 0 (ex_chain 1); FSetup 1 (w_th 0); FAnalyze 1 (ex_chain 2)] ++ [FSetup 0 (w_th 0)]) y_world) with (fst (fstep K F f4 (FSetup 0 (w_th 0)))).
    rewrite fsetup_res, R4. unfold f3. rewrite fsetup_res, R2. unfold F, y_fits. cbn [fd_res]. destruct shared.
    + rewrite upd_same. reflexivity.
    + rewrite upd_other by discriminate. rewrite upd_same. reflexivity.
  - change (frun K F [FSetup 0 (w_th 0); FAnalyze 0 (ex_chain 1); FSetup 0 (w_th 0)] y_world) with (fst (fstep K F f2 (FSetup 0 (w_th 0)))).
    rewrite fsetup_res, R2. apply upd_same.
Qed.

(** Two fits that were given no mcmc_results object: the second's analysis replaces the first's results. *)
Lemma shared_results_witness : exists K F i j fw ops, i <> j /\ no_models (fw_w fw) /\ fd_res (F i) = fd_res (F j) /\
  d_theta (fd_km (F i)) <> d_theta (fd_km (F j)) /\ d_int (fd_km (F i)) <> d_int (fd_km (F j)) /\ d_ins (fd_km (F i)) <> d_ins (fd_km (F j)) /\
  fobserved K F i ops fw <> fobserved K F i (filter (fabout i) ops) fw.
Proof.
  exists ex_kde, (y_fits true), 0%nat, 1%nat, y_world, y_ops. split; [discriminate|]. split; [intros k; reflexivity|]. split; [reflexivity|].
  split; [discriminate|]. split; [discriminate|]. split; [discriminate|]. intros X.
  destruct (y_run true) as (p0 & p1 & A & B & L0 & L1). rewrite A in X.
  change (filter (fabout 0) y_ops) with ([FSetup 0 (w_th 0); FAnalyze 0 (ex_chain 1)] ++ [FSetup 0 (w_th 0)])%list in X.
  rewrite (fobserved_snoc _ _ _ [FSetup 0 (w_th 0); FAnalyze 0 (ex_chain 1)]) in X. cbn [ftarget Nat.eqb] in X.
  apply app_inj_tail in X. destruct X as [_ X].
  change (fw_res (frun ex_kde (y_fits true) ([FSetup 0 (w_th 0); FAnalyze 0 (ex_chain 1)] ++ [FSetup 0 (w_th 0)]) y_world) (fd_res (y_fits true 0)))
    with (fw_res (frun ex_kde (y_fits true) [FSetup 0 (w_th 0); FAnalyze 0 (ex_chain 1); FSetup 0 (w_th 0)] y_world) (fd_res (y_fits true 0))) in X.
  rewrite B in X. apply (f_equal (fun t => snd (fst t))) in X. cbn [fst snd] in X.
  assert (p1 = p0) by congruence. subst p1. rewrite L0 in L1. discriminate.
Qed.

(** Two fits of a shared kinematic profile with objects of their own otherwise. *)
Lemma own_results : no_models (fw_w y_world) /\ fapart (y_fits false) 0 y_ops /\ own_light (y_fits false) 0 y_ops /\
  exists p r m l, fobserved ex_kde (y_fits false) 0 y_ops y_world = (l ++ [(r, Some p, m)])%list /\ length (p_best p) = 5%nat.
Proof.
  split; [intros k; reflexivity|]. split; [|split].
  - intros o H N. assert (T : ftarget o = 1%nat) by (cbn in H; intuition (subst; cbn in *; congruence)). rewrite T.
    split; [left; discriminate|]. split; discriminate.
  - intros o H N. assert (T : ftarget o = 1%nat) by (cbn in H; intuition (subst; cbn in *; congruence)). rewrite T. left. discriminate.
  - destruct (y_run false) as (p0 & p1 & A & _ & L0 & _). rewrite A. eexists _, _, _, _. split; [reflexivity|exact L0].
Qed.

(** Two models with light profiles of their own, a shared kinematic profile and no PSF. *)
Definition a_decl (i : nat) : decl :=
  mkDecl (s_cfg (s_int (if Nat.eqb i 0 then 1/2 else 1))) [false; false; false] true i i 0 0.
Lemma own_light_models : no_models s_world /\ apart a_decl 0 [New 0; New 1; Make 0 []; Make 1 []; Update 0 []] s_world /\
  exists m l, observed a_decl 0 [New 0; New 1; Make 0 []; Make 1 []; Update 0 []] s_world = (Ok tt, None) :: (Ok tt, Some m) :: l /\
    at2 m 0 0 = Fin (s_val (1/2)).
Proof.
  split; [intros k; reflexivity|].
  assert (A : apart a_decl 0 [New 0; New 1; Make 0 []; Make 1 []; Update 0 []] s_world).
  { intros o H N. assert (T : target o = 1%nat) by (cbn in H; intuition (subst; cbn in *; congruence)). rewrite T.
    split; [right; cbn; lra|]. split; left; discriminate. }
  split; [exact A|]. rewrite models_independent; [|intros k; reflexivity|exact A].
  change (filter (about 0) [New 0; New 1; Make 0 []; Make 1 []; Update 0 []]) with [New 0; Make 0 []; Update 0 []].
  destruct (s_make (s_int (1/2)) (s_val (1/2)) 0 None NoStamp (s_int_val (1/2) ltac:(lra)) (or_introl eq_refl)) as (k & m & E & Em & V).
  cbn [observed step target]. rewrite Nat.eqb_refl. unfold image at 1. cbn [w_km]. rewrite !upd_same. cbn [k_model].
  unfold cfg_of at 1, load at 1. cbn [w_int w_theta w_kin w_stamp k_vary k_noscale k_aper k_model option_map]. rewrite upd_same.
  match goal with |- context [km_make ?c ?t ?kk] => change (km_make c t kk) with (km_make (s_cfg (s_int (1/2))) [] (mkkm (w_th 0) [false; false; false] true None None NoStamp)) end.
  rewrite E. unfold image at 1. cbn [store w_km]. rewrite !upd_same. rewrite Em. exists m. eexists. split; [reflexivity|]. rewrite V. f_equal. ring.
Qed.

Lemma no_psf_stamp c st a : i_fwhm (c_ins c) <= 0 ->
  do_model_calcs c (set_stamp st a) = (set_stamp st (fst (do_model_calcs c a)), snd (do_model_calcs c a)).
Proof. intros H. apply blind_calcs. exact H. Qed.
