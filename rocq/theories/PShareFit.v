(* Proofs about programs with several fits. *)
From Coq Require Import Reals Lra List Bool Arith Lia.
From Verif Require Import PyFloat PyBase Arr PyNum MParams MKernels MAper2D MPost MShare SParams SShare PParams PAper2DHist PShareSt PShare.
Import ListNotations.
Local Open Scope nat_scope.

Lemma make_theta_fun c tf k : k_theta (fst (km_make c tf k)) =
  if Nat.eqb (length tf) (n_free_param (k_vary k)) then fst (update_parameters (k_theta k) (k_vary k) tf) else k_theta k.
Proof.
  unfold km_make. destruct (Nat.eqb _ _); cbn [negb]; [|reflexivity].
  destruct (update_parameters _ _ _) as [th [u|e]]; cbn [fst k_aper]; [|reflexivity]. destruct (k_aper k).
  - match goal with |- context [km_update_aper c ?kk] => destruct (update_aper_frame c kk) as (_ & _ & -> & _) end. reflexivity.
  - destruct (aper_new c th _) as [st [a'|e]]; [|reflexivity].
    match goal with |- context [store_model c ?kk a'] => destruct (store_model_frame c kk a') as (_ & _ & -> & _) end. reflexivity.
Qed.

(** An object that has its aperture model does not read the light profile again. *)
Lemma make_int c f g tf k : k_aper k <> None -> km_make (with_int c f) tf k = km_make (with_int c g) tf k.
Proof.
  intros H. unfold km_make. destruct (negb _); [reflexivity|]. destruct (update_parameters _ _ _) as [th [u|e]]; [|reflexivity].
  cbn [k_aper]. destruct (k_aper k); [reflexivity|congruence].
Qed.

Definition has_aper (o : option kinmodel) : Prop := match o with Some k => k_aper k <> None | None => False end.

Definition irel (d : decl) (i : nat) (w1 w2 : world) : Prop :=
  w_km w1 i <> None ->
  (w_int w1 (d_int d) = p_int (c_prof (d_cfg d)) /\ w_int w2 (d_int d) = p_int (c_prof (d_cfg d))) \/
  (has_aper (w_km w1 i) /\ has_aper (w_km w2 i)).

Definition frel (d : decl) (i : nat) (w1 w2 : world) : Prop :=
  same_stamp (d_cfg d) (w_stamp w1 (d_ins d)) (w_stamp w2 (d_ins d)) /\ orel d (w_km w1 i) (w_km w2 i) /\
  irel d i w1 w2 /\ w_theta w1 (d_theta d) = w_theta w2 (d_theta d).

Lemma aper_clean o1 o2 : ap_rel o1 o2 -> (o1 <> None <-> o2 <> None).
Proof. unfold ap_rel. destruct o1, o2; cbn; try discriminate; intuition congruence. Qed.

Lemma with_int_int c f : with_int c f = with_int (with_int c (p_int (c_prof c))) f.
Proof. reflexivity. Qed.

(** make_model on related objects. *)
Lemma make_own D i w1 w2 tf : frel (D i) i w1 w2 -> w_km w1 i <> None ->
  snd (step D w1 (Make i tf)) = snd (step D w2 (Make i tf)) /\
  image (fst (step D w1 (Make i tf))) i = image (fst (step D w2 (Make i tf))) i /\
  frel (D i) i (fst (step D w1 (Make i tf))) (fst (step D w2 (Make i tf))) /\
  w_km (fst (step D w1 (Make i tf))) i <> None /\
  ((w_int w1 (d_int (D i)) = p_int (c_prof (d_cfg (D i))) /\ w_int w2 (d_int (D i)) = p_int (c_prof (d_cfg (D i)))) ->
     w_int (fst (step D w1 (Make i tf))) (d_int (D i)) = p_int (c_prof (d_cfg (D i))) /\
     w_int (fst (step D w2 (Make i tf))) (d_int (D i)) = p_int (c_prof (d_cfg (D i)))) /\
  ((has_aper (w_km w1 i) /\ has_aper (w_km w2 i)) \/ snd (step D w2 (Make i tf)) = Ok tt ->
     has_aper (w_km (fst (step D w1 (Make i tf))) i) /\ has_aper (w_km (fst (step D w2 (Make i tf))) i)).
Proof.
  intros (S & K & I & T) N. specialize (I N). cbn [step].
  destruct (w_km w1 i) as [k1|] eqn:E1, (w_km w2 i) as [k2|] eqn:E2; cbn [orel] in K; try contradiction.
  destruct K as (K1 & K2 & K3 & K4 & K5). unfold cfg_of. rewrite !load_loaded.
  set (c := d_cfg (D i)) in *.
  assert (X : forall k w, k = k1 /\ w = w1 \/ k = k2 /\ w = w2 ->
     km_make (with_int c (w_int w (d_int (D i)))) tf (loaded (w_stamp w (d_ins (D i))) (w_theta w (d_theta (D i))) (w_kin w (d_kin (D i))) k) =
     km_make (with_int c (p_int (c_prof c))) tf (loaded (w_stamp w (d_ins (D i))) (w_theta w (d_theta (D i))) (w_kin w (d_kin (D i))) k)).
  { intros k w Hk. destruct I as [[I1 I2]|[I1 I2]].
    - destruct Hk as [[-> ->]|[-> ->]]; congruence.
    - apply make_int. unfold loaded. cbn [k_aper]. cbn [has_aper] in I1, I2.
      destruct Hk as [[-> ->]|[-> ->]]; [destruct (k_aper k1)|destruct (k_aper k2)]; cbn [option_map]; congruence. }
  rewrite (X k1 w1), (X k2 w2) by auto.
  destruct (call_rel (with_int c (p_int (c_prof c))) (w_stamp w1 (d_ins (D i))) (w_stamp w2 (d_ins (D i)))
              (w_theta w1 (d_theta (D i))) (w_theta w2 (d_theta (D i))) (w_kin w1 (d_kin (D i))) (w_kin w2 (d_kin (D i))) k1 k2 tf) as [C _];
    [congruence|exact K3|exact K4|exact K5|left; exact T|exact S|]. cbv zeta in C.
  pose proof (make_theta_fun (with_int c (p_int (c_prof c))) tf (loaded (w_stamp w1 (d_ins (D i))) (w_theta w1 (d_theta (D i))) (w_kin w1 (d_kin (D i))) k1)) as TH1.
  pose proof (make_theta_fun (with_int c (p_int (c_prof c))) tf (loaded (w_stamp w2 (d_ins (D i))) (w_theta w2 (d_theta (D i))) (w_kin w2 (d_kin (D i))) k2)) as TH2.
  destruct (km_make _ tf (loaded _ (w_theta w1 _) _ k1)) as [k1' r1] eqn:M1.
  destruct (km_make _ tf (loaded _ (w_theta w2 _) _ k2)) as [k2' r2] eqn:M2. cbn [fst snd] in *. destruct C as [C1 (R1 & R2 & R3 & R4 & R5 & R6)].
  cbn [loaded k_vary k_theta] in TH1, TH2. rewrite K1 in TH1. rewrite K2 in TH2. rewrite T in TH1.
  apply make_frame in M1. destruct M1 as (A1 & _ & _ & _ & A5 & A6). apply make_frame in M2. destruct M2 as (B1 & _ & _ & _ & B5 & B6).
  cbn [loaded k_vary k_aper] in *.
  unfold frel, irel, image. cbn [store w_km w_stamp w_int w_theta]. rewrite !upd_same.
  assert (HA : (k_aper k1 <> None /\ k_aper k2 <> None) \/ r2 = Ok tt -> k_aper k1' <> None /\ k_aper k2' <> None).
  { intros [[H1 H2]|H]; [|split; [apply A5; congruence|apply B5; exact H]].
    split; [apply A6; destruct (k_aper k1); cbn; congruence|apply B6; destruct (k_aper k2); cbn; congruence]. }
  split; [exact C1|]. split; [exact R3|].
  split; [split; [exact R4|]; split; [cbn [orel]; repeat split; congruence|]; split; [|congruence]|].
  { intros _. destruct I as [I|I]; [left; exact I|right]. cbn [has_aper] in *. apply HA. left. exact I. }
  split; [discriminate|]. split; [auto|]. cbn [has_aper]. exact HA.
Qed.

(** How one fit's calls change the world. *)
Lemma fstep_elsewhere K F fw o : let j := ftarget o in let w := fw_w fw in let w' := fw_w (fst (fstep K F fw o)) in
  (forall i, i <> j -> w_km w' i = w_km w i) /\
  (forall s, s <> d_ins (fd_km (F j)) -> w_stamp w' s = w_stamp w s) /\
  (forall s, s <> d_theta (fd_km (F j)) -> w_theta w' s = w_theta w s) /\
  (forall s, w_int w' s = w_int w s \/ (s = d_int (fd_km (F j)) /\ w_int w' s = p_int (c_prof (d_cfg (fd_km (F j)))))) /\
  (forall s, s <> fd_res (F j) -> fw_res (fst (fstep K F fw o)) s = fw_res fw s).
Proof.
  assert (ST : forall w i tf s, s <> d_theta (kms F i) -> w_theta (fst (step (kms F) w (Make i tf))) s = w_theta w s).
  { intros w i tf s N. cbn [step]. destruct (w_km w i); [|reflexivity]. destruct (km_make _ tf _). cbn [fst store w_theta]. apply upd_other. exact N. }
  assert (SI : forall w i tf s, w_int (fst (step (kms F) w (Make i tf))) s = w_int w s).
  { intros w i tf s. cbn [step]. destruct (w_km w i); [|reflexivity]. destruct (km_make _ tf _). reflexivity. }
  cbv zeta. destruct o as [j th|j h]; cbn [fstep ftarget].
  - set (w0 := mkWorld _ _ _ _ _). destruct (step_elsewhere (kms F) w0 (New j)) as (A1 & A2 & A3). cbn [target] in A1, A2, A3.
    set (w1 := fst (step (kms F) w0 (New j))) in *.
    assert (A4 : forall s, s <> d_theta (fd_km (F j)) -> w_theta w1 s = w_theta (fw_w fw) s) by (intros s N; unfold w1, w0; cbn [step fst w_theta]; apply upd_other; exact N).
    destruct (initialize_fitting_theta th _) as [tf|e].
    + destruct (step_elsewhere (kms F) w1 (Make j tf)) as (B1 & B2 & B3). cbn [target] in B1, B2, B3.
      pose proof (ST w1 j tf) as B4. pose proof (SI w1 j tf) as B5. destruct (step (kms F) w1 (Make j tf)) as [w2 r]. cbn [fst fw_w fw_res] in *.
      split; [intros i N; rewrite B1, A1 by exact N; reflexivity|]. split; [intros s N; rewrite B2, A2 by exact N; reflexivity|].
      split; [intros s N; rewrite B4, A4 by exact N; reflexivity|]. split; [intros s; rewrite B5; apply A3|auto].
    + cbn [fst fw_w fw_res]. split; [intros i N; rewrite A1 by exact N; reflexivity|]. split; [intros s N; rewrite A2 by exact N; reflexivity|].
      split; [exact A4|]. split; [exact A3|auto].
  - destruct (w_km (fw_w fw) j); [|cbn [fst]; repeat split; auto; fail]. destruct (chain_results _ _ _ _) as [[hh p]|e]; [|cbn [fst]; repeat split; auto; fail].
    destruct (step_elsewhere (kms F) (fw_w fw) (Make j (p_fit p))) as (B1 & B2 & _). cbn [target] in B1, B2.
    pose proof (ST (fw_w fw) j (p_fit p)) as B4. pose proof (SI (fw_w fw) j (p_fit p)) as B5.
    destruct (step (kms F) (fw_w fw) (Make j (p_fit p))) as [w2 r]. cbn [fst fw_w fw_res] in *.
    split; [exact B1|]. split; [exact B2|]. split; [exact B4|]. split; [intros s; left; apply B5|].
    intros s N. apply upd_other. exact N.
Qed.

Definition frel' (F : nat -> fdecl) (i : nat) (light : bool) (fw1 fw2 : fworld) : Prop :=
  frel (fd_km (F i)) i (fw_w fw1) (fw_w fw2) /\ fw_res fw1 (fd_res (F i)) = fw_res fw2 (fd_res (F i)) /\
  (w_km (fw_w fw1) i <> None ->
   if light then w_int (fw_w fw1) (d_int (fd_km (F i))) = p_int (c_prof (d_cfg (fd_km (F i)))) /\ w_int (fw_w fw2) (d_int (fd_km (F i))) = p_int (c_prof (d_cfg (fd_km (F i))))
   else has_aper (w_km (fw_w fw1) i) /\ has_aper (w_km (fw_w fw2) i)).

Lemma fstep_other K F i light fw1 fw2 o : frel' F i light fw1 fw2 -> ftarget o <> i ->
  (d_ins (fd_km (F (ftarget o))) <> d_ins (fd_km (F i)) \/ (i_fwhm (c_ins (d_cfg (fd_km (F i)))) <= 0)%R) ->
  fd_res (F (ftarget o)) <> fd_res (F i) -> d_theta (fd_km (F (ftarget o))) <> d_theta (fd_km (F i)) ->
  (light = true -> d_int (fd_km (F (ftarget o))) <> d_int (fd_km (F i)) \/
     p_int (c_prof (d_cfg (fd_km (F (ftarget o))))) = p_int (c_prof (d_cfg (fd_km (F i))))) ->
  frel' F i light (fst (fstep K F fw1 o)) fw2.
Proof.
  intros ((S & Ko & I & T) & R & L) Ht Hs Hr Hth Hl. destruct (fstep_elsewhere K F fw1 o) as (A1 & A2 & A3 & A4 & A5).
  unfold frel', frel, irel. rewrite (A1 i) by congruence. rewrite A3, A5 by congruence.
  assert (L' : w_km (fw_w fw1) i <> None ->
   if light then w_int (fw_w (fst (fstep K F fw1 o))) (d_int (fd_km (F i))) = p_int (c_prof (d_cfg (fd_km (F i)))) /\ w_int (fw_w fw2) (d_int (fd_km (F i))) = p_int (c_prof (d_cfg (fd_km (F i))))
   else has_aper (w_km (fw_w fw1) i) /\ has_aper (w_km (fw_w fw2) i)).
  { intros N. specialize (L N). destruct light; [|exact L]. destruct L as [L1 L2]. split; [|exact L2].
    destruct (A4 (d_int (fd_km (F i)))) as [E|[E1 E2]]; [congruence|]. destruct (Hl eq_refl) as [X|X]; congruence. }
  split; [split; [destruct Hs as [Hs|Hs]; [rewrite A2 by congruence; exact S|now right]|]; split; [exact Ko|]; split; [|exact T]|].
  - intros N. specialize (L' N). destruct light; auto.
  - split; [exact R|exact L'].
Qed.

Lemma fstep_own K F i light fw1 fw2 o : frel' F i light fw1 fw2 -> ftarget o = i ->
  (light = false -> forall th, o = FSetup i th -> snd (fstep K F fw2 o) = Ok tt) ->
  snd (fstep K F fw1 o) = snd (fstep K F fw2 o) /\ image (fw_w (fst (fstep K F fw1 o))) i = image (fw_w (fst (fstep K F fw2 o))) i /\
  frel' F i light (fst (fstep K F fw1 o)) (fst (fstep K F fw2 o)).
Proof.
  intros ((S & Ko & I & T) & R & L) Ht Hs. destruct o as [j th|j h]; cbn [ftarget] in Ht; subst j.
  - specialize (Hs). cbn [fstep] in *. set (d := fd_km (F i)) in *.
    set (u1 := fst (step (kms F) (mkWorld (upd (w_theta (fw_w fw1)) (d_theta d) th) (w_int (fw_w fw1)) (w_kin (fw_w fw1)) (w_stamp (fw_w fw1)) (w_km (fw_w fw1))) (New i))) in *.
    set (u2 := fst (step (kms F) (mkWorld (upd (w_theta (fw_w fw2)) (d_theta d) th) (w_int (fw_w fw2)) (w_kin (fw_w fw2)) (w_stamp (fw_w fw2)) (w_km (fw_w fw2))) (New i))) in *.
    assert (K1 : forall u, u = u1 \/ u = u2 -> w_km u i <> None /\ w_int u (d_int d) = p_int (c_prof (d_cfg d)) /\ w_theta u (d_theta d) = th).
    { intros u [->| ->]; unfold u1, u2; cbn [step fst w_km w_int w_theta]; rewrite !upd_same; (split; [discriminate|]); split; try reflexivity; apply upd_same. }
    destruct (K1 u1 (or_introl eq_refl)) as (N1 & J1 & T1). destruct (K1 u2 (or_intror eq_refl)) as (N2 & J2 & T2).
    assert (FR : frel d i u1 u2).
    { split; [exact S|]. split; [|split; [intros _; left; auto|congruence]].
      unfold u1, u2. cbn [step fst w_km w_stamp w_theta]. rewrite !upd_same. cbn [orel k_vary k_noscale k_model k_aper].
      repeat split. }
    destruct (initialize_fitting_theta th (d_vary d)) as [tf|e].
    + destruct (make_own (kms F) i u1 u2 tf FR N1) as (M1 & M2 & M3 & M4 & M5 & M6).
      destruct (step (kms F) u1 (Make i tf)) as [v1 r1]. destruct (step (kms F) u2 (Make i tf)) as [v2 r2]. cbn [fst snd fw_w] in *.
      split; [exact M1|]. split; [exact M2|]. split; [exact M3|]. split; [exact R|]. intros _. destruct light.
      * apply M5. auto.
      * apply M6. right. apply (Hs eq_refl th eq_refl).
    + cbn [fst snd fw_w]. split; [reflexivity|]. split; [unfold image, u1, u2; cbn [step fst w_km]; rewrite !upd_same; reflexivity|].
      split; [exact FR|]. split; [exact R|]. intros _. destruct light; [auto|]. specialize (Hs eq_refl th eq_refl). discriminate.
  - cbn [fstep]. unfold irel in I. set (d := fd_km (F i)) in *.
    destruct (w_km (fw_w fw1) i) as [k1|] eqn:E1, (w_km (fw_w fw2) i) as [k2|] eqn:E2; cbn [orel] in Ko; try contradiction.
    2: { cbn [fst snd]. unfold image. rewrite E1, E2. split; [reflexivity|]. split; [reflexivity|]. unfold frel', frel, irel. rewrite E1, E2.
         repeat split; auto; congruence. }
    rewrite T. destruct (chain_results K (fd_links (F i)) (fd_fitted (F i) (w_theta (fw_w fw2) (d_theta d))) h) as [[hh p]|e].
    2: { cbn [fst snd]. unfold image. rewrite E1, E2. split; [reflexivity|]. split; [apply Ko|]. unfold frel', frel, irel. rewrite E1, E2.
         split; [split; [exact S|]; split; [exact Ko|]; split; [exact I|exact T]|]. split; [exact R|exact L]. }
    assert (FR : frel d i (fw_w fw1) (fw_w fw2)).
    { unfold frel, irel. rewrite E1, E2. split; [exact S|]. split; [exact Ko|]. split; [exact I|exact T]. }
    assert (N1 : w_km (fw_w fw1) i <> None) by congruence.
    destruct (make_own (kms F) i (fw_w fw1) (fw_w fw2) (p_fit p) FR N1) as (M1 & M2 & M3 & M4 & M5 & M6).
    destruct (step (kms F) (fw_w fw1) (Make i (p_fit p))) as [v1 r1]. destruct (step (kms F) (fw_w fw2) (Make i (p_fit p))) as [v2 r2]. cbn [fst snd fw_w fw_res] in *.
    split; [exact M1|]. split; [exact M2|]. split; [exact M3|]. cbn [fw_res]. rewrite !upd_same. split; [reflexivity|]. intros _.
    specialize (L ltac:(discriminate)). destruct light.
    + apply M5. exact L.
    + apply M6. left. first [exact L | rewrite E1, E2; exact L].
Qed.

Lemma fobserved_rel K F i light : forall ops fw1 fw2, frel' F i light fw1 fw2 -> fapart F i ops ->
  (light = true -> own_light F i ops) -> (light = false -> setups_succeed K F i ops fw2) ->
  fobserved K F i ops fw1 = fobserved K F i (filter (fabout i) ops) fw2.
Proof.
  induction ops as [|o ops IH]; intros fw1 fw2 R A OL SS; [reflexivity|].
  assert (A' : fapart F i ops) by (intros o' Ho; apply A; now right).
  assert (OL' : light = true -> own_light F i ops) by (intros l o' Ho; apply (OL l); now right).
  cbn [fobserved filter]. unfold fabout at 1. destruct (Nat.eqb_spec (ftarget o) i) as [E|E].
  - cbn [fobserved].
    assert (FI : filter (fabout i) (o :: ops) = o :: filter (fabout i) ops) by (cbn [filter]; unfold fabout at 1; rewrite E, Nat.eqb_refl; reflexivity).
    destruct (fstep_own K F i light fw1 fw2 o R E) as (S1 & S2 & S3).
    { intros l th Eo. pose proof (SS l [] th (filter (fabout i) ops)) as Q. rewrite FI, Eo in Q. rewrite Eo. exact (Q eq_refl). }
    assert (SS' : light = false -> setups_succeed K F i ops (fst (fstep K F fw2 o))).
    { intros l ops1 th ops2 Ef. apply (SS l (o :: ops1) th ops2). rewrite FI, Ef. reflexivity. }
    destruct (fstep K F fw1 o) as [fw1' r1], (fstep K F fw2 o) as [fw2' r2]. cbn [fst snd] in *.
    rewrite E, Nat.eqb_refl. pose proof (proj1 (proj2 S3)) as S3b. rewrite S1, S2, S3b. f_equal. apply IH; auto.
  - destruct (A o (or_introl eq_refl) E) as (A1 & A2 & A3).
    assert (R' : frel' F i light (fst (fstep K F fw1 o)) fw2).
    { apply (fstep_other K F i light fw1 fw2 o R E A1 A2 A3). intros l. apply (OL l o (or_introl eq_refl) E). }
    assert (FI : filter (fabout i) (o :: ops) = filter (fabout i) ops).
    { cbn [filter]. unfold fabout at 1. destruct (Nat.eqb_spec (ftarget o) i); [contradiction|reflexivity]. }
    destruct (fstep K F fw1 o) as [fw1' r1]. cbn [fst] in R'. apply IH; auto.
    intros l ops1 th ops2 Ef. apply (SS l ops1 th ops2). rewrite FI. exact Ef.
Qed.

Lemma fits_independent K F i ops fw : no_models (fw_w fw) -> fapart F i ops ->
  own_light F i ops \/ setups_succeed K F i ops fw ->
  fobserved K F i ops fw = fobserved K F i (filter (fabout i) ops) fw.
Proof.
  intros N A H.
  assert (R : forall light, frel' F i light fw fw).
  { intros light. unfold frel', frel, irel. rewrite N. cbn [orel]. split; [split; [now left|]; split; [exact I|]; split; [congruence|reflexivity]|].
    split; [reflexivity|congruence]. }
  destruct H as [H|H].
  - apply (fobserved_rel K F i true); auto; discriminate.
  - apply (fobserved_rel K F i false); auto; discriminate.
Qed.

(** A shared result object: whoever analysed last owns it. *)
Lemma shared_results K F i j ops h fw p hh : i <> j -> fd_res (F i) = fd_res (F j) ->
  w_km (fw_w (frun K F ops fw)) j <> None ->
  chain_results K (fd_links (F j)) (fd_fitted (F j) (w_theta (fw_w (frun K F ops fw)) (d_theta (fd_km (F j))))) h = Ok (hh, p) ->
  fw_res (frun K F (ops ++ [FAnalyze j h]) fw) (fd_res (F i)) = Some p.
Proof.
  intros N E Kj C. unfold frun. rewrite fold_left_app. fold (frun K F ops fw). cbn [fold_left fstep].
  destruct (w_km (fw_w (frun K F ops fw)) j); [|congruence]. rewrite C.
  destruct (step _ _ _) as [w' r]. cbn [fst fw_res]. rewrite E. apply upd_same.
Qed.
