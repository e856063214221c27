(* Proofs: preparation in two units of flux, from the continuum to the end. *)
From Coq Require Import Reals Lra Lia List Bool Arith ZArith.
From Verif Require PAper1D PyBase.
Local Lemma Ok_inj {A} (a b : A) : PyBase.Ok a = PyBase.Ok b -> a = b.
Proof. intros E. injection E as E. exact E. Qed.
From Verif Require Import PyFloat PyBase Arr PyNum PKernels PAper2D PBright MMask MTrim PTrim MPrep SPrep PPrep SUnits PUnits PUnits2.
Import ListNotations.
Local Open Scope R_scope.

Section U.
Variable u : R.
Hypothesis Hu : 0 < u.
Variable c : cfg.
Hypothesis Hc : answers_in_unit u c.
Notation s_ := (fmul (Fin u)).
Notation like := (like u).
Notation outer := (outer u).

Definition rows_ok (s : sp2) : Prop := forall a b, q_incl s = Some a -> q_flux s = Some b -> rows a = rows b.
Definition R2 (e e' : env) : Prop := like (converted_or_masked u) (e2 e) (e2 e') /\ outer e e' /\ blank e /\ rows_ok (e2 e).

Lemma noise1_units r m : map (fun p => fsqrt (fsq (fmul (fst p) (snd p)))) (combine (list_in u r) m) = list_in u (map (fun p => fsqrt (fsq (fmul (fst p) (snd p)))) (combine r m)).
Proof.
  revert m. induction r as [|a t IH]; intros [|b m]; cbn [list_in map combine]; try reflexivity. f_equal; [|apply IH]. cbn [fst snd].
  rewrite (s_mul u Hu), (s_sq u Hu). apply (s_sqrt u Hu).
Qed.

Lemma fit1_units wl wr e e' : R2 e e' ->
  both (fun p p' f f' => p' = ((s_ (fst (fst p)), s_ (snd (fst p))), snd p) /\ R2 f f') (cont_fit1 c wl wr e) (cont_fit1 c wl wr e').
Proof.
  intros (L & O & B & Ro). unfold cont_fit1. rewrite !bind_get. destruct L as (F & Lf & Le & Li & Lc & Lm). destruct O as (O1 & O2 & O3).
  rewrite (fr_obs _ _ F). apply both_same. intros ow _. apply both_same. intros xl _. apply both_same. intros xr _.
  rewrite O1. eapply both_lift; [apply need_in|]. intros t t' -> _ _.
  change (s_flux (sp1_in u t)) with (option_map (list_in u) (s_flux t)). change (s_err (sp1_in u t)) with (option_map (list_in u) (s_err t)). change (s_mask (sp1_in u t)) with (s_mask t).
  eapply both_lift; [apply need_in|]. intros r1 r1' -> _ _. apply both_same. intros m1 _.
  replace (length (list_in u r1)) with (length r1) by (unfold list_in; now rewrite map_length). apply both_same. intros _ _. cbv zeta.
  rewrite (fr_cutoff _ _ F). apply both_same. intros cut _. rewrite noise1_units, Lm, (skylines_1D_units u Hu). apply both_same. intros ns _.
  apply both_w1. intros k k'. apply both_same. intros vary _.
  eapply both_lift; [apply need_in|]. intros f1 f1' -> _ _. rewrite !(taken_in u).
  assert (T : forall (r : res (list fl)), rrel (fun a a' => a' = list_in u a) r (res_in (list_in u) r)) by (intros [x|x]; reflexivity).
  eapply both_lift; [apply T|]. intros yl yl' -> _ _. eapply both_lift; [apply T|]. intros yr yr' -> _ _.
  eapply both_lift; [apply T|]. intros el el' -> _ _. eapply both_lift; [apply T|]. intros er er' -> _ _.
  apply both_same. intros ml _. apply both_same. intros mr _.
  replace (list_in u yl ++ list_in u yr) with (list_in u (yl ++ yr)) by (unfold list_in; apply map_app). replace (list_in u el ++ list_in u er) with (list_in u (el ++ er)) by (unfold list_in; apply map_app).
  destruct Hc as (_ & H1 & _). rewrite H1.
  eapply both_lift with (V := fun p p' => p' = (s_ (fst p), s_ (snd p))); [destruct (g_fit1 c vary _ _ _ _); reflexivity|]. intros ab ab' -> _ _.
  apply both_ok. cbn [fst snd]. split; [reflexivity|]. cbn [e2 e1 e_dpa e_reg]. unfold R2. cbn [e2]. split; [repeat split; assumption|]. split; [|split; [exact B|exact Ro]].
  split; [cbn [e1]; rewrite ?O1; apply mask1_in|]. split; assumption.
Qed.

Lemma app_pixels (Q : fl -> fl -> fl -> Prop) (la la' lb lb' ma mb : list fl) : length la' = length la -> length lb' = length lb -> length ma = length la -> length mb = length lb ->
  Q NaN NaN NaN -> (forall k, (k < length la)%nat -> Q (lnth ma k) (lnth la k) (lnth la' k)) -> (forall k, (k < length lb)%nat -> Q (lnth mb k) (lnth lb k) (lnth lb' k)) ->
  forall k, Q (lnth (ma ++ mb) k) (lnth (la ++ lb) k) (lnth (la' ++ lb') k).
Proof.
  intros A B C D N H1 H2 k. unfold lnth in *. destruct (Nat.lt_ge_cases k (length la)) as [L|L].
  - rewrite !app_nth1 by lia. now apply H1.
  - rewrite !app_nth2 by lia. rewrite A, C. destruct (Nat.lt_ge_cases (k - length la) (length lb)) as [M|M]; [now apply H2|].
    rewrite !nth_overflow by lia. exact N.
Qed.

Lemma row_units a b xs wl wr i e e' : R2 e e' -> both (fun _ _ => R2) (cont_row c a b xs wl wr i e) (cont_row c (s_ a) (s_ b) xs wl wr i e').
Proof.
  intros (L & O & B & Ro). unfold cont_row. rewrite !bind_get. cbv zeta. destruct L as (F & Lf & Le & Li & Lc & Lm).
  set (z := masked (q_mask (e2 e)) (q_qual (e2 e)) (q_sky (e2 e))) in *.
  eapply both_lift; [apply need_o; exact Li|]. intros ic ic' Pi Ei Ei'. eapply both_lift; [apply need_o; exact Le|]. intros er er' Pe _ _.
  rewrite (fr_mask _ _ F). apply both_same. intros mk Em. rewrite Lc. eapply both_lift; [apply need_in|]. intros ct ct' -> Ec _.
  eapply both_lift; [apply need_o; exact Lf|]. intros fx fx' Pf Ef Ef'.
  assert (Zm : forall i j, z i j -> at2 mk i j = Fin 0). { intros i' j' (Z1 & _). apply Z1. destruct (q_mask (e2 e)); [now injection Em as ->|discriminate]. }
  eapply both_lift; [apply row_at_units; exact Pi|]. intros yl yl' (Y1 & Y2 & Y3) _ _. eapply both_lift; [apply row_at_units; exact Pi|]. intros yr yr' (Y4 & Y5 & Y6) _ _.
  eapply both_lift; [apply row_at_units; exact Pe|]. intros el el' (Y7 & Y8 & Y9) _ _. eapply both_lift; [apply row_at_units; exact Pe|]. intros er1 er1' (V1 & V2 & V3) _ _.
  apply both_same. intros ml Eml. apply both_same. intros mr Emr.
  assert (Rm : forall wh m, row_at mk i wh = Ok m -> length m = length wh /\ forall k, (k < length wh)%nat -> lnth m k = at2 mk i (nth k wh 0%nat)).
  { intros wh m E. unfold row_at in E. destruct (forallb _ wh); [|discriminate]. injection E as <-. rewrite map_length. split; [reflexivity|]. intros k Hk. unfold lnth.
    rewrite (nth_indep _ NaN (at2 mk i 0)) by (rewrite map_length; exact Hk). apply map_nth. }
  destruct (Rm _ _ Eml) as [M1 M2]. destruct (Rm _ _ Emr) as [M3 M4].
  destruct Hc as (_ & _ & H2 & _).
  rewrite (H2 i a b xs (yl ++ yr) (el ++ er1) (ml ++ mr) (yl' ++ yr') (el' ++ er1')).
  2:{ rewrite !app_length. congruence. } 2:{ rewrite !app_length. congruence. }
  2:{ apply (app_pixels (fun m x x' => converted_or_filled u (m = Fin 0) x x')); try congruence; [now left| |].
      - rewrite Y2. intros k Hk. rewrite M2 by exact Hk. eapply filled_weaken; [apply Zm|apply Y3; exact Hk].
      - rewrite Y5. intros k Hk. rewrite M4 by exact Hk. eapply filled_weaken; [apply Zm|apply Y6; exact Hk]. }
  2:{ apply (app_pixels (fun m x x' => converted_or_filled u (m = Fin 0) x x')); try congruence; [now left| |].
      - rewrite Y8. intros k Hk. rewrite M2 by exact Hk. eapply filled_weaken; [apply Zm|apply Y9; exact Hk].
      - rewrite V2. intros k Hk. rewrite M4 by exact Hk. eapply filled_weaken; [apply Zm|apply V3; exact Hk]. }
  eapply both_lift with (V := fun p p' => p' = s_ p); [destruct (g_fitrow c i a b _ _ _ _); reflexivity|]. intros bb bb' -> _ _.
  rewrite (fr_wave _ _ F). apply both_same. intros w _. rewrite (line_units u Hu).
  replace (length (list_in u (line_at a bb w))) with (length (line_at a bb w)) by (unfold list_in; now rewrite map_length).
  set (cf := line_at a bb w). clearbody cf. change (cols (img_in u ct)) with (cols ct). apply both_same. intros _ _. rewrite !bind_up2. 
  rewrite (set_row_in u) by (intros j; apply lnth_in). unfold list_in at 1. rewrite (s_npmax u Hu).
  eapply both_lift with (V := fun p p' => p' = s_ p); [destruct (np_max cf); reflexivity|]. intros mx mx' -> _ _. rewrite (s_finite u Hu).
  apply both_same. intros _ _. destruct Pi as (I1 & I2 & I3). destruct Pf as (F1 & F2 & F3). rewrite I2, F2. apply both_same. intros _ _. apply both_same. intros _ _.
  set (nf := map _ (seq 0 (cols ic))). set (nf' := map _ (seq 0 (cols ic))).
  assert (N : forall j, converted_or_masked u (z i j) (lnth nf j) (lnth nf' j)).
  { intros j. unfold nf, nf'. destruct (Nat.lt_ge_cases j (cols ic)) as [Hj|Hj].
    - rewrite !PAper1D.lnth_map_seq by exact Hj. rewrite lnth_in. destruct (I3 i j) as [->|(Z1 & -> & ->)]; [left; apply (s_sub u Hu)|]. right. split; [exact Z1|].
      unfold fsub. destruct (lnth cf j) as [r| | |]; cbn [fneg fadd fmul]; rewrite ?(s_inf u Hu); reflexivity.
    - unfold lnth. rewrite !nth_overflow by (rewrite map_length, seq_length; exact Hj). now left. }
  clearbody nf nf'.
  assert (G : R2 (mkEnv (set_q_flux (Some (set_row fx i nf)) (set_q_cont (Some (set_row ct i cf)) (e2 e))) (e1 e) (e_dpa e) (e_reg e) (e_k e))
             (mkEnv (set_q_flux (Some (set_row fx' i nf')) (set_q_cont (Some (img_in u (set_row ct i cf))) (e2 e'))) (e1 e') (e_dpa e') (e_reg e') (e_k e'))).
  { unfold R2. cbn [e2]. split; [|split; [exact O|split; [exact B|]]].
    - split; [fu; exact F|]. split; [|split; [exact Le|split; [exact Li|split; [reflexivity|exact Lm]]]].
      split; [exact F1|]. split; [exact F2|]. intros i' j. unfold set_row. cbn [at2]. destruct (Nat.eqb_spec i' i) as [->|Ni]; [apply N|apply F3].
    - intros x y Ex Ey. change (q_incl (e2 e) = Some x) in Ex. change (Some (set_row fx i nf) = Some y) in Ey. injection Ey as <-. change (rows x = rows fx). apply Ro; [exact Ex|].
      destruct (q_flux (e2 e)); [now injection Ef as ->|discriminate]. }
  exact G.
Qed.
Lemma rows_units a b xs wl wr is : forall e e', R2 e e' -> both (fun _ _ => R2) (cont_rows c a b xs wl wr is e) (cont_rows c (s_ a) (s_ b) xs wl wr is e').
Proof.
  induction is as [|i t IH]; intros e e' H; cbn [cont_rows]; [exact H|]. apply both_bind with (fun _ _ => R2); [now apply row_units|]. intros _ _ f f' K. now apply IH.
Qed.

Lemma zero_take o wh m i j : take_cols_o o wh = Ok m -> zero_in o i (nth j wh 0%nat) -> zero_in (Some m) i j.
Proof.
  unfold take_cols_o, take_cols. destruct o as [a|]; [|discriminate]. cbn [need bind]. destruct (forallb _ wh); [|discriminate]. intros E Hz m' E'. injection E' as <-.
  apply Ok_inj in E. subst m. cbn [at2]. apply Hz. reflexivity.
Qed.
Lemma blank_masked o i j : masked o None None i j <-> zero_in o i j.
Proof. split; [intros (A & _); exact A|]. intros A. split; [exact A|]. split; intros ? X; discriminate X. Qed.

Lemma rel_res {A} (f : A -> A) (r : res A) : rrel (fun a a' => a' = f a) r (res_in f r).
Proof. destruct r; reflexivity. Qed.

Ltac up := rewrite !bind_up2; cbn [e2 e1 e_dpa e_reg e_k].
Lemma trim_units wf e e' : R2 e e' -> both (fun _ _ => R2) (cont_trim c wf e) (cont_trim c wf e').
Proof.
  intros (L & O & B & Ro). unfold cont_trim. rewrite !bind_get. cbv zeta. destruct L as (F & Lf & Le & Li & Lc & Lm). destruct B as [B1 B2]. rewrite B1, B2 in *.
  rewrite (fr_wave _ _ F). apply both_same. intros w _. up.
  eapply both_lift; [apply take_units; exact Li|]. intros ic ic' Pi Ei _. up.
  rewrite Lc, (take_in u). eapply both_lift; [apply rel_res|]. intros ct ct' -> Ec _. up.
  eapply both_lift; [apply take_units; exact Lf|]. intros fx fx' Pf Ef _. up.
  eapply both_lift; [apply take_units; exact Le|]. intros er er' Pe Ee _. up.
  rewrite (fr_mask _ _ F). apply both_same. intros mk Em. up. rewrite (fr_weight _ _ F). apply both_same. intros wt _. up. rewrite !bind_upk. cbn [e2 e1 e_dpa e_reg e_k].
  set (S1 := set_q_weight _ _). set (S1' := set_q_weight _ _).
  assert (Zt : forall i j, masked (q_mask (e2 e)) None None i (nth j wf 0%nat) -> masked (Some mk) None None i j).
  { intros i j. rewrite !blank_masked. apply (zero_take _ _ _ _ _ Em). }
  assert (G : like (converted_or_masked u) S1 S1' /\ q_qual S1 = None /\ q_sky S1 = None /\ rows_ok S1).
  { assert (Q1 : q_qual S1 = None) by exact B1. assert (Q2 : q_sky S1 = None) by exact B2. assert (Q3 : q_mask S1 = Some mk) by reflexivity. split; [|split; [exact Q1|split; [exact Q2|]]].
    - unfold PUnits2.like. cbv zeta. rewrite Q1, Q2, Q3. split; [unfold S1, S1'; fu; exact F|].
      change (q_flux S1) with (Some fx). change (q_flux S1') with (Some fx'). change (q_err S1) with (Some er). change (q_err S1') with (Some er'). change (q_incl S1) with (Some ic). change (q_incl S1') with (Some ic').
      cbn [pixelwise_o]. split; [|split; [|split; [|split; [reflexivity|exact Lm]]]].
      + eapply pixel_weaken; [|exact Pf]. intros i j x x'. apply masked_weaken. apply Zt.
      + eapply pixel_weaken; [|exact Pe]. intros i j x x'. apply filled_weaken. apply Zt.
      + eapply pixel_weaken; [|exact Pi]. intros i j x x'. apply filled_weaken. apply Zt.
    - intros a b Ea Eb. change (Some ic = Some a) in Ea. change (Some fx = Some b) in Eb. injection Ea as <-. injection Eb as <-.
      unfold take_cols_o, take_cols in Ei, Ef. destruct (q_incl (e2 e)) as [x|] eqn:Ex; [|discriminate]. destruct (q_flux (e2 e)) as [y|] eqn:Ey; [|discriminate]. cbn [need bind] in Ei, Ef.
      destruct (forallb _ wf) in Ei; [|discriminate]. destruct (forallb _ wf) in Ef; [|discriminate]. apply Ok_inj in Ei, Ef. subst. cbn [rows]. now apply Ro. }
  clearbody S1 S1'. destruct G as (GL & G1 & G2 & G3).
  apply both_bind with (fun _ _ f f' => e2 f = S1 /\ e2 f' = S1' /\ outer f f').
  - destruct (g_nocont c); [split; [reflexivity|split; [reflexivity|exact O]]|]. destruct O as (O1 & O2 & O3). rewrite O1. eapply both_lift; [apply need_in|]. intros t t' -> Et _.
    change (s_wave (sp1_in u t)) with (s_wave t). change (s_mask (sp1_in u t)) with (s_mask t). change (s_flux (sp1_in u t)) with (option_map (list_in u) (s_flux t)). change (s_err (sp1_in u t)) with (option_map (list_in u) (s_err t)).
    apply both_same. intros w1 _. rewrite !(taken_o_in u). eapply both_lift; [apply rel_res|]. intros f1 f1' -> _ _. eapply both_lift; [apply rel_res|]. intros r1 r1' -> _ _.
    apply both_same. intros m1 _. rewrite !bind_up1. cbn [e2 e1 e_dpa e_reg e_k]. apply both_ok. cbn [e2]. split; [reflexivity|]. split; [reflexivity|]. split; [|split; assumption]. cbn [e1].
    destruct (e1 e); reflexivity.
  - intros _ _ f f' (E1 & E2 & (O1 & O2 & O3)). up. cbn [e2 e1 e_dpa e_reg e_k]. rewrite E1, E2.
    set (S2 := set_q_rest _ _). set (S2' := set_q_rest _ _).
    assert (K : like (converted_or_masked u) S2 S2' /\ q_qual S2 = None /\ q_sky S2 = None /\ rows_ok S2).
    { split; [|split; [exact G1|split; [exact G2|exact G3]]]. destruct GL as (F' & X). split; [unfold S2, S2'; fu; exact F'|exact X]. }
    clearbody S2 S2'. destruct K as (K & K1 & K2 & K3).
    destruct (g_nocont c); unfold ret, up1, modS; apply both_ok; (split; [exact K|split; [|split; [split; assumption|exact K3]]]); cbn [e1 e_dpa e_reg]; unfold PUnits2.outer; cbn [e1 e_dpa e_reg]; rewrite ?O1, ?O2, ?O3; repeat split.
    destruct (e1 f); reflexivity.
Qed.

Lemma continuum_units e e' : R0 u tt tt e e' -> both (fun _ _ => R2) (subtract_continuum c e) (subtract_continuum c e').
Proof.
  intros H. unfold subtract_continuum. apply both_bind with (R1 u); [now apply masks_units|]. clear e e' H. intros _ _ e e' (L & O & B). rewrite !bind_get. cbv zeta.
  destruct L as (F & Lf & Le & Li & Lc & Lm).
  rewrite (fr_rfull _ _ F). apply both_same. intros rf _. up. rewrite (fr_rline _ _ F). apply both_same. intros rl _. up. rewrite (fr_rmline _ _ F). apply both_same. intros rm _. up.
  rewrite (fr_wave _ _ F). apply both_same. intros w _. eapply both_lift; [apply need_o; exact Lf|]. intros fx fx' Pf Ef Ef'. up. rewrite (fr_obs _ _ F). apply both_same. intros ow _. cbn [e2 e1 e_dpa e_reg e_k].
  assert (Rw := proj1 Pf). assert (Cl := proj1 (proj2 Pf)). rewrite Rw, Cl.
  set (S1 := set_q_cont _ _). set (S1' := set_q_cont _ _).
  assert (G : R2 (mkEnv S1 (e1 e) (e_dpa e) (e_reg e) (e_k e)) (mkEnv S1' (e1 e') (e_dpa e') (e_reg e') (e_k e'))).
  { split; [|split; [exact O|split; [exact B|]]]; cbn [e2].
    - assert (Fx : q_flux (e2 e) = Some fx) by (destruct (q_flux (e2 e)); [now injection Ef as ->|discriminate]). assert (Fx' : q_flux (e2 e') = Some fx') by (destruct (q_flux (e2 e')); [now injection Ef' as ->|discriminate]).
      split; [unfold S1, S1'; fu; exact F|]. split; [|split; [exact Le|split; [|split; [|exact Lm]]]].
      + change (q_flux S1) with (q_flux (e2 e)). change (q_flux S1') with (q_flux (e2 e')). rewrite Fx, Fx'. eapply pixel_weaken; [|exact Pf]. intros i j x x'. apply filled_masked.
      + exact Pf.
      + change (Some (mk2 (rows fx) (cols fx) (fun _ _ => Fin 0)) = Some (img_in u (mk2 (rows fx) (cols fx) (fun _ _ => Fin 0)))). f_equal. unfold img_in. cbn [rows cols at2]. apply mk2_ext. intros _ _. symmetry. apply s_0.
    - intros a b Ea Eb. change (Some fx = Some a) in Ea. change (q_flux (e2 e) = Some b) in Eb. injection Ea as <-. destruct (q_flux (e2 e)); [|discriminate]. injection Ef as ->. now injection Eb as ->. }
  clearbody S1 S1'. apply both_bind with (fun _ _ => R2).
  - destruct (g_nocont c); [exact G|].
    eapply both_bind; [apply fit1_units; exact G|]. intros p p' f f' [-> K]. cbn [fst snd]. now apply rows_units.
  - intros _ _ f f' K. now apply trim_units.
Qed.

Lemma ptrim_units e e' : R2 e e' -> both (fun _ _ => R2) (prep_trim c e) (prep_trim c e').
Proof.
  intros (L & O & B & Ro). unfold prep_trim.
  assert (T : both (fun _ _ s s' => like (converted_or_masked u) s s' /\ q_qual s = None /\ q_sky s = None /\ rows_ok s)
    (trim_2D_inplace (g_z c) (q_rline (e2 e)) None true (g_fline c) (e2 e)) (trim_2D_inplace (g_z c) (q_rline (e2 e')) None true (g_fline c) (e2 e'))).
  2:{ destruct (trim_2D_inplace _ _ _ _ _ (e2 e)) as [a [[]|x]]; destruct (trim_2D_inplace _ _ _ _ _ (e2 e')) as [a' [[]|x']]; cbn [both snd fst] in *; try contradiction; [|exact T].
      destruct T as (T1 & T2 & T3 & T4). split; [exact T1|]. split; [exact O|]. split; [split; assumption|exact T4]. }
  destruct L as (F & Lf & Le & Li & Lc & Lm). destruct B as [B1 B2]. rewrite B1, B2 in *. clear O.
  unfold trim_2D_inplace. rewrite (fr_rline _ _ F). apply both_same. intros r _. rewrite !bind_mod, !bind_get.
  set (S0 := set_q_trimr _ _). set (S0' := set_q_trimr _ _).
  assert (F0 : unit_free S0' = unit_free S0) by (unfold S0, S0'; fu; exact F).
  change (q_flux (e2 e)) with (q_flux S0) in Lf. change (q_flux (e2 e')) with (q_flux S0') in Lf. change (q_err (e2 e)) with (q_err S0) in Le. change (q_err (e2 e')) with (q_err S0') in Le.
  change (q_incl (e2 e)) with (q_incl S0) in Li. change (q_incl (e2 e')) with (q_incl S0') in Li. change (q_cont (e2 e)) with (q_cont S0) in Lc. change (q_cont (e2 e')) with (q_cont S0') in Lc.
  change (q_median (e2 e)) with (q_median S0) in Lm. change (q_median (e2 e')) with (q_median S0') in Lm. change (q_qual (e2 e)) with (q_qual S0) in B1. change (q_sky (e2 e)) with (q_sky S0) in B2.
  change (q_mask (e2 e)) with (q_mask S0) in *. change (rows_ok S0) in Ro. clearbody S0 S0'. clear F. rename F0 into F.
  rewrite (fr_obs _ _ F). apply both_same. intros ow _. cbv zeta. generalize (where_ (within (snd r)) ow). intros wh.
  destruct wh as [|w0 wh].
  - rewrite !bind_mod. unfold modS. apply both_ok.
    split; [|split; [exact B1|split; [exact B2|]]].
    + split; [fu; exact F|]. split; [exact Logic.I|]. split; [exact Logic.I|]. split; [|split; [exact Lc|exact Lm]].
      change (pixelwise_o (fun i j => converted_or_filled u (masked None (q_qual S0) (q_sky S0) i j)) (q_incl S0) (q_incl S0')). rewrite B1, B2.
      eapply pixel_weaken_o; [|exact Li]. intros i j x x'. apply filled_weaken. intros _. apply blank_masked. intros ? X. discriminate X.
    + intros a b _ X. discriminate X.
  - set (wh' := w0 :: wh). clearbody wh'. clear w0 wh. rename wh' into wh.
    rewrite (fr_wave _ _ F). apply both_same. intros w _. rewrite !bind_mod.
    eapply both_lift; [apply take_units; exact Lf|]. intros fx fx' Pf Ef _. rewrite !bind_mod.
    eapply both_lift; [apply take_units; exact Le|]. intros er er' Pe Ee _. rewrite !bind_mod.
    rewrite (fr_mask _ _ F). apply both_same. intros mk Em. rewrite !bind_mod. rewrite (fr_weight _ _ F). apply both_same. intros wt _. rewrite !bind_mod.
    assert (Zt : forall i j, masked (q_mask S0) None None i (nth j wh 0%nat) -> masked (Some mk) None None i j).
    { intros i j. rewrite !blank_masked. apply (zero_take _ _ _ _ _ Em). }
    set (S1 := set_q_weight _ _). set (S1' := set_q_weight _ _).
    assert (Gn : forall ic ic' ct, pixelwise_o (fun i j => converted_or_filled u (masked (Some mk) None None i j)) ic ic' -> (forall a, ic = Some a -> rows a = rows fx) ->
       like (converted_or_masked u) (set_q_rest (Some (rest_of (g_z c) w)) (set_q_obs (Some w) (set_q_cont ct (set_q_incl ic S1))))
            (set_q_rest (Some (rest_of (g_z c) w)) (set_q_obs (Some w) (set_q_cont (option_map (img_in u) ct) (set_q_incl ic' S1')))) /\
       q_qual (set_q_rest (Some (rest_of (g_z c) w)) (set_q_obs (Some w) (set_q_cont ct (set_q_incl ic S1)))) = None /\
       q_sky (set_q_rest (Some (rest_of (g_z c) w)) (set_q_obs (Some w) (set_q_cont ct (set_q_incl ic S1)))) = None /\
       rows_ok (set_q_rest (Some (rest_of (g_z c) w)) (set_q_obs (Some w) (set_q_cont ct (set_q_incl ic S1))))).
    { intros ic ic' ct Pi Ri. split; [|split; [exact B1|split; [exact B2|]]].
      - unfold PUnits2.like. cbv zeta. set (S2' := set_q_rest _ _). set (S2 := set_q_rest _ _). assert (Q1 : q_qual S2 = None) by exact B1. assert (Q2 : q_sky S2 = None) by exact B2. assert (Q3 : q_mask S2 = Some mk) by reflexivity.
        rewrite Q1, Q2, Q3. split; [unfold S2, S2', S1, S1'; fu; exact F|].
        change (q_flux S2) with (Some fx). change (q_flux S2') with (Some fx'). change (q_err S2) with (Some er). change (q_err S2') with (Some er').
        split; [|split; [|split; [exact Pi|split; [reflexivity|exact Lm]]]].
        + eapply pixel_weaken; [|exact Pf]. intros i j x x'. apply masked_weaken. apply Zt.
        + eapply pixel_weaken; [|exact Pe]. intros i j x x'. apply filled_weaken. apply Zt.
      - intros a b Ea Eb. change (ic = Some a) in Ea. change (Some fx = Some b) in Eb. injection Eb as <-. now apply Ri. }
    clearbody S1 S1'.
    assert (Ti := take_units _ _ _ wh Li). rewrite Lc, (take_in u). 
    case_eq (take_cols_o (q_incl S0) wh); [intros ic|intros xi]; intros Eic; rewrite Eic in Ti; (case_eq (take_cols_o (q_incl S0') wh); [intros ic'|intros xi']; intros Eic'; rewrite Eic' in Ti; cbn [rrel] in Ti; try contradiction).
    + case_eq (take_cols_o (q_cont S0) wh); [intros ct|intros xc]; intros _; cbn [res_in].
      * unfold modS, bindS. apply both_ok. apply (Gn (Some ic) (Some ic') (Some ct)).
        -- eapply pixel_weaken; [|exact Ti]. intros i j x x'. apply filled_weaken. apply Zt.
        -- intros a Ea. injection Ea as <-. unfold take_cols_o, take_cols in Eic, Ef. destruct (q_incl S0) as [x|] eqn:Ex; [|discriminate]. destruct (q_flux S0) as [y|] eqn:Ey; [|discriminate]. cbn [need bind] in Eic, Ef.
           destruct (forallb _ wh) in Eic; [|discriminate]. destruct (forallb _ wh) in Ef; [|discriminate]. apply Ok_inj in Eic, Ef. subst. cbn [rows]. now apply Ro.
      * unfold modS, bindS. apply both_ok. apply (Gn None None None); [exact Logic.I|discriminate].
    + unfold modS, bindS. apply both_ok; (apply (Gn None None None); [exact Logic.I|discriminate]).
Qed.
End U.
