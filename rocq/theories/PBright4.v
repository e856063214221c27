(* Proofs: examples of the theorems on brightness and units. *)
From Coq Require Import Reals Lra Lia List Bool Arith ZArith.
From Verif Require Import PyFloat PyBase Arr PyNum MParams MKernels MAper2D SParams SAper2D SMirror SBright PKernels PAper2D PAper2DOk PAper2DHist PLos PMirror5 PBright PBright2 PBright3.
Import ListNotations.
Local Open Scope R_scope.

Definition z_kin (th : list fl) : kinmodel := mkkm th [true; true; true; false; false] false None None y_stamp.
Lemma z_make : let th := [Fin 200; Fin (1/2); Fin 50; Fin 0; Fin 1] in
  exists k m, km_make y_cfg (firstn 3 th) (z_kin th) = (k, Ok tt) /\ k_model k = Some m /\ rows m = 3%nat /\ cols m = 2%nat.
Proof.
  intros th. apply (make_ok y_cfg (z_kin th) (firstn 3 th) th [13126; 13134]); try reflexivity.
  - exact (proj1 y_example).
  - right. repeat split. intros j [<-|[<-|[]]]; cbn; lia.
Qed.
Lemma z_bright : let th := [Fin 200; Fin (1/2); Fin 50; Fin 0; Fin 1] in let c' := brighter 2 3 y_cfg in
  let p := km_make y_cfg (firstn 3 th) (z_kin th) in let p' := km_make c' (firstn 3 th) (z_kin th) in
  snd p = Ok tt /\ snd p' = Ok tt /\ k_model (fst p) = k_model (fst p') /\
  likelihoods y_cfg (fst p) [[Fin 150; Fin (1/4); Fin 40]; [Fin 90]] = likelihoods c' (fst p') [[Fin 150; Fin (1/4); Fin 40]; [Fin 90]].
Proof.
  intros th c' p p'. destruct (bright_fit 2 3 y_cfg (z_kin th) (firstn 3 th) [[Fin 150; Fin (1/4); Fin 40]; [Fin 90]]) as (A & B & C); try reflexivity; try lra; [discriminate|].
  assert (E : snd p = Ok tt). { destruct z_make as (k & m & E & _). unfold p, th. rewrite E. reflexivity. }
  split; [exact E|]. split; [rewrite <- E; symmetry; exact A|]. split; [exact (B E)|exact C].
Qed.
(* a fitter that scales, in a configuration that uses it *)
Definition z_cfg : cfg := mkcfg y_gal y_ins (mkopts 2 0 true true true 0 Wave false false 1 false)
  (mkprofs 2 1 MProf.vel_arctan MProf.disp_const (fun r _ => fexp (fneg r)) (fun _ ys => (fsum ys, Fin 0, Fin 1))).
Lemma z_image : forall th st, image_times 6 (aper_new z_cfg th st) (aper_new (brighter 2 3 z_cfg) th st).
Proof.
  intros th st. replace 6 with (gain 2 3 z_cfg) by (cbn; lra). apply bright_image; try lra. intros _ xs ys A mu fw E. cbn in *.
  injection E as <- <- <-. rewrite s_sum by lra. reflexivity.
Qed.
Lemma z_units : let th := [Fin 200; Fin (1/2); Fin 50; Fin 0; Fin 1] in
  exists k x x', km_make y_cfg (firstn 3 th) (z_kin th) = (k, Ok tt) /\
   snd (km_llike y_cfg k (firstn 3 th)) = Ok x /\ snd (km_llike (in_units 10 y_cfg) k (firstn 3 th)) = Ok x' /\ x' = fadd x (Fin (-6)).
Proof.
  intros th. destruct z_make as (k & m & E & Em & Rm & Cm). fold th in E.
  destruct (history_independent y_cfg (z_kin th) k (CUpdate (firstn 3 th))) as [A B].
  - split; [reflexivity|]. split; [cbn; lia|]. intros i H. cbn in H. destruct i as [|[|[|[|[|i]]]]]; try lia; try (cbn; discriminate). cbn. destruct i; discriminate.
  - reflexivity.
  - exact (h_start _ _ _ _ E).
  - cbn [run args] in A, B. rewrite E in A, B. cbn [fst snd] in A, B. specialize (B A).
    destruct (units_llike 10 y_cfg k k (firstn 3 th) (fun _ _ => 1)) as (_ & _ & D); [lra| | |reflexivity|].
    + unfold th in *. pose proof (f_equal (fun p => k_noscale (fst p)) E) as N. cbn beta in N. cbn [fst] in N. rewrite <- N.
      unfold km_make. replace (negb _) with false by reflexivity.
      match goal with |- context [update_parameters ?x ?y ?z] => replace (update_parameters x y z) with (x, @Ok unit tt) by reflexivity end.
      cbn [z_kin k_aper k_stamp k_noscale k_vary k_model]. destruct (aper_new _ _ _) as [st [a|e]]; [|reflexivity]. unfold store_model. cbn [k_noscale].
      destruct (a_model a); [|reflexivity]. destruct (scale_model _ _); reflexivity.
    + exists (k_model k). now destruct k.
    + assert (X : snd (km_llike y_cfg k (firstn 3 th)) = Ok (model_llike (g_data (c_gal y_cfg)) m) /\ k_model (fst (km_llike y_cfg k (firstn 3 th))) = Some m).
      { unfold km_llike. destruct (km_update y_cfg (firstn 3 th) k) as [k2 [[]|e]]; cbn [fst snd] in A, B; [|discriminate A]. rewrite B, Em. cbn [fst snd]. rewrite ?B. auto. }
      destruct X as [X1 X2]. rewrite X1 in D. destruct (snd (km_llike (in_units 10 y_cfg) k (firstn 3 th))) as [x'|e] eqn:F; [|contradiction].
      destruct D as (m2 & D1 & _ & D3). rewrite X2 in D1. injection D1 as <-. exists k. eexists _, x'. split; [exact E|]. split; [exact X1|]. split; [exact F|].
      rewrite D3. do 2 f_equal. unfold in_fit. rewrite Rm, Cm. unfold Rdiv. rewrite Rinv_r; [cbn; lra|]. assert (0 < ln 10); [|lra]. rewrite <- ln_1. apply ln_increasing; lra.
Qed.
