(* Proofs: the sign of the dispersion parameter, statements about images and fits, and examples. *)
From Coq Require Import Reals Lra Lia List Bool Arith ZArith.
From Verif Require Import PyFloat PyBase Arr PyNum MParams MKernels MAper2D MProf SParams SMirror SSign PKernels PAper2D PAper2DOk PLos PMirror2 PBright4 PSign PSign2.
Import ListNotations.
Local Open Scope R_scope.

Lemma const_odd : odd_profile disp_const.
Proof.
  intros p r h. destruct p as [|s p]; [reflexivity|]. cbn [map disp_const]. rewrite <- n_add. f_equal.
  destruct r; cbn [fmul fneg]; try reflexivity; [f_equal; lra|..]; unfold inf_scale; assert (E : Reqb 0 0 = true) by (now apply Reqb_true); now rewrite E.
Qed.
Lemma sign_image c th th' st : odd_profile (p_disp (c_prof c)) -> p_ndisp (c_prof c) = 1%nat ->
  sign_at (p_nvel (c_prof c)) th th' -> (p_nvel (c_prof c) + 3 <= length th)%nat ->
  image_to_sign (aper_new c th st) (aper_new c th' st).
Proof.
  intros O D S1 L. pose proof (u_new c O _ eq_refl D th th' st (conj S1 L)) as R. unfold image_to_sign.
  destruct (aper_new c th st) as [s1 [x|e]], (aper_new c th' st) as [s2 [y|e']]; try contradiction; destruct R as [<- R]; cbn [fst snd]; (split; [reflexivity|]); [|exact R].
  destruct R as (t & d & cu & cv & ou & mo & -> & _ & _ & _ & _ & [M|M]); cbn [a_model]; [left|right]; exact M.
Qed.
Lemma sign_fit c k tf0 tf0' tfs tfs' : let n := p_nvel (c_prof c) in
  odd_profile (p_disp (c_prof c)) -> p_ndisp (c_prof c) = 1%nat ->
  k_noscale k = false -> k_aper k = None -> length (k_vary k) = length (k_theta k) -> (n + 3 <= length (k_theta k))%nat -> free (k_vary k) n ->
  Forall2 (sign_at (rank (k_vary k) n)) (tf0 :: tfs) (tf0' :: tfs') ->
  let p := km_make c tf0 k in let p' := km_make c tf0' k in
  snd p = snd p' /\ (snd p = Ok tt -> k_model (fst p) = k_model (fst p')) /\ likelihoods c (fst p) tfs = likelihoods c (fst p') tfs'.
Proof.
  intros n O D N A V L F S1 p p'. inversion S1 as [|? ? ? ? S2 S3]; subst.
  assert (Q : forall a b, sign_at (rank (k_vary k) n) a b -> frees n (k_vary k) a b) by (intros a b H; right; now split).
  assert (K : kU n k k).
  { split; [exact N|]. split; [exact V|]. split; [split; [|exact L]; split; [reflexivity|]; split; [reflexivity|now left]|]. exists None, (k_model k). rewrite A. split; [|exact I].
    destruct k. cbn in *. now subst. }
  destruct (make_u c O n eq_refl D k k tf0 tf0' K (Q _ _ S2)) as ((X & Y & M) & W).
  split; [exact Y|]. split; [exact M|]. apply (seq_u c O n eq_refl D (k_vary k)); [|exact W|exact X].
  clear - S3 Q. induction S3; constructor; auto.
Qed.

(* examples *)
Lemma sign_example_image : forall st, image_to_sign (aper_new y_cfg [Fin 200; Fin (1/2); Fin 50; Fin 0; Fin 1] st)
  (aper_new y_cfg [Fin 200; Fin (1/2); Fin (-50); Fin 0; Fin 1] st).
Proof.
  intros st. apply sign_image; [exact const_odd|reflexivity| |cbn; lia]. cbn. split; [reflexivity|]. split.
  - intros [|[|[|i]]] H; try reflexivity. now contradiction H.
  - right. reflexivity.
Qed.
Lemma sign_example_fit : let th := [Fin 200; Fin (1/2); Fin 50; Fin 0; Fin 1] in let k := z_kin th in
  let p := km_make y_cfg [Fin 200; Fin (1/2); Fin 50] k in let p' := km_make y_cfg [Fin 200; Fin (1/2); Fin (-50)] k in
  snd p = Ok tt /\ snd p' = Ok tt /\ k_model (fst p) = k_model (fst p') /\
  likelihoods y_cfg (fst p) [[Fin 150; Fin (1/4); Fin 40]] = likelihoods y_cfg (fst p') [[Fin 150; Fin (1/4); Fin (-40)]].
Proof.
  intros th k p p'. destruct (sign_fit y_cfg k [Fin 200; Fin (1/2); Fin 50] [Fin 200; Fin (1/2); Fin (-50)] [[Fin 150; Fin (1/4); Fin 40]] [[Fin 150; Fin (1/4); Fin (-40)]]) as (A & B & C).
  - exact const_odd.
  - reflexivity.
  - reflexivity.
  - reflexivity.
  - reflexivity.
  - cbn. lia.
  - reflexivity.
  - repeat constructor; try (intros [|[|[|i]]] H; try reflexivity; now contradiction H); right; reflexivity.
  - assert (E : snd p = Ok tt). { destruct z_make as (k1 & m & E & _). change (snd (km_make y_cfg (firstn 3 th) (z_kin th)) = Ok tt). unfold th. now rewrite E. }
    split; [exact E|]. split; [rewrite <- E; symmetry; exact A|]. split; [exact (B E)|exact C].
Qed.
