(* The sky columns stay masked in the 1-D spectrum. *)
From Coq Require Import Reals List Bool Arith ZArith Lra Lia.
From Verif Require Import PyFloat PyBase Arr PyNum PKernels PMask MMask SMask MTrim STrim PTrim MPrep SPrep SCont PPrep PPrep2 PCont.
Import ListNotations.
Local Open Scope R_scope.

Lemma nth_error_combine {A B} (l : list A) (l' : list B) i a b : nth_error l i = Some a -> nth_error l' i = Some b -> nth_error (combine l l') i = Some (a, b).
Proof. revert l' i. induction l as [|x l IH]; intros [|y l'] [|i] H H'; cbn in *; try discriminate; [congruence|]. now apply IH. Qed.

Lemma fit1_masks c wl wr e r p t r1 m1 cut md : e1 e = Some t -> s_err t = Some r1 -> s_mask t = Some m1 -> q_cutoff (e2 e) = Some cut -> q_median (e2 e) = Some md ->
  cont_fit1 c wl wr e = (r, Ok p) ->
  exists m', e1 r = Some (set_s_mask m' t) /\ (k_a1 (e_k e) = true -> k_mask1 (e_k r) = m') /\ (k_a1 (e_k e) = false -> k_mask1 (e_k r) = k_mask1 (e_k e)) /\ length m' = length m1 /\
    forall j x y, nth_error m1 j = Some x -> nth_error r1 j = Some y ->
      nth_error m' j = Some (if fgeb (fsqrt (fsq (fmul y x))) (fmul (fst cut) md) then Fin 0 else x).
Proof.
  intros T R M C D H. unfold cont_fit1 in H. rewrite bind_get in H. cbv zeta in H. do 3 liftin H. rewrite T in H. rewrite (bind_lift _ t) in H by reflexivity. rewrite R, M in H.
  rewrite (bind_lift _ r1) in H by reflexivity. rewrite (bind_lift _ m1) in H by reflexivity. liftin H. rewrite C, D in H. rewrite (bind_lift _ cut) in H by reflexivity. cbn [wh_skylines_1D] in H.
  set (ns := (where_ _ _, where_ _ _)) in H. rewrite (bind_lift _ ns) in H by reflexivity. rewrite bind_write_mask1 in H. cbv beta in H. do 9 liftin H.
  unfold ret in H. injection H as <- _. cbn [e1 e_k]. rewrite T. cbn [option_map k_mask1 k_a1]. eexists. split; [reflexivity|]. split; [intros ->; reflexivity|]. split; [intros ->; reflexivity|].
  split; [apply set_inds_length|]. intros j x y Ex Ey. rewrite (nth_error_set_inds _ _ _ _ _ Ex).
  assert (W : memb j (snd ns) = fgeb (fsqrt (fsq (fmul y x))) (fmul (fst cut) md)).
  { unfold ns. cbn [snd]. rewrite (where_memb _ _ j (fsqrt (fsq (fmul y x)))); [reflexivity|]. rewrite nth_error_map, (nth_error_combine _ _ _ _ _ Ey Ex). reflexivity. }
  change (where_ (fun x0 => fgeb x0 (fmul (fst cut) md)) (map (fun p => fsqrt (fsq (fmul (fst p) (snd p)))) (combine r1 m1))) with (snd ns). rewrite W. destruct (fgeb _ _); reflexivity.
Qed.

(** A good but noisy pixel of the 1-D spectrum is masked for good, in the caller's array too. *)
Lemma fit1_masks_refuted : exists c wl wr e r p t m1 m', cont_fit1 c wl wr e = (r, Ok p) /\ e1 e = Some t /\ s_mask t = Some m1 /\ k_mask1 (e_k e) = m1 /\
  e1 r = Some (set_s_mask m' t) /\ k_mask1 (e_k r) = m' /\ nth_error m1 2 = Some (Fin 1) /\ nth_error m' 2 = Some (Fin 0).
Proof.
  set (t := mkSp1 (Some [Fin 3; Fin 6; Fin 10; Fin 14]) (Some [Fin 3; Fin 6; Fin 10; Fin 14]) None (Some [Fin 1; Fin 1; Fin 1; Fin 1]) (Some [Fin 1; Fin 1; Fin 9; Fin 1]) (Some [Fin 1; Fin 1; Fin 1; Fin 1]) None None None).
  set (e := mkEnv (set_q_median (Some (Fin 1)) (blind_sp (PTrim2.ones 4 4))) (Some t) None false (mkCaller (PTrim2.ones 4 4) (PTrim2.ones 4 4) (PTrim2.ones 4 4) [Fin 1; Fin 1; Fin 1; Fin 1] true false true)).
  assert (X : exists r p, cont_fit1 blind_cfg [1%nat] [3%nat] e = (r, Ok p)).
  { unfold cont_fit1. rewrite bind_get. cbv zeta. cbn [e e2 e1 t s_err s_mask s_flux need]. change (q_obs (set_q_median (Some (Fin 1)) (blind_sp (PTrim2.ones 4 4)))) with (Some [Fin 3; Fin 6; Fin 10; Fin 14]).
    change (q_cutoff (set_q_median (Some (Fin 1)) (blind_sp (PTrim2.ones 4 4)))) with (Some (Fin 2, true)). change (q_median (set_q_median (Some (Fin 1)) (blind_sp (PTrim2.ones 4 4)))) with (Some (Fin 1)).
    cbn [need]. do 4 (erewrite bind_lift by reflexivity). do 3 (erewrite bind_lift by reflexivity). erewrite bind_lift by reflexivity. cbn [wh_skylines_1D]. set (ns := (where_ _ _, where_ _ _)). rewrite (bind_lift _ ns) by reflexivity.
    rewrite bind_write_mask1. cbv beta. set (mt := set_inds _ _ _). assert (L : length mt = 4%nat) by apply set_inds_length. clearbody mt. destruct mt as [|a [|b [|d [|f [|]]]]]; try discriminate.
    cbn [some_unmasked take getn nth_error bind]. unfold some_unmasked. cbn [take getn nth_error bind]. 
    repeat (erewrite bind_lift by reflexivity). do 2 eexists. reflexivity. }
  destruct X as (r & p & H). destruct (fit1_masks _ _ _ e _ _ t [Fin 1; Fin 1; Fin 9; Fin 1] [Fin 1; Fin 1; Fin 1; Fin 1] (Fin 2, true) (Fin 1) eq_refl eq_refl eq_refl eq_refl eq_refl H) as (m' & T & K & _ & _ & V).
  exists blind_cfg, [1%nat], [3%nat], e, r, p, t, [Fin 1; Fin 1; Fin 1; Fin 1], m'. split; [exact H|]. do 3 (split; [reflexivity|]). split; [exact T|]. split; [now apply K|]. split; [reflexivity|].
  rewrite (V 2%nat (Fin 1) (Fin 9) eq_refl eq_refl). cbn [fmul fsq fst fsqrt]. 
  replace (9 * 1 * (9 * 1)) with (Rsqr 9) by (unfold Rsqr; ring).
  unfold fsqrt. destruct (Rltb _ 0) eqn:E; [apply Rltb_true in E; unfold Rsqr in E; lra|]. rewrite sqrt_Rsqr by lra. unfold fgeb. cbn [fleb]. rewrite (proj2 (Rleb_true _ _)) by lra. reflexivity.
Qed.
