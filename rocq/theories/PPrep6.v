(* Proofs: exactly what the masking step of the continuum subtraction leaves behind. *)
From Coq Require Import Reals Lra Lia List Bool Arith ZArith.
From Verif Require Import PyFloat PyBase Arr PyNum MMask SMask MTrim STrim MPrep MKernels SPrep PMask PTrim PPrep PPrep4 PPrepEx PTrim2.
From Verif Require PFit1D5.
Import ListNotations.
Local Open Scope R_scope.

Lemma feqb_zero x : feqb x (Fin 0) = true <-> x = Fin 0.
Proof. destruct x; cbn; split; intros H; try discriminate; try (injection H as ->); [f_equal; now apply Reqb_true|now apply Reqb_true]. Qed.
Lemma from1D_exact m m1 m2 : mask_spec2D_from_1D m m1 = Ok m2 ->
  rows m2 = rows m /\ cols m2 = cols m /\ forall i j, (nth_error m1 j = Some (Fin 0) -> at2 m2 i j = Fin 0) /\ (nth_error m1 j <> Some (Fin 0) -> at2 m2 i j = at2 m i j).
Proof.
  unfold mask_spec2D_from_1D. destruct (forallb _ _); [|discriminate]. intros H. injection H as <-. cbn [rows cols at2]. split; [reflexivity|]. split; [reflexivity|]. intros i j. split; intros H.
  - replace (memb j _) with true; [reflexivity|]. symmetry. apply memb_In, where_In. exists (Fin 0). split; [exact H|now apply feqb_zero].
  - replace (memb j _) with false; [reflexivity|]. symmetry. apply memb_false. intros I. apply where_In in I. destruct I as (x & E & Z). apply feqb_zero in Z. congruence.
Qed.
Lemma masks_exact c e e' fx er : q_flux (e2 e) = Some fx -> q_err (e2 e) = Some er -> cont_masks c e = (e', Ok tt) ->
  exists ma m fx' er', spec_mask_missing_2D fx er (q_weight (e2 e)) (q_mask (e2 e)) true = Ok ma /\
    q_mask (e2 e') = Some m /\ q_flux (e2 e') = Some fx' /\ q_err (e2 e') = Some er' /\ rows m = rows ma /\ cols m = cols ma /\
    (if g_nocont c then m = ma /\ e1 e' = e1 e else
       exists t f1 r1 m0 m1, e1 e = Some t /\ s_flux t = Some f1 /\ s_err t = Some r1 /\ spec_mask_missing_1D f1 r1 None (s_mask t) false = Ok m0 /\
         m1 = mask_edges_1D (length f1) m0 10 /\ e1 e' = Some (set_s_mask m1 t) /\
         forall i j, (nth_error m1 j = Some (Fin 0) -> at2 m i j = Fin 0) /\ (nth_error m1 j <> Some (Fin 0) -> at2 m i j = at2 ma i j)) /\
    (forall i j, at2 fx' i j = if negb (isfinite (at2 fx i j)) && feqb (at2 m i j) (Fin 0) then Fin (-99) else at2 fx i j) /\
    (forall i j, at2 er' i j = if (negb (isfinite (at2 er i j)) || feqb (at2 er i j) (Fin 0)) && feqb (at2 m i j) (Fin 0) then Fin (-99) else at2 er i j) /\
    q_median (e2 e') = Some (g_median c (map (fun j => fsqrt (fsumn (rows er') (fun i => fsq (fmul (at2 er' i j) (at2 m i j))))) (seq 0 (cols er')))).
Proof.
  intros F E H. unfold cont_masks in H. rewrite bind_get in H. rewrite F, E in H.
  rewrite (bind_lift _ fx) in H by reflexivity. rewrite (bind_lift _ er) in H by reflexivity. liftin H. rename a into ma, E0 into Hma.
  rewrite bind_write_mask in H. cbv beta in H. fold (masks_1D c ma) in H.
  apply bind_inv in H. destruct H as (eb & m2 & H1 & H).
  step2 H. cbv beta zeta in H. step2 H. cbv beta zeta in H. liftin H. rewrite up2_eq in H. injection H as <-.
  exists ma, m2, (spec_nan_masking fx m2 (Fin (-99)) false false), (spec_nan_masking er m2 (Fin (-99)) true false). split; [exact Hma|].
  assert (K : rows m2 = rows ma /\ cols m2 = cols ma /\ q_mask (e2 eb) = Some m2 /\
    (if g_nocont c then m2 = ma /\ e1 eb = e1 e else
       exists t f1 r1 m0 m1, e1 e = Some t /\ s_flux t = Some f1 /\ s_err t = Some r1 /\ spec_mask_missing_1D f1 r1 None (s_mask t) false = Ok m0 /\
         m1 = mask_edges_1D (length f1) m0 10 /\ e1 eb = Some (set_s_mask m1 t) /\
         forall i j, (nth_error m1 j = Some (Fin 0) -> at2 m2 i j = Fin 0) /\ (nth_error m1 j <> Some (Fin 0) -> at2 m2 i j = at2 ma i j))).
  { unfold masks_1D in H1. destruct (g_nocont c).
    - injection H1 as <- <-. repeat split; reflexivity.
    - rewrite bind_get in H1. cbn [e1] in H1. liftin H1. liftin H1. liftin H1. liftin H1. step2 H1. cbv beta zeta in H1. step2 H1. cbv beta in H1. liftin H1. step2 H1. cbv beta in H1.
      injection H1 as <- <-. destruct (from1D_exact _ _ _ E5) as (R & C & X). split; [exact R|]. split; [exact C|]. split; [reflexivity|].
      destruct (e1 e) as [t|]; [|discriminate]. injection E1 as <-. destruct (s_flux t) as [f1|] eqn:Ef1; [|discriminate]. injection E2 as <-. destruct (s_err t) as [r1|] eqn:Er1; [|discriminate]. injection E3 as <-.
      exists t, f1, r1, a3, (mask_edges_1D (length f1) a3 10). do 5 (split; [first [reflexivity|assumption]|]). split; [|exact X]. reflexivity. }
  destruct K as (R & C & M & K). cbn [e2 e1].
  split; [exact M|]. split; [reflexivity|]. split; [reflexivity|]. split; [exact R|]. split; [exact C|]. split; [exact K|].
  split; [|split].
  - intros i j. cbn. reflexivity.
  - intros i j. cbn [spec_nan_masking at2 rows cols]. destruct (isfinite (at2 er i j)) eqn:Fi; cbn [negb orb andb].
    + destruct (feqb (at2 er i j) (Fin 0)), (feqb (at2 m2 i j) (Fin 0)); reflexivity.
    + destruct (feqb (at2 m2 i j) (Fin 0)) eqn:Z; cbn [andb]; [|rewrite andb_false_r; reflexivity]. rewrite andb_true_r. destruct (feqb (Fin (-99)) (Fin 0)); reflexivity.
  - reflexivity.
Qed.

Lemma edges_keep n m k j : nth_error m j = Some (Fin 0) -> nth_error (mask_edges_1D n m k) j = Some (Fin 0).
Proof.
  intros H. unfold mask_edges_1D. destruct (where_ _ m); [exact H|]. cbv zeta.
  assert (A : forall (l : list fl) a b, nth_error l j = Some (Fin 0) -> nth_error (set_slice l a b (Fin 0)) j = Some (Fin 0)).
  { intros ? ? ? X. match goal with |- nth_error (set_slice ?l ?a ?b ?v) _ = _ => destruct (PFit1D5.set_slice_entry l a b v _ _ X); assumption end. }
  destruct (_ <? _)%Z; destruct (_ <? _)%Z; auto.
Qed.
(** An unusable pixel of the 1-D spectrum masks its whole column. *)
Lemma masks_columns c e e' t f1 r1 i j : g_nocont c = false -> e1 e = Some t -> s_flux t = Some f1 -> s_err t = Some r1 ->
  length r1 = length f1 -> (forall m, s_mask t = Some m -> length m = length f1) -> (j < length f1)%nat -> unusable f1 r1 None false j ->
  cont_masks c e = (e', Ok tt) -> exists m, q_mask (e2 e') = Some m /\ at2 m i j = Fin 0.
Proof.
  intros Nc Et Ef Er Lr Lm Hj U H.
  assert (X : exists fx er, q_flux (e2 e) = Some fx /\ q_err (e2 e) = Some er).
  { pose proof H as K. unfold cont_masks in K. rewrite bind_get in K. cbv zeta in K. do 2 liftin K. destruct (q_flux (e2 e)); [|discriminate]. destruct (q_err (e2 e)); [|discriminate]. eauto. }
  destruct X as (fx & er & F & E). destruct (masks_exact _ _ _ _ _ F E H) as (ma & m & fx' & er' & _ & M & _ & _ & _ & _ & K & _). rewrite Nc in K.
  destruct K as (t' & f1' & r1' & m0 & m1 & A & B & C & D & -> & _ & K). assert (t' = t) by congruence. subst t'. assert (f1' = f1) by congruence. subst f1'. assert (r1' = r1) by congruence. subst r1'.
  exists m. split; [exact M|]. apply (K i j). apply edges_keep.
  destruct (missing_1D f1 r1 None (s_mask t) false) as (out & O & L & P); [lia|exact Lr|discriminate|exact Lm|]. rewrite D in O. injection O as <-.
  destruct (P j Hj) as [P1 _]. rewrite (nth_error_nth' _ NaN) by lia. now rewrite P1.
Qed.

(** Fourteen columns; the last value of the 1-D spectrum is missing. *)
Definition ex1 : list fl := repeat (Fin 1) 13 ++ [NaN].
Definition ex_r14 : list fl := repeat (Fin 1) 14.
Definition ex_w14 : list fl := map (fun k => Fin (INR k)) (seq 1 14).
Definition ex_sp14 : sp2 := mkSp2 (Some ex_w14) (Some ex_w14) None (Some (ones 2 14)) (Some (ones 2 14)) (Some (ones 2 14)) (Some (ones 2 14)) None None None None None
  [] [] [] None (Some (Fin 2, true)) None None None None None None None None None NaN NaN None None None None None false.
Definition ex_env14 : env := mkEnv ex_sp14 (Some (mkSp1 (Some ex_w14) (Some ex_w14) None (Some ex1) (Some ex_r14) None None None None)) None false (mkCaller (ones 2 14) (ones 2 14) (ones 2 14) [] true false false).
Lemma ex1_nth j : (j < 13)%nat -> nth j ex1 NaN = Fin 1.
Proof. intros H. do 13 (destruct j as [|j]; [reflexivity|]). lia. Qed.
Lemma ex14_nth j : (j < 14)%nat -> nth j ex_r14 NaN = Fin 1.
Proof. intros H. do 14 (destruct j as [|j]; [reflexivity|]). lia. Qed.
Lemma masks_example : exists e' m, cont_masks (ex_cfg false false) ex_env14 = (e', Ok tt) /\ q_mask (e2 e') = Some m /\
  unusable ex1 ex_r14 None false 13 /\ (forall i j, (1 <= j <= 13)%nat -> at2 m i j = Fin 0) /\ (forall i, (i < 2)%nat -> at2 m i 0%nat = Fin 1).
Proof.
  assert (A2 : arrays2 (e2 ex_env14) ex_w14 (ones 2 14) (ones 2 14) (ones 2 14) (ones 2 14)) by (repeat split; reflexivity).
  destruct (masks_done (ex_cfg false false) ex_env14 ex_w14 (ones 2 14) (ones 2 14) (ones 2 14) (ones 2 14) 2 A2) as (e' & H & _); [reflexivity|lia|cbn; lia| |].
  { right. do 4 eexists. repeat (split; [reflexivity|]). split; [discriminate|]. split; intros; [do 2 eexists; reflexivity|eexists; reflexivity]. }
  exists e'. destruct (masks_exact (ex_cfg false false) ex_env14 e' (ones 2 14) (ones 2 14) eq_refl eq_refl H) as (ma & m & fx' & er' & Hma & M & _ & _ & _ & _ & K & _). cbn [ex_cfg g_nocont] in K.
  destruct K as (t & f1 & r1 & m0 & m1 & A & B & C & D & -> & _ & K). cbn [ex_env14 e1] in A. injection A as <-. cbn [s_flux s_err s_mask] in B, C, D. injection B as <-. injection C as <-.
  exists m. split; [exact H|]. split; [exact M|].
  assert (U : unusable ex1 ex_r14 None false 13) by (left; reflexivity). split; [exact U|].
  destruct (missing_1D ex1 ex_r14 None None false) as (out & O & L & P); [cbn; lia|reflexivity|discriminate|discriminate|]. rewrite D in O. injection O as <-.
  change (length ex1) with 14%nat in *.
  assert (Z : nth_error m0 13 = Some (Fin 0)). { rewrite (nth_error_nth' _ NaN) by lia. now rewrite (proj1 (P 13%nat ltac:(lia)) U). }
  assert (V : forall j, (j < 13)%nat -> nth_error m0 j = Some (Fin 1)).
  { intros j Hj. rewrite (nth_error_nth' _ NaN) by lia. rewrite (proj2 (P j ltac:(lia))); [reflexivity|].
    unfold unusable. rewrite (ex1_nth j Hj), (ex14_nth j) by lia. intros [X|[X|[(w & X & _)|(_ & X & _)]]]; try discriminate. injection X. lra. }
  assert (Fv : first_valid m0 0) by (split; [apply V; lia|intros; lia]).
  assert (Lv : last_valid m0 12).
  { split; [apply V; lia|]. intros j Hj. destruct (Nat.eq_dec j 13) as [->|N]; [rewrite Z; intros X; injection X; lra|].
    replace (nth_error m0 j) with (@None fl); [discriminate|symmetry; apply nth_error_None; lia]. }
  split.
  - intros i j Hj. apply (K i j). destruct (Nat.eq_dec j 13) as [->|N]; [now apply edges_keep|].
    change 10%Z with (Z.of_nat 10). apply edges_right with 0%nat 12%nat; auto; lia.
  - intros i Hi. rewrite (proj2 (K i 0%nat)).
    + destruct (missing_2D (ones 2 14) (ones 2 14) (Some (ones 2 14)) (ones 2 14)) as (ou & Ho & _ & _ & Po); [cbn; lia|cbn; lia|reflexivity|intros w X; injection X as <-; reflexivity|reflexivity|].
      cbn [ex_env14 e2 ex_sp14 q_weight q_mask] in Hma. rewrite Hma in Ho. injection Ho as <-. apply (Po i 0%nat); [exact Hi|cbn; lia|reflexivity|reflexivity|].
      intros w X. injection X as <-. cbn. intros X. injection X. lra.
    + change 10%Z with (Z.of_nat 10). destruct (edges_only 14 m0 10 0 12 0 (Fin 1) Fv Lv L (V 0%nat ltac:(lia))) as [X|[_ X]]; [|lia]. rewrite X. intros Y. injection Y. lra.
Qed.
