(* Proofs: cubes with a voxel whose dispersion is nan. *)
From Coq Require Import Reals Lra Lia List Bool Arith.
From Verif Require Import PyFloat PyBase Arr PyNum MKernels SKernels SLine PLine.
Import ListNotations.
Local Open Scope R_scope.

Lemma fmax1_nan l : forall a, a = NaN \/ In NaN l -> fmax1 a l = NaN.
Proof.
  induction l as [|b l IH]; intros a [->|H]; cbn [fmax1].
  - reflexivity.
  - destruct H.
  - apply IH. now left.
  - apply IH. destruct H as [->|H]; [left|now right]. destruct a; reflexivity.
Qed.
Lemma np_max_nan l : In NaN l -> np_max l = Ok NaN.
Proof. destruct l as [|a l]; intros H; [destruct H|]. cbn [np_max]. now rewrite fmax1_nan by (destruct H; auto). Qed.
Lemma flat3_in {A} (a : arr3 A) i j k : (i < dim0 a)%nat -> (j < dim1 a)%nat -> (k < dim2 a)%nat -> In (at3 a i j k) (flat_list3 a).
Proof.
  intros Hi Hj Hk. unfold flat_list3. apply in_flat_map. exists i. split; [apply in_seq; lia|]. apply in_flat_map. exists j. split; [apply in_seq; lia|].
  apply in_map_iff. exists k. split; [reflexivity|apply in_seq; lia].
Qed.
Lemma fmax1_zero l : forall a, a = Fin 0 -> (forall x, In x l -> x = Fin 0) -> fmax1 a l = Fin 0.
Proof.
  induction l as [|b l IH]; intros a -> H; cbn [fmax1]; [reflexivity|]. rewrite (H b) by now left. cbn [isnan].
  apply IH; [destruct (fltb _ _); reflexivity|]. intros x X. apply H. now right.
Qed.
Lemma zeros_max n p q : (0 < n)%nat -> (0 < p)%nat -> (0 < q)%nat -> np_max (map fabs (flat_list3 (mk3 n p q (fun _ _ _ => Fin 0)))) = Ok (Fin 0).
Proof.
  intros Hn Hp Hq. assert (Z0 : fabs (Fin 0) = Fin 0) by (cbn [fabs]; now rewrite Rabs_R0).
  assert (Z : forall x, In x (map fabs (flat_list3 (mk3 n p q (fun _ _ _ => Fin 0)))) -> x = Fin 0).
  { intros x X. apply in_map_iff in X as (y & <- & Y). unfold flat_list3 in Y. apply in_flat_map in Y as (i & _ & Y). apply in_flat_map in Y as (j & _ & Y).
    apply in_map_iff in Y as (k & <- & _). exact Z0. }
  assert (I := in_map fabs _ _ (flat3_in (mk3 n p q (fun _ _ _ => Fin 0)) 0 0 0 Hn Hp Hq)).
  destruct (map fabs (flat_list3 (mk3 n p q (fun _ _ _ => Fin 0)))) as [|a l]; [destruct I|]. cbn [np_max]. f_equal. apply fmax1_zero; [apply Z; now left|]. intros x X. apply Z. now right.
Qed.

Lemma nan_as_zero I V sigma wave z restwave ratio nWave nZ nY nX dz I4 wref sp i j k :
  (i < dim0 sigma)%nat -> (j < dim1 sigma)%nat -> (k < dim2 sigma)%nat -> at3 sigma i j k = NaN ->
  add_sigma_collapse_z I V sigma wave z restwave ratio nWave nZ nY nX dz I4 wref sp =
  add_sigma_collapse_z I V (mk3 (dim0 sigma) (dim1 sigma) (dim2 sigma) (fun _ _ _ => Fin 0)) wave z restwave ratio nWave nZ nY nX dz I4 wref sp.
Proof.
  intros Hi Hj Hk E. assert (N : np_max (map fabs (flat_list3 sigma)) = Ok NaN).
  { apply np_max_nan. change NaN with (fabs NaN). apply in_map. rewrite <- E. now apply flat3_in. }
  unfold add_sigma_collapse_z. rewrite N, zeros_max by lia. cbn [bind].
  assert (F0 : fgtb (Fin 0) (Fin 0) = false) by (unfold fgtb; cbn [fltb]; apply Rltb_false; lra).
  assert (FN : fgtb NaN (Fin 0) = false) by reflexivity.
  destruct sp; rewrite ?F0, ?FN; reflexivity.
Qed.
Lemma simple_fin V wave nW nZ nY nX lam w j k : isfinite (at3 (I_simple_collapse (fin3 nZ nY nX (fun _ _ _ => 1)) V wave nW nZ nY nX (Fin 1) lam) w j k) = true.
Proof.
  unfold I_simple_collapse. cbn [at3 fin3]. unfold fsumn. assert (H : forall l : list nat, isfinite (fsum (map (fun m =>
      if Nat.eqb (argmin_ (length wave - 1) (fun i => fabs (fsub (fmul lam (fadd (Fin 1) (fdiv (at3 V m j k) (Fin c_kms)))) (lnth wave i)))) w then fmul (Fin 1) (Fin 1) else Fin 0) l)) = true).
  { induction l as [|m l IH]; [reflexivity|]. cbn [map fsum fold_right]. unfold fsum in IH. destruct (fold_right fadd (Fin 0) _); try discriminate IH.
    destruct (Nat.eqb _ w); reflexivity. }
  apply H.
Qed.
Lemma nan_hidden_refuted : exists sigma cube, at3 sigma 0 0 0 = NaN /\ at3 sigma 1 0 0 = Fin 50 /\ dim0 sigma = 2%nat /\ dim1 sigma = 1%nat /\ dim2 sigma = 1%nat /\
  add_sigma_collapse_z (fin3 2 1 1 (fun _ _ _ => 1)) (fin3 2 1 1 (fun _ _ _ => 0)) sigma (map Fin [6564; 6565]) (Fin 0) (map Fin [6565]) (map Fin [1]) 2 2 1 1 (Fin 1)
    (tiled_I 2 2 1 1 (fun _ _ _ => 1)) (tiled_w 2 2 1 1 (fun w => nth w [6564; 6565] 0)) Wave = Ok cube /\
  forall w, (w < 2)%nat -> isfinite (at3 cube w 0 0) = true.
Proof.
  set (sg := mk3 2 1 1 (fun i _ _ => if Nat.eqb i 0 then NaN else Fin 50)).
  assert (N : np_max (map fabs (flat_list3 sg)) = Ok NaN) by (apply np_max_nan; left; reflexivity).
  exists sg. eexists.
  split; [reflexivity|]. split; [reflexivity|]. split; [reflexivity|]. split; [reflexivity|]. split; [reflexivity|].
  split; [unfold add_sigma_collapse_z; rewrite N; cbn [bind length map Nat.eqb Nat.ltb Nat.leb andb fgtb fltb]; reflexivity|].
  intros w Hw. cbn [at3]. unfold fsumn. cbn [length seq map fsum fold_right].
  assert (F := simple_fin (fin3 2 1 1 (fun _ _ _ => 0)) (map Fin [6564; 6565]) 2 2 1 1 (fmul (lnth [Fin 6565] 0) (fadd (Fin 1) (Fin 0))) w 0 0).
  cbn [map] in F. destruct (at3 (I_simple_collapse _ _ _ _ _ _ _ _ _) w 0 0); try discriminate F. reflexivity.
Qed.
