(* Proofs: the model seen through a half turn about the line of sight. *)
From Coq Require Import Reals Lra Lia List Bool Arith ZArith Permutation FunctionalExtensionality.
From Verif Require MProf.
From Verif Require Import PyFloat PyBase Arr PyNum MKernels MAper2D PKernels.
Import ListNotations.
Local Open Scope R_scope.

(* signs *)
Lemma inf_scale_neg p a : inf_scale (negb p) a = fneg (inf_scale p a).
Proof. unfold inf_scale. destruct (Reqb a 0); [reflexivity|]. destruct p, (Rltb 0 a); reflexivity. Qed.
Lemma inf_scale_opp p a : inf_scale p (- a) = fneg (inf_scale p a).
Proof.
  unfold inf_scale. destruct (Reqb a 0) eqn:E.
  - apply Reqb_true in E. subst. rewrite Ropp_0. replace (Reqb 0 0) with true; [reflexivity|]. symmetry. apply Reqb_true. reflexivity.
  - apply Reqb_false in E. replace (Reqb (- a) 0) with false by (symmetry; apply Reqb_false; lra).
    destruct (Rltb 0 a) eqn:L; [apply Rltb_true in L|apply Rltb_false in L].
    + replace (Rltb 0 (- a)) with false by (symmetry; apply Rltb_false; lra). destruct p; reflexivity.
    + replace (Rltb 0 (- a)) with true by (symmetry; apply Rltb_true; lra). destruct p; reflexivity.
Qed.
Lemma fmul_neg_l x y : fmul (fneg x) y = fneg (fmul x y).
Proof.
  destruct x, y; cbn [fmul fneg]; try reflexivity; try (rewrite inf_scale_opp; reflexivity);
    try (change true with (negb false); apply inf_scale_neg); try (change false with (negb true); apply inf_scale_neg). f_equal. ring.
Qed.
Lemma fmul_neg_r x y : fmul x (fneg y) = fneg (fmul x y).
Proof.
  destruct x, y; cbn [fmul fneg]; try reflexivity; try (rewrite inf_scale_opp; reflexivity);
    try (change true with (negb false); apply inf_scale_neg); try (change false with (negb true); apply inf_scale_neg). f_equal. ring.
Qed.
Lemma fneg_neg x : fneg (fneg x) = x.
Proof. destruct x; cbn; try reflexivity. f_equal. ring. Qed.
Lemma fadd_neg x y : fadd (fneg x) (fneg y) = fneg (fadd x y).
Proof. destruct x, y; cbn; try reflexivity. f_equal. ring. Qed.
Lemma fsq_neg x : fsq (fneg x) = fsq x.
Proof. unfold fsq. now rewrite fmul_neg_l, fmul_neg_r, fneg_neg. Qed.
Lemma fdiv_neg_l x y : fdiv (fneg x) y = fneg (fdiv x y).
Proof.
  destruct x as [a| | |], y as [b| | |]; cbn [fdiv fneg]; try reflexivity; try (destruct (Rltb b 0); reflexivity); try (f_equal; ring).
  destruct (Reqb b 0) eqn:B; [|cbn [fneg]; f_equal; unfold Rdiv; ring].
  destruct (Reqb a 0) eqn:A.
  - apply Reqb_true in A. subst. replace (Reqb (- 0) 0) with true; [reflexivity|]. symmetry. apply Reqb_true. ring.
  - apply Reqb_false in A. replace (Reqb (- a) 0) with false by (symmetry; apply Reqb_false; lra).
    destruct (Rltb 0 a) eqn:L; [apply Rltb_true in L|apply Rltb_false in L].
    + replace (Rltb 0 (- a)) with false by (symmetry; apply Rltb_false; lra). reflexivity.
    + replace (Rltb 0 (- a)) with true by (symmetry; apply Rltb_true; lra). reflexivity.
Qed.

(* sums and maxima do not depend on the order *)
Lemma fsum_perm l l' : Permutation l l' -> fsum l = fsum l'.
Proof.
  induction 1 as [|x l l' _ IH|x y l|l l' l'' _ IH1 _ IH2]; unfold fsum in *; cbn [fold_right]; try reflexivity; try congruence.
  rewrite !fadd_assoc. f_equal. apply fadd_comm.
Qed.
Lemma flip_perm n : Permutation (map (fun m => n - 1 - m)%nat (seq 0 n)) (seq 0 n).
Proof.
  apply NoDup_Permutation_bis.
  - apply (NoDup_map_inv (fun m => n - 1 - m)%nat). rewrite map_map.
    rewrite (map_ext_in _ (fun m => m)); [rewrite map_id; apply seq_NoDup|]. intros x Hx. apply in_seq in Hx. lia.
  - rewrite map_length. lia.
  - intros x Hx. apply in_map_iff in Hx. destruct Hx as (y&<-&Hy). apply in_seq in Hy. apply in_seq. lia.
Qed.
Definition reorders (n : nat) (ren : nat -> nat) : Prop := Permutation (map ren (seq 0 n)) (seq 0 n).
Lemma reorders_lt n ren m : reorders n ren -> (m < n)%nat -> (ren m < n)%nat.
Proof.
  intros P H. assert (I : In (ren m) (seq 0 n)). { apply (Permutation_in _ P), in_map, in_seq. lia. } apply in_seq in I. lia.
Qed.
Lemma fsumn_ren n ren f f' : reorders n ren -> (forall m, (m < n)%nat -> f' m = f (ren m)) -> fsumn n f' = fsumn n f.
Proof.
  intros P H. rewrite (fsumn_ext n f' (fun m => f (ren m)) H). unfold fsumn.
  rewrite <- (map_map ren f). apply fsum_perm, Permutation_map, P.
Qed.

Definition mx (a b : fl) : fl := if isnan a then a else if isnan b then b else if fltb a b then b else a.
Lemma mx_comm a b : mx a b = mx b a.
Proof.
  destruct a as [x| | |], b as [y| | |]; try reflexivity. unfold mx. cbn [isnan fltb].
  destruct (Rltb x y) eqn:A, (Rltb y x) eqn:B; try reflexivity; [apply Rltb_true in A, B|apply Rltb_false in A, B]; [lra|f_equal; lra].
Qed.
Lemma mx_assoc a b c : mx (mx a b) c = mx a (mx b c).
Proof.
  destruct a as [x| | |], b as [y| | |], c as [z| | |]; unfold mx; cbn [isnan fltb]; try reflexivity;
    try (destruct (Rltb x y); reflexivity); try (destruct (Rltb y z); reflexivity); try (destruct (Rltb x z); reflexivity).
  destruct (Rltb x y) eqn:A, (Rltb y z) eqn:B, (Rltb x z) eqn:C; cbn [isnan fltb]; rewrite ?A, ?B, ?C; try reflexivity;
    repeat match goal with H : _ = true |- _ => apply Rltb_true in H | H : _ = false |- _ => apply Rltb_false in H end; f_equal; lra.
Qed.
Lemma fmax1_mx : forall l a, fmax1 a l = fold_left mx l a.
Proof. induction l as [|b l IH]; intros a; [reflexivity|]. cbn. apply IH. Qed.
Lemma fold_mx_perm l l' : Permutation l l' -> forall a, fold_left mx l a = fold_left mx l' a.
Proof.
  induction 1 as [|x l l' _ IH|x y l|l l' l'' _ IH1 _ IH2]; intros a; cbn [fold_left]; auto.
  - now rewrite !mx_assoc, (mx_comm y x).
  - now rewrite IH1.
Qed.
Lemma np_max_perm l l' : Permutation l l' -> np_max l = np_max l'.
Proof.
  induction 1 as [|x l l' P IH|x y l|l l' l'' _ IH1 _ IH2]; try reflexivity; try congruence.
  - cbn [np_max]. f_equal. rewrite !fmax1_mx. now apply fold_mx_perm.
  - cbn [np_max]. f_equal. rewrite !fmax1_mx. cbn [fold_left]. now rewrite mx_comm.
Qed.

Lemma flat_map_ext_in {A B} (f g : A -> list B) l : (forall x, In x l -> f x = g x) -> flat_map f l = flat_map g l.
Proof. induction l as [|a l IH]; intros H; [reflexivity|]. cbn [flat_map]. rewrite IH, (H a); [reflexivity|now left|]. intros; apply H; now right. Qed.
Lemma map_map_flat {A B C} (h : A -> B) (f : B -> list C) l : flat_map f (map h l) = flat_map (fun x => f (h x)) l.
Proof. induction l as [|a l IH]; [reflexivity|]. cbn [flat_map map]. now rewrite IH. Qed.
Lemma np_max_cube n0 n1 n2 ren (S S' : arr3 fl) : reorders n0 ren ->
  dim0 S = n0 -> dim1 S = n1 -> dim2 S = n2 -> dim0 S' = n0 -> dim1 S' = n1 -> dim2 S' = n2 ->
  (forall m j k, (m < n0)%nat -> at3 S' m j k = at3 S (ren m) j k) ->
  np_max (map fabs (flat_list3 S')) = np_max (map fabs (flat_list3 S)).
Proof.
  intros P A0 A1 A2 B0 B1 B2 H. apply np_max_perm, Permutation_map. unfold flat_list3. rewrite A0, A1, A2, B0, B1, B2.
  set (F := fun i => flat_map (fun j => map (fun k => at3 S i j k) (seq 0 n2)) (seq 0 n1)).
  rewrite (flat_map_ext_in _ (fun i => F (ren i))).
  - rewrite <- (map_map_flat ren F). now apply Permutation_flat_map.
  - intros i Hi. apply in_seq in Hi. unfold F. apply flat_map_ext. intros j. apply map_ext. intros k. apply H. lia.
Qed.

Lemma add_sigma_ren I V S I' V' S' wave z rw rt nW n0 n1 n2 dz I4 I4' wref sp ren : reorders n0 ren ->
  dim0 S = n0 -> dim1 S = n1 -> dim2 S = n2 -> dim0 S' = n0 -> dim1 S' = n1 -> dim2 S' = n2 ->
  (forall m j k, (m < n0)%nat -> at3 S' m j k = at3 S (ren m) j k) ->
  (forall m j k, (m < n0)%nat -> at3 V' m j k = at3 V (ren m) j k) ->
  (forall m j k, (m < n0)%nat -> at3 I' m j k = at3 I (ren m) j k) ->
  d0 I4' = d0 I4 -> d1 I4' = d1 I4 -> d2 I4' = d2 I4 -> d3 I4' = d3 I4 ->
  (forall w m j k, (m < n0)%nat -> at4 I4' w m j k = at4 I4 w (ren m) j k) ->
  (forall w m m' j k, at4 wref w m j k = at4 wref w m' j k) ->
  add_sigma_collapse_z I' V' S' wave z rw rt nW n0 n1 n2 dz I4' wref sp =
  add_sigma_collapse_z I V S wave z rw rt nW n0 n1 n2 dz I4 wref sp.
Proof.
  intros P A0 A1 A2 B0 B1 B2 HS HV HI D0 D1 D2 D3 H4 HW.
  assert (G : forall ce wi, gauss_line I4' wref V' S' nW n0 n1 n2 dz ce wi = gauss_line I4 wref V S nW n0 n1 n2 dz ce wi).
  { intros ce wi. unfold gauss_line. f_equal. extensionality w. extensionality j. extensionality k. f_equal.
    apply (fsumn_ren n0 ren); [exact P|]. intros m Hm. rewrite (H4 w m j k Hm), (HV m j k Hm), (HS m j k Hm), (HW w m (ren m) j k). reflexivity. }
  assert (C : forall l0, I_simple_collapse I' V' wave nW n0 n1 n2 dz l0 = I_simple_collapse I V wave nW n0 n1 n2 dz l0).
  { intros l0. unfold I_simple_collapse. f_equal. extensionality w. extensionality j. extensionality k.
    apply (fsumn_ren n0 ren); [exact P|]. intros m Hm. rewrite (HI m j k Hm), (HV m j k Hm). reflexivity. }
  unfold add_sigma_collapse_z.
  rewrite (np_max_cube n0 n1 n2 ren S S' P A0 A1 A2 B0 B1 B2 HS).
  replace (shape4_eqb I4' nW n0 n1 n2) with (shape4_eqb I4 nW n0 n1 n2) by (unfold shape4_eqb; now rewrite D0, D1, D2, D3).
  rewrite G. destruct sp; [|reflexivity|reflexivity].
  destruct (Nat.eqb _ _); [reflexivity|]. destruct (np_max _) as [m|]; [|reflexivity]. cbn [bind].
  destruct (_ && _); [reflexivity|]. destruct (Nat.ltb _ _); [reflexivity|]. f_equal. f_equal.
  extensionality w. extensionality j. extensionality k. apply fsumn_ext. intros i _. destruct (fgtb m (Fin 0)); [now rewrite G|now rewrite C].
Qed.
