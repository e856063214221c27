(* Proofs: the mask and weight builders in two units of flux. *)
From Coq Require Import Reals Lra Lia List Bool Arith ZArith FunctionalExtensionality.
From Verif Require Import PyFloat PyBase Arr PyNum PKernels PBright MMask MTrim MPrep SUnits.
Import ListNotations.
Local Open Scope R_scope.

(** Two results: the same exception, or related values. *)
Definition rrel {A B} (V : A -> B -> Prop) (r : res A) (r' : res B) : Prop :=
  match r, r' with Ok a, Ok a' => V a a' | Err x, Err x' => x = x' | _, _ => False end.
Lemma rrel_bind {A A' B B'} (V : A -> A' -> Prop) (W : B -> B' -> Prop) r r' k k' :
  rrel V r r' -> (forall a a', V a a' -> rrel W (k a) (k' a')) -> rrel W (bind r k) (bind r' k').
Proof. destruct r, r'; cbn; auto; contradiction. Qed.
Lemma rrel_eq {A} (r : res A) r' : r' = r -> rrel (fun a a' => a' = a) r r'.
Proof. intros ->. destruct r; cbn; auto. Qed.

Lemma where_ext {A B} (p : A -> bool) (q : B -> bool) (f : A -> B) l : (forall x, q (f x) = p x) -> where_ q (map f l) = where_ p l.
Proof.
  intros H. unfold where_. generalize 0%nat. induction l as [|a t IH]; intros n; cbn [map where_from]; [reflexivity|].
  rewrite H, IH. reflexivity.
Qed.

Section U.
Variable u : R.
Hypothesis Hu : 0 < u.
Notation s := (fmul (Fin u)).

Lemma s_0 : s (Fin 0) = Fin 0.
Proof. cbn [fmul]. f_equal. ring. Qed.
Lemma s_sq x : fsq (s x) = fmul (Fin (u * u)) (fsq x).
Proof.
  unfold fsq. rewrite (s_mul u Hu), (s_mul_r u Hu). destruct (fmul x x) as [r| | |]; [cbn [fmul]; f_equal; ring| | |reflexivity].
  - rewrite !(s_PInf u Hu), (s_PInf (u * u)); [reflexivity|nra].
  - rewrite !(s_NInf u Hu), (s_NInf (u * u)); [reflexivity|nra].
Qed.
Lemma s_sqrt x : fsqrt (fmul (Fin (u * u)) x) = s (fsqrt x).
Proof.
  assert (Hq := Rmult_lt_0_compat _ _ Hu Hu). destruct x as [r| | |]; [| | |reflexivity].
  - cbn [fmul fsqrt]. rewrite (Rltb_0k (u * u) Hq). destruct (Rltb r 0) eqn:E; [reflexivity|]. apply Rltb_false in E. cbn [fmul]. f_equal.
    rewrite sqrt_mult by nra. rewrite sqrt_square by lra. reflexivity.
  - cbn [fmul]. rewrite (s_inf _ Hq true). cbn [fsqrt fmul]. now rewrite (s_inf u Hu true).
  - cbn [fmul]. rewrite (s_inf _ Hq false). reflexivity.
Qed.
Lemma s_norm n f g : (forall i, g i = s (f i)) -> fsqrt (fsumn n (fun i => fsq (g i))) = s (fsqrt (fsumn n (fun i => fsq (f i)))).
Proof.
  intros H. rewrite <- s_sqrt. f_equal. rewrite <- (s_sumn (u * u)); [|nra]. f_equal. apply functional_extensionality. intros i. rewrite H. apply s_sq.
Qed.

(** A pixel and its mask in the two units. *)
Definition under (m x x' : fl) : Prop := converted_or_masked u (m = Fin 0) x x'.
Lemma under_mul m x x' : under m x x' -> fmul x' m = s (fmul x m).
Proof.
  intros [->|[-> H]]; [apply (s_mul u Hu)|]. destruct x as [r| | |], x' as [r'| | |]; cbn [isfinite] in H; try discriminate; cbn [fmul]; unfold inf_scale; rewrite ?Reqb_refl; cbn [fmul]; try reflexivity.
  f_equal. ring.
Qed.
Lemma filled_masked z x x' : converted_or_filled u z x x' -> converted_or_masked u z x x'.
Proof. intros [H|(H & -> & ->)]; [now left|right; auto]. Qed.
Lemma filled_weaken (z z' : Prop) x x' : (z -> z') -> converted_or_filled u z x x' -> converted_or_filled u z' x x'.
Proof. intros W [H|(H & A)]; [now left|right; auto]. Qed.
Lemma masked_weaken (z z' : Prop) x x' : (z -> z') -> converted_or_masked u z x x' -> converted_or_masked u z' x x'.
Proof. intros W [H|(H & A)]; [now left|right; auto]. Qed.
Lemma conv_finite z x x' : converted_or_masked u z x x' -> isfinite x' = isfinite x.
Proof. intros [->|[_ H]]; [apply (s_finite u Hu)|auto]. Qed.

Lemma pixel_weaken (Q Q' : nat -> nat -> fl -> fl -> Prop) a a' : (forall i j x x', Q i j x x' -> Q' i j x x') -> pixelwise Q a a' -> pixelwise Q' a a'.
Proof. intros W (A & B & C). repeat split; auto. Qed.
Lemma pixel_weaken_o (Q Q' : nat -> nat -> fl -> fl -> Prop) o o' : (forall i j x x', Q i j x x' -> Q' i j x x') -> pixelwise_o Q o o' -> pixelwise_o Q' o o'.
Proof. intros W. destruct o, o'; cbn; auto. apply pixel_weaken. exact W. Qed.
Lemma need_o (Q : nat -> nat -> fl -> fl -> Prop) x o o' : pixelwise_o Q o o' -> rrel (pixelwise Q) (need x o) (need x o').
Proof. destruct o, o'; cbn; auto; contradiction. Qed.
Lemma pixel_in (Q : nat -> nat -> fl -> fl -> Prop) a : (forall i j x, Q i j x (s x)) -> pixelwise Q a (img_in u a).
Proof. intros H. repeat split; auto. intros i j. apply H. Qed.
Lemma pixel_in_o (Q : nat -> nat -> fl -> fl -> Prop) o : (forall i j x, Q i j x (s x)) -> pixelwise_o Q o (option_map (img_in u) o).
Proof. intros H. destruct o; cbn; auto. now apply pixel_in. Qed.

Lemma shape_units (Q : nat -> nat -> fl -> fl -> Prop) {B} a a' (m : arr2 B) : pixelwise Q a a' -> shape_eqb a' m = shape_eqb a m.
Proof. intros (A & C & _). unfold shape_eqb. now rewrite A, C. Qed.

(* ---------------- noise and signal-to-noise ---------------- *)
Lemma noise_units er er' m : pixelwise (fun i j => under (at2 m i j)) er er' -> forall j, col_noise er' m j = s (col_noise er m j).
Proof. intros (A & B & C) j. unfold col_noise. rewrite A. apply s_norm. intros i. apply under_mul. apply C. Qed.

Lemma skylines_1D_units e cut med : wh_skylines_1D (list_in u e) cut (option_map s med) = wh_skylines_1D e cut med.
Proof.
  destruct med as [m|]; [|reflexivity]. cbn [option_map wh_skylines_1D]. unfold list_in. rewrite (s_mul_r u Hu).
  f_equal. f_equal; apply where_ext; intros x.
  - apply (s_ltb u Hu).
  - unfold fgeb. unfold fleb. destruct x, (fmul cut m); cbn [fmul]; rewrite ?(s_inf u Hu); try reflexivity. unfold Rleb.
    repeat destruct Rle_dec; try reflexivity; nra.
Qed.
Lemma skylines_units fx fx' er er' m cut un med : cols fx' = cols fx -> pixelwise (fun i j => under (at2 m i j)) er er' ->
  mask_skylines_2D fx' er' m cut un (option_map s med) = mask_skylines_2D fx er m cut un med.
Proof.
  intros C P. unfold mask_skylines_2D. rewrite (shape_units _ _ _ _ P), C.
  replace (map (col_noise er' m) (seq 0 (cols er'))) with (list_in u (map (col_noise er m) (seq 0 (cols er)))).
  - rewrite skylines_1D_units. reflexivity.
  - unfold list_in. rewrite map_map. destruct P as (A & B & D). rewrite B. apply map_ext. intros j. symmetry. apply noise_units. repeat split; auto.
Qed.

Lemma snr_units fx fx' er er' m : pixelwise (fun i j => under (at2 m i j)) fx fx' -> pixelwise (fun i j => under (at2 m i j)) er er' ->
  row_snr fx' er' m = row_snr fx er m.
Proof.
  intros (A & B & C) (A' & B' & C'). unfold row_snr. rewrite A, B, B'. apply map_ext. intros i. f_equal.
  rewrite (s_norm (cols er) (fun j => fmul (at2 er i j) (at2 m i j))) by (intros j; now apply under_mul).
  replace (fsumn (cols fx) (fun j => fmul (at2 fx' i j) (at2 m i j))) with (s (fsumn (cols fx) (fun j => fmul (at2 fx i j) (at2 m i j)))); [apply (s_div_both u Hu)|].
  rewrite <- (s_sumn u Hu). f_equal. apply functional_extensionality. intros j. symmetry. now apply under_mul.
Qed.
Lemma low_units fx fx' er er' ql m cut : pixelwise (fun i j => under (at2 m i j)) fx fx' -> pixelwise (fun i j => under (at2 m i j)) er er' ->
  mask_low_snr_rows_2D fx' er' ql m cut = mask_low_snr_rows_2D fx er ql m cut.
Proof. intros P P'. unfold mask_low_snr_rows_2D. rewrite (shape_units _ _ _ _ P), (shape_units _ _ _ _ P'), (snr_units _ _ _ _ _ P P'). reflexivity. Qed.

Lemma mapi_from_map {A B} (f : nat -> B -> B) (g : A -> B) (h : nat -> A -> A) l : (forall i x, f i (g x) = g (h i x)) -> mapi f (map g l) = map g (mapi h l).
Proof.
  intros H. unfold mapi. generalize 0%nat. induction l as [|a t IH]; intros n; cbn; [reflexivity|]. now rewrite H, IH.
Qed.
Lemma inds_units l inds : set_inds (list_in u l) inds (Fin 0) = list_in u (set_inds l inds (Fin 0)).
Proof. unfold set_inds, list_in. apply mapi_from_map. intros i x. destruct (memb i inds); [cbn [fmul]; f_equal; ring|reflexivity]. Qed.
Lemma gaus_units A mu sg x : gaus_simple (s A) mu sg x = s (gaus_simple A mu sg x).
Proof. unfold gaus_simple. apply (s_mul_r u Hu). Qed.

Lemma prof_units (w : list fl) : (if feqb (fsum (list_in u w)) (Fin 0) then map (fun _ => Fin 0) (list_in u w) else map (fun x => fdiv x (fsum (list_in u w))) (list_in u w)) =
  (if feqb (fsum w) (Fin 0) then map (fun _ => Fin 0) w else map (fun x => fdiv x (fsum w)) w).
Proof.
  unfold list_in. rewrite (s_sum u Hu), (s_eqb0 u Hu), !map_map. destruct (feqb (fsum w) (Fin 0)); [reflexivity|]. apply map_ext. intros x. apply (s_div_both u Hu).
Qed.
Lemma weights_units t fx fx' er er' m low A mu sg : pixelwise (fun i j => under (at2 m i j)) fx fx' -> pixelwise (fun i j => under (at2 m i j)) er er' ->
  forall f3, (t = Optimal -> f3 = (s A, mu, sg)) ->
  fit_weights t fx' er' m low f3 = fit_weights t fx er m low (A, mu, sg).
Proof.
  intros P P' f3 H. unfold fit_weights. rewrite (snr_units _ _ _ _ _ P P'). destruct P as (R1 & R2 & _). rewrite R1, R2.
  destruct t; try reflexivity. rewrite (H eq_refl). destruct (negb (forallb (fun i => Nat.ltb i (rows fx)) low)); [reflexivity|]. cbn [bind].
  replace (map (fun i => gaus_simple (s A) mu sg (Fin (INR i))) (seq 0 (rows fx))) with (list_in u (map (fun i => gaus_simple A mu sg (Fin (INR i))) (seq 0 (rows fx)))).
  - rewrite inds_units. cbv zeta. rewrite prof_units. reflexivity.
  - unfold list_in. rewrite map_map. apply map_ext. intros i. symmetry. apply gaus_units.
Qed.

(* ---------------- missing pixels ---------------- *)
Lemma entries_in a : entries (img_in u a) = map s (entries a).
Proof.
  unfold entries, img_in. cbn [rows cols at2]. generalize (seq 0 (rows a)). intros l. induction l as [|i t IH]; cbn [flat_map]; [reflexivity|].
  rewrite map_app, IH, map_map. reflexivity.
Qed.
Lemma maxabs_units l : rrel (fun x x' => fgtb x' (Fin 0) = fgtb x (Fin 0)) (np_max (map fabs l)) (np_max (map fabs (map s l))).
Proof.
  rewrite map_map. replace (map (fun x => fabs (s x)) l) with (map s (map fabs l)) by (rewrite map_map; apply map_ext; intros x; symmetry; apply (s_abs u Hu)).
  rewrite (s_npmax u Hu). destruct (np_max (map fabs l)) as [x|]; cbn; [|reflexivity]. unfold fgtb.
  transitivity (fltb (s (Fin 0)) (s x)); [now rewrite s_0|apply (s_ltb u Hu)].
Qed.
Lemma where2_units p x (l l' mk : arr2 fl) : rows l' = rows l -> cols l' = cols l -> (forall i j, p (at2 l' i j) = p (at2 l i j)) ->
  mask_where2 p l' mk = mask_where2 p l mk \/ x.
Proof.
  intros A B C. left. unfold mask_where2, shape_eqb. rewrite A, B. destruct (_ && _); [|reflexivity]. f_equal. apply mk2_ext. intros i j. now rewrite C.
Qed.
Lemma missing_units fx er w m nf : spec_mask_missing_2D (img_in u fx) (img_in u er) w m nf = spec_mask_missing_2D fx er w m nf.
Proof.
  unfold spec_mask_missing_2D. rewrite entries_in. assert (M := maxabs_units (entries er)).
  destruct (np_max (map fabs (entries er))) as [x|], (np_max (map fabs (map s (entries er)))) as [x'|]; cbn [rrel] in M; try contradiction; [|subst; reflexivity].
  cbn [bind]. rewrite M.
  assert (F : forall a mk, mask_where2 (fun x => negb (isfinite x)) (img_in u a) mk = mask_where2 (fun x => negb (isfinite x)) a mk).
  { intros a mk. destruct (where2_units (fun x => negb (isfinite x)) False a (img_in u a) mk eq_refl eq_refl) as [E|[]]; [|exact E]. intros i j. cbn [img_in at2]. now rewrite (s_finite u Hu). }
  assert (Zr : forall i, existsb (fun j => feqb (at2 (img_in u er) i j) (Fin 0)) (seq 0 (cols (img_in u er))) = existsb (fun j => feqb (at2 er i j) (Fin 0)) (seq 0 (cols er))).
  { intros i. cbn [img_in at2 cols]. f_equal. apply functional_extensionality. intros j. apply (s_eqb0 u Hu). }
  change (rows (img_in u fx)) with (rows fx). change (cols (img_in u fx)) with (cols fx). change (rows (img_in u er)) with (rows er).
  match goal with |- bind ?a _ = bind ?b _ => assert (E1 : a = b) end.
  { destruct (negb nf && fgtb x (Fin 0)); [|reflexivity].
    erewrite forallb_ext_; [|intros i; rewrite Zr; reflexivity]. destruct (forallb _ _); [|reflexivity]. f_equal. apply mk2_ext. intros i j. now rewrite Zr. }
  rewrite E1. clear E1.
  match goal with |- bind ?mm _ = _ => destruct mm as [m1|]; [|reflexivity] end. cbn [bind]. rewrite F.
  match goal with |- bind ?mm _ = _ => destruct mm as [m2|]; [|reflexivity] end. cbn [bind]. rewrite F. reflexivity.
Qed.
Lemma mask_where_units p l mk : (forall x, p (s x) = p x) -> mask_where p (map s l) mk = mask_where p l mk.
Proof. intros H. unfold mask_where. rewrite map_length. rewrite (where_ext p p s l H). reflexivity. Qed.
Lemma missing1_units fx er w m nf : spec_mask_missing_1D (list_in u fx) (list_in u er) w m nf = spec_mask_missing_1D fx er w m nf.
Proof.
  unfold spec_mask_missing_1D, list_in. assert (M := maxabs_units er).
  destruct (np_max (map fabs er)) as [x|], (np_max (map fabs (map s er))) as [x'|]; cbn [rrel] in M; try contradiction; [|subst; reflexivity].
  cbn [bind]. rewrite M, map_map. rewrite !(where_ext (fun e => feqb e (Fin 0)) (fun e => feqb e (Fin 0)) s er) by (intros; apply (s_eqb0 u Hu)).
  match goal with |- bind ?mm _ = _ => destruct mm as [m1|]; [|reflexivity] end. cbn [bind].
  rewrite mask_where_units by (intros; now rewrite (s_finite u Hu)).
  match goal with |- bind ?mm _ = _ => destruct mm as [m2|]; [|reflexivity] end. cbn [bind].
  rewrite mask_where_units by (intros; now rewrite (s_finite u Hu)). reflexivity.
Qed.

Lemma fill_units a m mz i j : converted_or_filled u (at2 m i j = Fin 0) (at2 (spec_nan_masking a m (Fin (-99)) mz false) i j) (at2 (spec_nan_masking (img_in u a) m (Fin (-99)) mz false) i j).
Proof.
  assert (D : feqb (at2 m i j) (Fin 0) = true -> at2 m i j = Fin 0).
  { destruct (at2 m i j); cbn [feqb]; try discriminate. intros E. apply Reqb_true in E. now subst. }
  unfold spec_nan_masking. destruct mz; cbn [orb img_in at2 rows cols]; rewrite !(s_finite u Hu); destruct (negb (isfinite (at2 a i j))); cbn [andb]; destruct (feqb (at2 m i j) (Fin 0)) eqn:E; rewrite ?andb_true_r, ?andb_false_r;
    rewrite ?(s_eqb0 u Hu); try (now left); try (right; auto; fail).
  - destruct (feqb (Fin (-99)) (Fin 0)); right; auto.
  - destruct (feqb (at2 a i j) (Fin 0)); [right; auto|now left].
Qed.
Lemma fill_pixels a m mz : pixelwise (fun i j => converted_or_filled u (at2 m i j = Fin 0)) (spec_nan_masking a m (Fin (-99)) mz false) (spec_nan_masking (img_in u a) m (Fin (-99)) mz false).
Proof. split; [|split]; [unfold spec_nan_masking; destruct mz; reflexivity..|]. intros i j. apply fill_units. Qed.

(* ---------------- cutting ---------------- *)
Lemma take_units (Q : nat -> nat -> fl -> fl -> Prop) o o' wh : pixelwise_o Q o o' -> rrel (pixelwise (fun i j => Q i (nth j wh 0%nat))) (take_cols_o o wh) (take_cols_o o' wh).
Proof.
  intros H. unfold take_cols_o. apply rrel_bind with (pixelwise Q); [apply need_o; exact H|]. intros a a' (A & B & C). unfold take_cols. rewrite B, A.
  destruct (forallb _ wh); cbn [rrel]; [|reflexivity]. split; [reflexivity|]. split; [reflexivity|]. intros i j. apply C.
Qed.
Lemma take_in o wh : take_cols_o (option_map (img_in u) o) wh = res_in (img_in u) (take_cols_o o wh).
Proof. destruct o as [a|]; [|reflexivity]. unfold take_cols_o, take_cols. cbn [option_map need bind img_in rows cols at2]. destruct (forallb _ wh); reflexivity. Qed.
Lemma slice_units (Q : nat -> nat -> fl -> fl -> Prop) o o' l r : pixelwise_o Q o o' ->
  rrel (fun a a' => pixelwise (fun i j => Q (slice_bound (match o with Some b => rows b | None => 0%nat end) l + i)%nat j) a a') (slice_rows_o o l r) (slice_rows_o o' l r).
Proof.
  destruct o as [a|], o' as [a'|]; cbn [pixelwise_o]; try contradiction; [|intros _; reflexivity]. intros (A & B & C). cbn. repeat split; [cbn [slice_rows rows]; now rewrite A|exact B|].
  intros i j. unfold slice_rows. cbn [at2]. rewrite A. apply C.
Qed.
Lemma slice_in o l r : slice_rows_o (option_map (img_in u) o) l r = res_in (img_in u) (slice_rows_o o l r).
Proof. destruct o as [a|]; reflexivity. Qed.
Lemma taken_in (l : list fl) wh : take (list_in u l) wh = res_in (list_in u) (take l wh).
Proof.
  induction wh as [|i t IH]; cbn [take]; [reflexivity|]. rewrite IH. unfold getn. unfold list_in at 1. rewrite nth_error_map. destruct (nth_error l i); [|reflexivity]. cbn [option_map bind].
  destruct (take l t); reflexivity.
Qed.
Lemma taken_o_in o wh : take_o (option_map (list_in u) o) wh = res_in (list_in u) (take_o o wh).
Proof. destruct o as [a|]; [|reflexivity]. apply taken_in. Qed.
Lemma times_units a a' m : pixelwise (fun i j => under (at2 m i j)) a a' -> times2 a' m = res_in (img_in u) (times2 a m).
Proof.
  intros P. unfold times2. rewrite (shape_units _ _ _ _ P). destruct (shape_eqb a m); [|reflexivity]. destruct P as (A & B & C). cbn [res_in]. f_equal. unfold img_in. cbn [rows cols at2].
  rewrite A, B. apply mk2_ext. intros i j. now apply under_mul.
Qed.
Lemma row_at_units (Q : nat -> nat -> fl -> fl -> Prop) a a' i wh : pixelwise Q a a' ->
  rrel (fun l l' => length l' = length l /\ length l = length wh /\ forall k, (k < length wh)%nat -> Q i (nth k wh 0%nat) (lnth l k) (lnth l' k)) (row_at a i wh) (row_at a' i wh).
Proof.
  intros (A & B & C). unfold row_at. rewrite B. destruct (forallb _ wh); [|reflexivity]. cbn [rrel]. rewrite !map_length. split; [reflexivity|]. split; [reflexivity|].
  intros k Hk. unfold lnth. rewrite !(nth_indep _ NaN (at2 a i 0)), !(nth_indep _ (at2 a i 0) (at2 a' i 0)) by (rewrite map_length; exact Hk).
  rewrite (nth_indep (map (at2 a i) wh) (at2 a' i 0) (at2 a i 0)) by (rewrite map_length; exact Hk). rewrite !map_nth. apply C.
Qed.
Lemma line_units a b w : line_at (s a) (s b) w = list_in u (line_at a b w).
Proof. unfold line_at, list_in. rewrite map_map. apply map_ext. intros x. rewrite (s_mul u Hu). apply (s_add u Hu). Qed.
Lemma set_row_in ct i cf : (forall j, lnth (list_in u cf) j = s (lnth cf j)) -> set_row (img_in u ct) i (list_in u cf) = img_in u (set_row ct i cf).
Proof. intros H. unfold set_row, img_in. cbn [rows cols at2]. apply mk2_ext. intros i' j. destruct (Nat.eqb i' i); [apply H|reflexivity]. Qed.
Lemma lnth_in l j : lnth (list_in u l) j = s (lnth l j).
Proof. unfold lnth, list_in. change NaN with (s NaN) at 1. apply map_nth. Qed.
End U.
