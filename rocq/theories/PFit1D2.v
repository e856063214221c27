(* Proofs about the 1-D line fits: the whole spectrum and its residuals. *)
From Coq Require Import String Reals List Bool Arith ZArith Lia Lra Psatz.
From Verif Require Import PyFloat PyBase Arr PyNum MKernels MIo MTrim MAper1D MFit1D SKernels SMask STrim SFit1D
  PKernels PKernels2 PMask PTrim PAper1D PFit1D.
Import ListNotations.
Local Open Scope R_scope.

Lemma rsum_cons a l : rsum (a :: l) = a + rsum l.
Proof. reflexivity. Qed.

Lemma vadd_map {A} f g (l : list A) :
  vadd (map (fun x => Fin (f x)) l) (map (fun x => Fin (g x)) l) = map (fun x => Fin (f x + g x)) l.
Proof. unfold vadd. induction l as [|a l IH]; cbn [map combine]; [reflexivity|]. rewrite IH. reflexivity. Qed.

Lemma mapM_ok {A B} (f : A -> res B) l : forall r, mapM f l = Ok r <-> Forall2 (fun a b => f a = Ok b) l r.
Proof.
  induction l as [|a l IH]; intros r; cbn [mapM].
  - split; [intros E; inversion E; constructor|intros H; inversion H; reflexivity].
  - split.
    + destruct (f a) as [b|e] eqn:E; [|discriminate]. cbn [bind]. destruct (mapM f l) as [r'|e] eqn:E2; [|discriminate].
      cbn [bind]. intros H. inversion H; subst. constructor; [exact E|]. apply IH. reflexivity.
    + intros H. inversion H; subst. rewrite H2. cbn [bind]. rewrite (proj2 (IH _) H4). reflexivity.
Qed.

Lemma mapM_total {A B} (f : A -> res B) l : (forall a, In a l -> exists b, f a = Ok b) -> exists r, mapM f l = Ok r.
Proof.
  induction l as [|a l IH]; intros H; cbn [mapM]; [eauto|].
  destruct (H a (or_introl eq_refl)) as [b E]. rewrite E. cbn [bind].
  destruct IH as [r E2]; [intros; apply H; right; assumption|]. rewrite E2. cbn [bind]. eauto.
Qed.

Lemma mapM_length {A B} (f : A -> res B) l r : mapM f l = Ok r -> length r = length l.
Proof. intros H. apply mapM_ok in H. induction H; cbn; congruence. Qed.

Lemma add_lines_Fin xs z vd flux ls : xs <> [] -> 0 < 1 + z -> 0 < vd -> (forall w r, In (w, r) ls -> 0 < w) ->
  forall f, add_lines (map Fin xs) (Fin z) (Fin vd) (Fin flux) ls (map (fun x => Fin (f x)) xs) =
    Ok (map (fun x => Fin (f x + set_value xs z vd flux ls x)) xs).
Proof.
  intros N Hz Hv. induction ls as [|[w r] ls IH]; intros P f; cbn [add_lines].
  - f_equal. apply map_ext. intros x. unfold set_value. cbn. f_equal. ring.
  - assert (Hw : 0 < w) by (apply (P w r); left; reflexivity).
    change (fmul (Fin w) (fadd (Fin 1) (Fin z))) with (Fin (w * (1 + z))).
    change (fmul (Fin flux) (Fin r)) with (Fin (flux * r)).
    rewrite gaussian_line_Fin; [|exact N|apply Rmult_lt_0_compat; assumption|exact Hv]. cbn [bind].
    rewrite vadd_map, IH by (intros w' r' I; apply (P w' r'); right; exact I).
    apply (f_equal (@Ok (list fl))). apply map_ext. intros x. f_equal. unfold set_value. cbn [map fst snd]. rewrite rsum_cons. lra.
Qed.

Lemma zeros_map {A} (l : list A) : repeat (Fin 0) (length l) = map (fun _ => Fin 0) l.
Proof. induction l; cbn; congruence. Qed.

Lemma line_profile_Fin T name ls xs z vd flux : line_set T name = Ok ls -> xs <> [] -> 0 < 1 + z -> 0 < vd ->
  (forall w r, In (w, r) ls -> 0 < w) ->
  line_profile T name (map Fin xs) (Fin z) (Fin vd) (Fin flux) = Ok (map (fun x => Fin (set_value xs z vd flux ls x)) xs).
Proof.
  intros E N Hz Hv P. unfold line_profile. rewrite E. cbn [bind]. rewrite map_length, zeros_map.
  rewrite (add_lines_Fin xs z vd flux ls N Hz Hv P (fun _ => 0)). f_equal. apply map_ext. intros x. f_equal. ring.
Qed.

Lemma add_sets_Fin T xs z vd names sets : xs <> [] -> 0 < 1 + z -> 0 < vd -> positive_lines sets ->
  Forall2 (fun n s => line_set T n = Ok (snd s)) names sets ->
  forall f, add_sets T (map Fin xs) (Fin z) (Fin vd) (combine names (map (fun s => Fin (fst s)) sets)) (map (fun x => Fin (f x)) xs) =
    Ok (map (fun x => Fin (f x + rsum (map (fun s => set_value xs z vd (fst s) (snd s) x) sets))) xs).
Proof.
  intros N Hz Hv P F. induction F as [|n s names sets E F IH]; intros f; cbn [map combine add_sets].
  - f_equal. apply map_ext. intros x. cbn. f_equal. ring.
  - rewrite (line_profile_Fin T n (snd s)); auto.
    2:{ intros w r I. apply (P s w r); [left; reflexivity|exact I]. }
    cbn [bind]. rewrite vadd_map, IH.
    2:{ intros s' w r I J. apply (P s' w r); [right; exact I|exact J]. }
    apply (f_equal (@Ok (list fl))). apply map_ext. intros x. f_equal. rewrite rsum_cons. lra.
Qed.

Lemma fpown_Fin x n : fpown (Fin x) n = Fin (x ^ n).
Proof. induction n as [|n IH]; cbn [fpown pow]; [reflexivity|]. rewrite IH. reflexivity. Qed.

Lemma rsumn_shift n f : rsumn (S n) f = f O + rsumn n (fun i => f (S i)).
Proof. induction n as [|n IH]; [cbn; lra|]. cbn [rsumn] in *. lra. Qed.

Lemma add_cont_Fin xs cs : forall i f,
  add_cont (map Fin xs) i (map (fun c => fmul (Fin c) (Fin (/ 10 ^ 18))) cs) (map (fun x => Fin (f x)) xs) =
  map (fun x => Fin (f x + rsumn (length cs) (fun k => nth k cs 0 * / 10 ^ 18 * x ^ (i + k)))) xs.
Proof.
  induction cs as [|c cs IH]; intros i f; cbn [map add_cont].
  - apply map_ext. intros x. cbn. f_equal. ring.
  - rewrite map_map.
    rewrite (map_ext (fun w => fmul (fmul (Fin c) (Fin (/ 10 ^ 18))) (fpown (Fin w) i)) (fun x => Fin (c * / 10 ^ 18 * x ^ i))).
    2:{ intros x. rewrite fpown_Fin. reflexivity. }
    rewrite vadd_map, IH. apply map_ext. intros x. f_equal. cbn [length]. rewrite rsumn_shift. cbn [nth].
    rewrite Nat.add_0_r.
    rewrite (rsumn_ext (length cs) (fun k => nth k cs 0 * / 10 ^ 18 * x ^ (S i + k)) (fun k => nth k cs 0 * / 10 ^ 18 * x ^ (i + S k))).
    { lra. }
    intros k _. f_equal. f_equal. lia.
Qed.

Lemma pvals_Fin l rs n : map p_val l = map Fin rs -> n = length rs -> pvals l n = Ok (map Fin rs).
Proof.
  intros E ->. unfold pvals. apply mapM_ok.
  assert (Ln : length l = length rs) by (rewrite <- (map_length p_val), E, map_length; reflexivity).
  assert (G : forall k, (k < length rs)%nat -> pval l k = Ok (Fin (nth k rs 0))).
  { intros k Hk. unfold pval. destruct (nth_error l k) as [p|] eqn:Ek; [|apply nth_error_None in Ek; lia].
    assert (X : nth_error (map p_val l) k = Some (p_val p)) by (rewrite nth_error_map, Ek; reflexivity).
    rewrite E, nth_error_map in X. rewrite (nth_error_nth' rs 0 Hk) in X. cbn in X. congruence. }
  clear E Ln. revert l G.
  assert (H : forall (l : list par) rs b, (forall k, (k < length rs)%nat -> pval l (b + k) = Ok (Fin (nth k rs 0))) ->
    Forall2 (fun a b => pval l a = Ok b) (seq b (length rs)) (map Fin rs)).
  { intros l rs'. induction rs' as [|r rs' IH]; intros b G; cbn [length seq map]; constructor.
    - specialize (G 0%nat). cbn [nth length] in G. rewrite Nat.add_0_r in G. apply G. lia.
    - apply IH. intros k Hk. specialize (G (S k)). cbn [nth length] in G.
      replace (S b + k)%nat with (b + S k)%nat by lia. apply G. lia. }
  intros l G. apply (H l rs 0%nat). exact G.
Qed.

Theorem spectrum_model_Fin T names order q xs z vd fs cs sets : xs <> [] -> 0 < 1 + z -> 0 < vd ->
  holds q z vd fs cs -> length cs = S order -> known_sets T names fs sets -> positive_lines sets ->
  spectrum_model T names order q (map Fin xs) = Ok (map (fun x => Fin (spectrum_value xs z vd sets cs x)) xs).
Proof.
  intros N Hz Hv (Q1 & Q2 & Q3 & Q4) Lc (Lf & Ef & F) P. unfold spectrum_model.
  rewrite (pvals_Fin _ cs) by (try assumption; lia). cbn [bind].
  rewrite (pvals_Fin _ fs) by (try assumption; lia). cbn [bind]. rewrite Q1, Q2, map_length, zeros_map.
  rewrite <- Ef, map_map. rewrite (add_sets_Fin T xs z vd names sets N Hz Hv P F (fun _ => 0)). cbn [bind].
  rewrite map_map. f_equal. rewrite add_cont_Fin. apply map_ext. intros x. f_equal. unfold spectrum_value, cont_value.
  cbn [Nat.add]. lra.
Qed.

(** Residuals. *)
Lemma good_inds_used mask : used_pixels mask (good_inds (Some mask)).
Proof.
  unfold used_pixels, good_inds, used. split; [apply where_sorted|]. intros i. rewrite where_In. split.
  - intros (v & E & H). rewrite E. destruct v; try discriminate. apply Reqb_true in H. subst. reflexivity.
  - intros E. exists (Fin 1). split; [exact E|]. cbn. apply Reqb_refl.
Qed.

Lemma used_pixels_unique mask ks : used_pixels mask ks -> good_inds (Some mask) = ks.
Proof.
  intros [A B]. destruct (good_inds_used mask) as [C D]. apply ascending_ext; auto. intros x. rewrite D, B. reflexivity.
Qed.

Lemma used_bound mask i : used mask i -> (i < length mask)%nat.
Proof. intros E. apply nth_error_Some. rewrite E. discriminate. Qed.

Lemma vadd_length a b : length a = length b -> length (vadd a b) = length a.
Proof. intros E. unfold vadd. rewrite map_length, combine_length. lia. Qed.

Lemma gaussian_line_length x mu vd f g : gaussian_line x mu vd f = Ok g -> length g = length x.
Proof.
  unfold gaussian_line. destruct (np_max _); [|discriminate]. cbn [bind]. intros E. inversion E. rewrite !map_length. reflexivity.
Qed.

Lemma add_lines_length x z vd f ls : forall p r, add_lines x z vd f ls p = Ok r -> length p = length x -> length r = length x.
Proof.
  induction ls as [|[w q] ls IH]; intros p r; cbn [add_lines].
  - intros E. inversion E. auto.
  - destruct (gaussian_line _ _ _ _) as [g|] eqn:G; [|discriminate]. cbn [bind]. intros E L.
    apply (IH _ _ E). apply gaussian_line_length in G. rewrite vadd_length; lia.
Qed.

Lemma line_profile_length T n x z vd f r : line_profile T n x z vd f = Ok r -> length r = length x.
Proof.
  unfold line_profile. destruct (line_set T n); [|discriminate]. cbn [bind]. intros E.
  apply (add_lines_length _ _ _ _ _ _ _ E). apply repeat_length.
Qed.

Lemma add_sets_length T x z vd sets : forall p r, add_sets T x z vd sets p = Ok r -> length p = length x -> length r = length x.
Proof.
  induction sets as [|[n f] sets IH]; intros p r; cbn [add_sets].
  - intros E. inversion E. auto.
  - destruct (line_profile _ _ _ _ _ _) as [g|] eqn:G; [|discriminate]. cbn [bind]. intros E L.
    apply (IH _ _ E). apply line_profile_length in G. rewrite vadd_length; lia.
Qed.

Lemma add_cont_length x cs : forall i p, length p = length x -> length (add_cont x i cs p) = length x.
Proof.
  induction cs as [|c cs IH]; intros i p L; cbn [add_cont]; [exact L|]. apply IH.
  rewrite vadd_length; rewrite ?map_length; exact L.
Qed.

Lemma spectrum_model_length T names order q x m : spectrum_model T names order q x = Ok m -> length m = length x.
Proof.
  unfold spectrum_model. destruct (pvals (m_cont q) _); [|discriminate]. cbn [bind].
  destruct (pvals (m_flux q) _); [|discriminate]. cbn [bind].
  destruct (add_sets _ _ _ _ _ _) as [p|] eqn:E; [|discriminate]. cbn [bind]. intros H. inversion H.
  apply add_cont_length. apply (add_sets_length _ _ _ _ _ _ _ E). apply repeat_length.
Qed.

Definition scrub (v : fl) : fl := if isfinite v then v else Fin 0.

Lemma combine3_nth {A B C} (la : list A) (lb : list B) (lc : list C) k : length lb = length la -> length lc = length la ->
  nth_error (combine la (combine lb lc)) k =
  match nth_error la k, nth_error lb k, nth_error lc k with Some a, Some b, Some c => Some (a, (b, c)) | _, _, _ => None end.
Proof.
  revert lb lc k. induction la as [|a la IH]; intros [|b lb] [|c lc] k; cbn [length]; intros H1 H2; try lia.
  - destruct k; reflexivity.
  - destruct k; cbn [combine nth_error]; [reflexivity|]. apply IH; lia.
Qed.

Lemma residual_run T names order x data err mask ks q : length data = length x -> length err = length x ->
  length mask = length x -> used_pixels mask ks ->
  residual T names order x (Some data) (Some err) (Some mask) q =
  (do model <- spectrum_model T names order q (map (fun k => nth k x NaN) ks);
   Ok (map (fun t => scrub (fdiv (fsub (fst t) (nth (snd t) data NaN)) (nth (snd t) err NaN))) (combine model ks))).
Proof.
  intros Ld Le Lm U. unfold residual. rewrite (used_pixels_unique mask ks U).
  assert (B : forall k, In k ks -> (k < length x)%nat).
  { intros k I. rewrite <- Lm. apply used_bound. apply U. exact I. }
  rewrite (take_map NaN) by exact B. cbn [bind].
  destruct (spectrum_model _ _ _ _ _) as [model|e] eqn:E; [|reflexivity]. cbn [bind].
  rewrite take_o_ok by (intros; rewrite Ld; auto). cbn [bind].
  rewrite take_o_ok by (intros; rewrite Le; auto). cbn [bind]. f_equal.
  apply spectrum_model_length in E. rewrite map_length in E. clear -E. rewrite map_map.
  revert ks E. induction model as [|m model IH]; intros [|k ks] E; cbn [length] in E; try lia; [reflexivity|].
  cbn [map combine]. unfold scrub at 1. cbn [fst snd]. f_equal. apply IH. lia.
Qed.

Lemma residual_spec T names order x data err mask ks q r : length data = length x -> length err = length x ->
  length mask = length x -> used_pixels mask ks ->
  residual T names order x (Some data) (Some err) (Some mask) q = Ok r ->
  exists model, spectrum_model T names order q (map (fun k => nth k x NaN) ks) = Ok model /\
    length model = length ks /\ length r = length ks /\
    forall j k, nth_error ks j = Some k -> exists m, nth_error model j = Some m /\
      let v := fdiv (fsub m (nth k data NaN)) (nth k err NaN) in
      nth_error r j = Some (match v with Fin a => Fin a | _ => Fin 0 end).
Proof.
  intros Ld Le Lm U. rewrite (residual_run _ _ _ _ _ _ _ ks) by assumption.
  destruct (spectrum_model _ _ _ _ _) as [model|e] eqn:E; [|discriminate]. cbn [bind]. intros R.
  pose proof (spectrum_model_length _ _ _ _ _ _ E) as L. rewrite map_length in L.
  exists model. split; [reflexivity|]. split; [exact L|].
  assert (Er : r = map (fun t => scrub (fdiv (fsub (fst t) (nth (snd t) data NaN)) (nth (snd t) err NaN))) (combine model ks)).
  { inversion R. reflexivity. }
  split. { rewrite Er, map_length, combine_length. lia. }
  intros j k Hk. assert (Hj : (j < length ks)%nat) by (apply nth_error_Some; rewrite Hk; discriminate).
  destruct (nth_error model j) as [m|] eqn:Em; [|apply nth_error_None in Em; lia].
  exists m. split; [reflexivity|]. cbv zeta. rewrite Er, nth_error_map.
  assert (C : nth_error (combine model ks) j = Some (m, k)).
  { clear -Em Hk. revert ks j Em Hk. induction model as [|m' model IH]; intros [|k' ks] [|j]; cbn; try discriminate; intros; try congruence. auto. }
  rewrite C. cbn [option_map fst snd]. unfold scrub. destruct (fdiv _ _); reflexivity.
Qed.

Lemma residual_same T names order x data err x' data' err' mask q :
  length data = length x -> length err = length x -> length mask = length x ->
  length x' = length x -> length data' = length x -> length err' = length x ->
  (forall i, used mask i -> nth_error x i = nth_error x' i /\ nth_error data i = nth_error data' i /\ nth_error err i = nth_error err' i) ->
  residual T names order x (Some data) (Some err) (Some mask) q = residual T names order x' (Some data') (Some err') (Some mask) q.
Proof.
  intros H1 H2 H3 H4 H5 H6 S.
  pose proof (good_inds_used mask) as U. set (ks := good_inds (Some mask)) in *.
  rewrite (residual_run _ _ _ x _ _ _ ks) by (try assumption; lia).
  rewrite (residual_run _ _ _ x' _ _ _ ks) by (try assumption; lia).
  assert (N : forall k, In k ks -> nth k x NaN = nth k x' NaN /\ nth k data NaN = nth k data' NaN /\ nth k err NaN = nth k err' NaN).
  { intros k I. apply U in I. destruct (S k I) as (A & B & C). pose proof (used_bound _ _ I).
    rewrite (nth_error_nth' x NaN), (nth_error_nth' x' NaN) in A by lia.
    rewrite (nth_error_nth' data NaN), (nth_error_nth' data' NaN) in B by lia.
    rewrite (nth_error_nth' err NaN), (nth_error_nth' err' NaN) in C by lia. repeat split; congruence. }
  rewrite (map_ext_in (fun k => nth k x NaN) (fun k => nth k x' NaN)) by (intros k I; apply N; exact I).
  destruct (spectrum_model _ _ _ _ _) as [model|e]; [|reflexivity]. cbn [bind]. f_equal.
  apply map_ext_in. intros [m k] I. apply in_combine_r in I. cbn [fst snd].
  destruct (N k I) as (_ & B & C). rewrite B, C. reflexivity.
Qed.
