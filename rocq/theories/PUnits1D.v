(* Proofs: a 1-D line fit in other units of wavelength and flux. *)
From Coq Require Import String Reals Lra Lia List Bool Arith ZArith FunctionalExtensionality.
From Verif Require Import PyFloat PyBase Arr PyNum MKernels MMask MAper1D MPost MIo MTrim MFit1D SUnits1D PBright.
Import ListNotations.
Local Open Scope R_scope.

Notation s k := (fmul (Fin k)).
Lemma s_one x : s 1 x = x.
Proof. destruct x; cbn [fmul]; [f_equal; ring| | |reflexivity]; [apply (s_inf 1 Rlt_0_1 true)|apply (s_inf 1 Rlt_0_1 false)]. Qed.
Lemma s_s k l x : 0 < k -> 0 < l -> s k (s l x) = s (k * l) x.
Proof.
  intros K L. symmetry. exact (s_mul k K (Fin l) x).
Qed.
Lemma rmap_bind {A B C} (f : A -> B) (x : res A) (g : B -> res C) : (do y <- rmap f x; g y) = (do y <- x; g (f y)).
Proof. now destruct x. Qed.
Lemma bind_rmap {A B C} (f : B -> C) (x : res A) (g : A -> res B) : rmap f (do y <- x; g y) = (do y <- x; rmap f (g y)).
Proof. now destruct x. Qed.
Lemma bind_ext {A B} (x : res A) (g h : A -> res B) : (forall y, g y = h y) -> (do y <- x; g y) = (do y <- x; h y).
Proof. intros H. destruct x; cbn; auto. Qed.

(** One line. *)
Section Line.
Variables a b : R.
Hypothesis A : 0 < a.
Hypothesis B : 0 < b.
Lemma AB : 0 < a * b. Proof. now apply Rmult_lt_0_compat. Qed.
Lemma Ai : 0 < / a. Proof. now apply Rinv_0_lt_compat. Qed.
Lemma CF i : 0 < cont_factor a b i.
Proof. unfold cont_factor. apply Rdiv_lt_0_compat; [exact B|]. now apply pow_lt. Qed.

Lemma s_div_r k x y : 0 < k -> fdiv x (s k y) = s (/ k) (fdiv x y).
Proof.
  intros K. rewrite <- (s_div_both k K x y). rewrite <- (s_div (/ k)) by now apply Rinv_0_lt_compat.
  rewrite (s_s (/ k) k) by (auto using Rinv_0_lt_compat). rewrite Rinv_l by lra. now rewrite s_one.
Qed.
Lemma pdf_in x sg : norm_pdf (s a x) (s a sg) = s (/ a) (norm_pdf x sg).
Proof.
  unfold norm_pdf. assert (E : fltb (Fin 0) (s a sg) = fltb (Fin 0) sg).
  { rewrite <- (s_ltb a A (Fin 0) sg). cbn [fmul]. now rewrite Rmult_0_r. }
  rewrite E, (s_div_both a A). destruct (fltb (Fin 0) sg); [|reflexivity]. now apply s_div_r.
Qed.
Lemma line_in x mu vd flux : gaussian_line (times a x) (s a mu) vd (s (a * b) flux) = rmap (times b) (gaussian_line x mu vd flux).
Proof.
  unfold gaussian_line. cbv zeta. rewrite (s_mul_r a A).
  assert (E : map (fun v => norm_pdf (fsub v (s a mu)) (s a (fmul (fdiv vd (Fin c_kms)) mu))) (times a x) =
    map (s (/ a)) (map (fun v => norm_pdf (fsub v mu) (fmul (fdiv vd (Fin c_kms)) mu)) x)).
  { unfold times. rewrite !map_map. apply map_ext. intros v. now rewrite (s_sub a A), pdf_in. }
  rewrite E, (s_npmax (/ a) Ai). destruct (np_max _) as [m|e]; [|reflexivity]. cbn [rmap bind]. f_equal. unfold times. rewrite !map_map. apply map_ext. intros v.
  rewrite (s_div_both (/ a) Ai), (s_mul a A). rewrite (s_div_r a) by exact A. rewrite (s_div (a * b) AB), (s_s (/ a) (a * b)) by (auto using AB, Ai).
  replace (/ a * (a * b)) with b by (field; lra). apply (s_mul_r b B).
Qed.
Lemma vadd_in p g : vadd (times b p) (times b g) = times b (vadd p g).
Proof.
  unfold vadd, times. revert g. induction p as [|x p IH]; intros [|y g]; auto. cbn [map combine fst snd]. now rewrite IH, (s_add b B).
Qed.
Lemma add_lines_in x z vd flux ls : forall p, add_lines (times a x) z vd (s (a * b) flux) (map (fun wr => (a * fst wr, snd wr)) ls) (times b p) =
  rmap (times b) (add_lines x z vd flux ls p).
Proof.
  induction ls as [|[w r] ls IH]; intros p; [reflexivity|]. cbn [map add_lines fst snd].
  change (Fin (a * w)) with (s a (Fin w)). rewrite (s_mul a A), (s_mul (a * b) AB), line_in. 
  destruct (gaussian_line x _ vd _) as [g|e]; [|reflexivity]. cbn [rmap bind]. now rewrite vadd_in, IH.
Qed.
Lemma times_zero n : times b (repeat (Fin 0) n) = repeat (Fin 0) n.
Proof. induction n; cbn; [reflexivity|]. unfold times in IHn. rewrite IHn. f_equal. f_equal. ring. Qed.
Lemma times_len k x : length (times k x) = length x. Proof. apply map_length. Qed.
Lemma profile_in T T' name x z vd flux : lines_in a T T' ->
  line_profile T' name (times a x) z vd (s (a * b) flux) = rmap (times b) (line_profile T name x z vd flux).
Proof.
  intros L. unfold line_profile. rewrite L. destruct (line_set T name) as [ls|e]; [|reflexivity]. cbn [bind].
  rewrite times_len, <- (times_zero (length x)), add_lines_in. now rewrite times_zero.
Qed.
Lemma add_sets_in T T' x z vd : lines_in a T T' -> forall sets p,
  add_sets T' (times a x) z vd (map (fun nf => (fst nf, s (a * b) (snd nf))) sets) (times b p) = rmap (times b) (add_sets T x z vd sets p).
Proof.
  intros L. induction sets as [|[n f] sets IH]; intros p; [reflexivity|]. cbn [map add_sets fst snd]. rewrite (profile_in T T' _ _ _ _ _ L).
  destruct (line_profile T n x z vd f) as [g|e]; [|reflexivity]. cbn [rmap bind]. now rewrite vadd_in, IH.
Qed.
Lemma fpown_in w i : fpown (s a w) i = s (a ^ i) (fpown w i).
Proof.
  induction i as [|i IH]; cbn [fpown pow]; [cbn; f_equal; ring|]. rewrite IH. rewrite (s_mul a A), (s_mul_r (a ^ i)) by now apply pow_lt.
  rewrite s_s by (auto using pow_lt). reflexivity.
Qed.
Lemma add_cont_in x cs : forall i p, add_cont (times a x) i (mapi_from i (fun i c => s (cont_factor a b i) c) cs) (times b p) = times b (add_cont x i cs p).
Proof.
  induction cs as [|c cs IH]; intros i p; [reflexivity|]. cbn [mapi_from add_cont]. rewrite <- IH. f_equal. rewrite <- vadd_in. f_equal.
  unfold times. rewrite !map_map. apply map_ext. intros w. rewrite fpown_in, (s_mul _ (CF i)), (s_mul_r (a ^ i)) by now apply pow_lt.
  rewrite s_s by (auto using pow_lt, CF). f_equal. f_equal. unfold cont_factor. field. apply pow_nonzero. lra.
Qed.

(** Parameters. *)
Lemma pval_times k l i : pval (map (par_times k) l) i = rmap (s k) (pval l i).
Proof. unfold pval. rewrite nth_error_map. now destruct (nth_error l i). Qed.
Lemma pvals_times k l n : pvals (map (par_times k) l) n = rmap (times k) (pvals l n).
Proof.
  unfold pvals. induction (seq 0 n) as [|i is_ IH]; [reflexivity|]. cbn [mapM]. rewrite pval_times. destruct (pval l i) as [v|e]; [|reflexivity].
  cbn [rmap bind]. rewrite IH. now destruct (mapM (pval l) is_).
Qed.
Lemma mapi_from_nth_error {X Y} (f : nat -> X -> Y) : forall l k i, nth_error (mapi_from k f l) i = option_map (f (k + i)%nat) (nth_error l i).
Proof.
  induction l as [|x l IH]; intros k [|i]; cbn; auto; [now rewrite Nat.add_0_r|]. rewrite IH. now replace (S k + i)%nat with (k + S i)%nat by lia.
Qed.
Lemma pvals_cont l n : forall k, mapM (pval (mapi (fun i p => par_times (cont_factor a b i) p) l)) (seq k n) =
  rmap (mapi_from k (fun i c => s (cont_factor a b i) c)) (mapM (pval l) (seq k n)).
Proof.
  induction n as [|n IH]; intros k; [reflexivity|]. cbn [seq mapM]. rewrite IH. unfold pval at 1 3. unfold mapi at 1. rewrite mapi_from_nth_error. cbn [Nat.add].
  destruct (nth_error l k) as [p|]; [|reflexivity]. cbn [option_map bind par_times p_val]. destruct (mapM (pval l) (seq (S k) n)) as [r|e]; reflexivity.
Qed.
Lemma coeffs_map k l i : mapi_from i (fun i c => s (cont_factor a b i) c) (map (fun c => fmul c (Fin k)) l) = map (fun c => fmul c (Fin k)) (mapi_from i (fun i c => s (cont_factor a b i) c) l).
Proof. revert i. induction l as [|c l IH]; intros i; [reflexivity|]. cbn [map mapi_from]. now rewrite IH, (s_mul _ (CF i)). Qed.
Lemma combine_times {X} (names : list X) fs : combine names (times (a * b) fs) = map (fun nf => (fst nf, s (a * b) (snd nf))) (combine names fs).
Proof. revert fs. induction names as [|n names IH]; intros [|f fs]; auto. cbn. unfold times in IH. now rewrite IH. Qed.

Lemma model_in T T' names order q x : lines_in a T T' ->
  spectrum_model T' names order (prm_in a b q) (times a x) = rmap (times b) (spectrum_model T names order q x).
Proof.
  intros L. unfold spectrum_model. cbn [prm_in m_cont m_flux m_z m_vd]. unfold pvals at 1 3. rewrite pvals_cont.
  destruct (mapM (pval (m_cont q)) (seq 0 (order + 1))) as [cs|e]; [|reflexivity]. cbn [rmap bind]. rewrite pvals_times.
  destruct (pvals (m_flux q) (length names)) as [fs|e]; [|reflexivity]. cbn [rmap bind]. rewrite combine_times, times_len.
  rewrite <- (times_zero (length x)). rewrite (add_sets_in T T' x _ _ L). rewrite times_zero.
  destruct (add_sets T x _ _ _ _) as [p|e]; [|reflexivity]. cbn [rmap bind]. f_equal. rewrite <- coeffs_map. apply add_cont_in.
Qed.

Lemma take_times k l is_ : take (times k l) is_ = rmap (times k) (take l is_).
Proof.
  induction is_ as [|i is_ IH]; [reflexivity|]. cbn [take]. unfold getn, times. rewrite nth_error_map. destruct (nth_error l i); [|reflexivity].
  cbn [option_map bind]. unfold times in IH. rewrite IH. now destruct (take l is_).
Qed.
Lemma resid_in T T' names order x data err mask q : lines_in a T T' ->
  residual T' names order (times a x) (option_map (times b) data) (option_map (times b) err) mask (prm_in a b q) =
  residual T names order x data err mask q.
Proof.
  intros L. unfold residual. cbv zeta. rewrite take_times. destruct (take x (good_inds mask)) as [xg|e]; [|reflexivity]. cbn [rmap bind].
  rewrite (model_in T T' _ _ _ _ L). destruct (spectrum_model T names order q xg) as [m|e]; [|reflexivity]. cbn [rmap bind].
  unfold take_o. destruct data as [data|]; [|reflexivity]. cbn [option_map need bind]. rewrite take_times. destruct (take data _) as [dg|e]; [|reflexivity]. cbn [rmap bind].
  destruct err as [err|]; [|reflexivity]. cbn [option_map need bind]. rewrite take_times. destruct (take err _) as [eg|e]; [|reflexivity]. cbn [rmap bind].
  f_equal. f_equal. unfold times. clear - B. revert dg eg. induction m as [|m1 m IH]; intros [|d dg] [|e eg]; auto. cbn [map combine fst snd].
  rewrite IH. f_equal. rewrite (s_sub b B). now apply s_div_both.
Qed.
End Line.
