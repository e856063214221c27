(* Properties C34-C39: runs of indices, missing-data and edge masks, sky columns, low
   signal-to-noise rows and fit weights. *)
From Coq Require Import Reals List Bool Arith ZArith Lra Lia Sorted.
From Verif Require Import PyFloat PyBase Arr PyNum MMask SMask PMask PMask2 PMask3 PMaskEx.
Import ListNotations.
Local Open Scope R_scope.

(* ---------------- C34 ---------------- *)

(** Splitting loses and reorders nothing. *)
Theorem C34_concat : forall l, concat (wh_continuous l) = l.
Proof. exact wh_concat. Qed.
Print Assumptions C34_concat.
(** Every run is a non-empty block of consecutive integers. *)
Theorem C34_consecutive : forall l, Forall consecutive (wh_continuous l).
Proof. exact wh_consecutive. Qed.
Print Assumptions C34_consecutive.
(** Runs are maximal: neither neighbour of a run occurs in the list. *)
Theorem C34_maximal : forall l r, ascending l -> In r (wh_continuous l) ->
  ~ In (S (last r 0%nat)) l /\ forall b, hd 0%nat r = S b -> ~ In b l.
Proof. exact wh_maximal. Qed.
Print Assumptions C34_maximal.
(** Neighbouring runs are separated by a gap. *)
Theorem C34_separated : forall l pre r1 r2 post, ascending l -> wh_continuous l = pre ++ r1 :: r2 :: post ->
  (S (last r1 0%nat) < hd 0%nat r2)%nat.
Proof. exact wh_separated. Qed.
Print Assumptions C34_separated.
(** It is the only splitting into consecutive blocks that do not join. *)
Theorem C34_unique : forall rs, Forall consecutive rs -> gaps rs -> rs = wh_continuous (concat rs).
Proof. exact wh_unique. Qed.
Print Assumptions C34_unique.
Example C34_example : wh_continuous [2;3;4;7;9;10]%nat = [[2;3;4];[7];[9;10]]%nat.
Proof. reflexivity. Qed.

(* ---------------- C35 ---------------- *)

(** 1-D spectra: a pixel is zeroed exactly when unusable, every other pixel keeps its value. *)
Theorem C35_1D : forall spec err weight mask nf, (1 <= length spec)%nat ->
  length err = length spec -> (forall w, weight = Some w -> length w = length spec) ->
  (forall m, mask = Some m -> length m = length spec) ->
  exists out, spec_mask_missing_1D spec err weight mask nf = Ok out /\ length out = length spec /\
    forall i, (i < length spec)%nat ->
      (unusable spec err weight nf i -> nth i out NaN = Fin 0) /\
      (~ unusable spec err weight nf i -> nth i out NaN = match mask with Some m => nth i m NaN | None => Fin 1 end).
Proof. exact missing_1D. Qed.
Print Assumptions C35_1D.
Example C35_example : unusable [Fin 1; NaN; Fin 1] [Fin 0; Fin 1; Fin 1] None false 0 /\
  unusable [Fin 1; NaN; Fin 1] [Fin 0; Fin 1; Fin 1] None false 1 /\
  ~ unusable [Fin 1; NaN; Fin 1] [Fin 0; Fin 1; Fin 1] None false 2.
Proof. exact missing_example. Qed.
(** A zero error stays unmasked as soon as some other error is NaN. *)
Theorem C35_nan_refuted : exists spec err, length err = length spec /\ (exists e, In e err /\ e <> Fin 0) /\
  nth 0 spec NaN = Fin 1 /\ nth 0 err NaN = Fin 0 /\
  exists out, spec_mask_missing_1D spec err None None false = Ok out /\ nth 0 out NaN = Fin 1.
Proof. exact nan_zero_refuted. Qed.
Print Assumptions C35_nan_refuted.
(** Images, non-finite values only: pixel by pixel. *)
Theorem C35_2D : forall spec err weight mask, (1 <= rows spec)%nat -> (1 <= cols spec)%nat ->
  shape_eqb err spec = true -> (forall w, weight = Some w -> shape_eqb w spec = true) -> shape_eqb mask spec = true ->
  exists out, spec_mask_missing_2D spec err weight (Some mask) true = Ok out /\ rows out = rows spec /\ cols out = cols spec /\
    forall i j, (i < rows spec)%nat -> (j < cols spec)%nat ->
    ((isfinite (at2 spec i j) = false \/ isfinite (at2 err i j) = false \/
      (exists w, weight = Some w /\ at2 w i j = Fin 0)) -> at2 out i j = Fin 0) /\
    (isfinite (at2 spec i j) = true -> isfinite (at2 err i j) = true ->
      (forall w, weight = Some w -> at2 w i j <> Fin 0) -> at2 out i j = at2 mask i j).
Proof. exact missing_2D. Qed.
Print Assumptions C35_2D.
(** Images, zero errors included: one zero error masks the whole row. *)
Theorem C35_rows : forall spec err mask i j j', (i < rows spec)%nat -> (j < cols spec)%nat -> (j' < cols spec)%nat ->
  shape_eqb err spec = true -> shape_eqb mask spec = true ->
  (forall a b, (a < rows spec)%nat -> (b < cols spec)%nat -> at2 err a b <> NaN) ->
  (exists a b, (a < rows spec)%nat /\ (b < cols spec)%nat /\ at2 err a b <> Fin 0) ->
  at2 err i j' = Fin 0 ->
  exists out, spec_mask_missing_2D spec err None (Some mask) false = Ok out /\ at2 out i j = Fin 0.
Proof. exact missing_2D_rows. Qed.
Print Assumptions C35_rows.
(** So a good pixel of an image can be masked. *)
Theorem C35_rows_refuted : exists spec err mask, shape_eqb err spec = true /\ shape_eqb mask spec = true /\
  exists i j, (i < rows spec)%nat /\ (j < cols spec)%nat /\ at2 spec i j = Fin 1 /\ at2 err i j = Fin 1 /\ at2 mask i j = Fin 1 /\
  exists out, spec_mask_missing_2D spec err None (Some mask) false = Ok out /\ at2 out i j = Fin 0.
Proof. exact row_zero_refuted. Qed.
Print Assumptions C35_rows_refuted.

(* ---------------- C36 ---------------- *)

(** Left edge: num pixels from the first valid one are zeroed when the range does not start at 0. *)
Theorem C36_left : forall n mask num l r i, first_valid mask l -> last_valid mask r -> length mask = n ->
  (0 < l)%nat -> (l <= i < l + num)%nat -> (i < n)%nat ->
  nth_error (mask_edges_1D n mask (Z.of_nat num)) i = Some (Fin 0).
Proof. exact edges_left. Qed.
Print Assumptions C36_left.
(** Right edge: the last num + 2 valid pixels, provided the range is long enough. *)
Theorem C36_right : forall n mask num l r i, first_valid mask l -> last_valid mask r -> length mask = n ->
  (S r < n)%nat -> (num + 1 <= r)%nat -> (r - num - 1 <= i <= r)%nat ->
  nth_error (mask_edges_1D n mask (Z.of_nat num)) i = Some (Fin 0).
Proof. exact edges_right. Qed.
Print Assumptions C36_right.
(** Nothing else changes, and no pixel is unmasked. *)
Theorem C36_only : forall n mask num l r i m, first_valid mask l -> last_valid mask r -> length mask = n ->
  nth_error mask i = Some m ->
  nth_error (mask_edges_1D n mask (Z.of_nat num)) i = Some m \/
  (nth_error (mask_edges_1D n mask (Z.of_nat num)) i = Some (Fin 0) /\
   (((0 < l)%nat /\ (l <= i < l + num)%nat) \/ ((S r < n)%nat /\ (r - num - 1 <= i <= r)%nat))).
Proof. exact edges_only. Qed.
Print Assumptions C36_only.
(** A mask without valid pixels is returned unchanged. *)
Theorem C36_none : forall n mask num, (forall i, nth_error mask i <> Some (Fin 1)) -> mask_edges_1D n mask num = mask.
Proof. exact edges_none. Qed.
Print Assumptions C36_none.
(** Last valid index at most num_edge: the slice start is negative, wraps, and nothing is masked
    on the right. *)
Theorem C36_wraps : forall n mask num l r i m, first_valid mask l -> last_valid mask r -> length mask = n ->
  (r < num + 1)%nat -> (num + 1 < n)%nat -> (l = 0 \/ l + num <= i)%nat ->
  nth_error mask i = Some m ->
  nth_error (mask_edges_1D n mask (Z.of_nat num)) i = Some m.
Proof. exact edges_right_wraps. Qed.
Print Assumptions C36_wraps.
Theorem C36_right_refuted : exists mask n num l r i, first_valid mask l /\ last_valid mask r /\ length mask = n /\
  (S r < n)%nat /\ (1 <= num)%nat /\ (r - num < i <= r)%nat /\
  nth_error (mask_edges_1D n mask (Z.of_nat num)) i = Some (Fin 1).
Proof. exact wrap_refuted. Qed.
Print Assumptions C36_right_refuted.
(** num_edge = 1 takes one pixel on the left and three on the right. *)
Theorem C36_symmetry_refuted : exists mask n l r, first_valid mask l /\ last_valid mask r /\ length mask = n /\ (0 < l)%nat /\ (S r < n)%nat /\
  nth_error (mask_edges_1D n mask 1) (l + 1) = Some (Fin 1) /\ nth_error (mask_edges_1D n mask 1) (r - 1) = Some (Fin 0) /\
  nth_error (mask_edges_1D n mask 1) (r - 2) = Some (Fin 0).
Proof. exact asym_refuted. Qed.
Print Assumptions C36_symmetry_refuted.
Example C36_example : first_valid edge_mask 1 /\ last_valid edge_mask 6 /\
  mask_edges_1D 8 edge_mask 1 = [Fin 0; Fin 0; Fin 1; Fin 1; Fin 0; Fin 0; Fin 0; Fin 0].
Proof. exact (conj edge_first (conj edge_last edge_example)). Qed.

(* ---------------- C37 ---------------- *)

(** The two column lists partition the columns; exactly the sky columns are zeroed. *)
Theorem C37_partition : forall flux err mask c med m sky nosky, cols flux = cols err ->
  mask_skylines_2D flux err mask c true med = Ok (m, sky, nosky) ->
  ascending sky /\ ascending nosky /\
  (forall j, In j sky -> (j < cols err)%nat) /\
  (forall j, In j nosky <-> (j < cols err)%nat /\ ~ In j sky) /\
  rows m = rows mask /\ cols m = cols mask /\
  forall i j, (In j sky -> at2 m i j = Fin 0) /\ (~ In j sky -> at2 m i j = at2 mask i j).
Proof. exact sky_partition. Qed.
Print Assumptions C37_partition.
(** A column is sky exactly when its masked noise reaches the cutoff times the reference. *)
Theorem C37_sky_iff : forall n p E M F c md m sky nosky j, (j < p)%nat ->
  mask_skylines_2D (fin2 n p F) (fin2 n p E) (fin2 n p M) (Fin c) true (Some (Fin md)) = Ok (m, sky, nosky) ->
  (In j sky <-> c * md <= noise2 E M n j).
Proof. exact sky_exact. Qed.
Print Assumptions C37_sky_iff.
(** On its own, the one-dimensional search lists each column on the side of the cutoff its error lies. *)
Theorem C37_lists : forall e c md nosky sky,
  wh_skylines_1D (map Fin e) (Fin c) (Some (Fin md)) = Ok (nosky, sky) ->
  forall i x, nth_error e i = Some x -> (In i nosky <-> x < c * md) /\ (In i sky <-> c * md <= x).
Proof. exact sky_lists. Qed.
Print Assumptions C37_lists.
(** Unsupported cutoff units and a missing reference level are errors. *)
Theorem C37_errors : forall flux err mask c med,
  mask_skylines_2D flux err mask c false med = Err ValueError /\
  mask_skylines_2D flux err mask c true None = Err ValueError.
Proof. exact sky_errors. Qed.
Print Assumptions C37_errors.
Example C37_example : exists m, mask_skylines_2D (fin2 2 3 one2) (fin2 2 3 sky_err) (fin2 2 3 one2) (Fin 2) true (Some (Fin 1)) = Ok (m, [1]%nat, [0;2]%nat).
Proof. exact sky_example. Qed.

(* ---------------- C38 ---------------- *)

(** Rows left unmasked reach the cut. *)
Theorem C38_kept_good : forall snr cut i, (i < length snr)%nat -> ~ In i (low_snr_rows snr cut) -> good snr cut i.
Proof. exact kept_good. Qed.
Print Assumptions C38_kept_good.
(** The reported rows are sorted, distinct and rows of the image. *)
Theorem C38_sorted : forall snr cut,
  ascending (low_snr_rows snr cut) /\ forall i, In i (low_snr_rows snr cut) -> (i < length snr)%nat.
Proof. exact low_rows_sorted. Qed.
Print Assumptions C38_sorted.
(** The mask zeroes exactly the reported rows. *)
Theorem C38_mask : forall flux err mask mc cut m low, mask_low_snr_rows_2D flux err mask mc cut = Ok (m, low) ->
  low = low_snr_rows (row_snr flux err mc) cut /\ rows m = rows mask /\ cols m = cols mask /\
  (forall i, In i low -> (i < rows mask)%nat) /\
  forall i j, (In i low -> at2 m i j = Fin 0) /\ (~ In i low -> at2 m i j = at2 mask i j).
Proof. exact mask_rows_spec. Qed.
Print Assumptions C38_mask.
(** Images of matching shapes never fail. *)
Theorem C38_total : forall flux err mask mc cut, shape_eqb flux mc = true -> shape_eqb err mc = true -> rows mask = rows flux ->
  exists m low, mask_low_snr_rows_2D flux err mask mc cut = Ok (m, low).
Proof. exact mask_rows_ok. Qed.
Print Assumptions C38_total.
(** The signal-to-noise of a row: |sum of the flux| over the quadratic sum of the errors, both over the pixels of
    the mask; infinite if only the error vanishes, NaN if both do. *)
Theorem C38_row_snr : forall n p f e w i, (i < n)%nat ->
  let S := rsumn p (fun j => f i j * w i j) in
  let V := rsumn p (fun j => (e i j * w i j) * (e i j * w i j)) in
  nth i (row_snr (fin2 n p f) (fin2 n p e) (fin2 n p w)) (Fin 0) =
  if Req_EM_T V 0 then (if Req_EM_T S 0 then NaN else PInf) else Fin (Rabs S / sqrt V).
Proof. exact row_snr_value. Qed.
Print Assumptions C38_row_snr.
(** So a row left unmasked reaches the cut in terms of the images. *)
Theorem C38_kept_images : forall n p f e w mask cut m low i, (i < n)%nat ->
  mask_low_snr_rows_2D (fin2 n p f) (fin2 n p e) mask (fin2 n p w) (Fin cut) = Ok (m, low) -> ~ In i low ->
  let S := rsumn p (fun j => f i j * w i j) in
  let V := rsumn p (fun j => (e i j * w i j) * (e i j * w i j)) in
  if Req_EM_T V 0 then S <> 0 else cut <= Rabs S / sqrt V.
Proof. exact kept_row_images. Qed.
Print Assumptions C38_kept_images.
(** A kept row lies in three consecutive good rows, unless the good rows form a single block. *)
Theorem C38_kept_runs : forall snr cut i, (i < length snr)%nat -> ~ In i (low_snr_rows snr cut) ->
  in_triple (good snr cut) i \/
  (forall j k l, good snr cut j -> good snr cut l -> (j <= k <= l)%nat -> good snr cut k).
Proof. exact kept_runs. Qed.
Print Assumptions C38_kept_runs.
(** A row inside three consecutive good rows is masked only together with everything between it
    and the image edge, up to a masked row of that half. *)
Theorem C38_masked_runs : forall snr cut i, In i (low_snr_rows snr cut) -> in_triple (good snr cut) i ->
  (exists j, i < j /\ 2 * j < length snr /\ forall k, k <= j -> In k (low_snr_rows snr cut))%nat \/
  (exists j, j < i /\ length snr < 2 * j /\ forall k, j <= k < length snr -> In k (low_snr_rows snr cut))%nat.
Proof. exact masked_triple. Qed.
Print Assumptions C38_masked_runs.
(** The unmasked rows need not be contiguous. *)
Theorem C38_contiguous_refuted : ~ In 6%nat (low_snr_rows (snr_of rows15) (Fin 2)) /\
  In 7%nat (low_snr_rows (snr_of rows15) (Fin 2)) /\ ~ In 8%nat (low_snr_rows (snr_of rows15) (Fin 2)).
Proof. exact rows15_not_contiguous. Qed.
Print Assumptions C38_contiguous_refuted.
Example C38_example : low_snr_rows (snr_of [false;true;true;false;true;true;true;false]) (Fin 2) = [0;1;2;3;7]%nat.
Proof. exact rows_short. Qed.

(* ---------------- C39 ---------------- *)

(** 'up_edges' with a positive cut and the low rows of the same data: proper weights, inversely
    proportional to the signal-to-noise of the kept rows. *)
Theorem C39_up_edges : forall flux err ms cut f3, fltb (Fin 0) cut = true ->
  let snr := row_snr flux err ms in let low := low_snr_rows snr cut in
  exists prof M, fit_weights UpEdges flux err ms low f3 = Ok (prof, M) /\
    weights_good (rows flux) (cols flux) low prof M /\
    exists k, forall i, (i < rows flux)%nat -> ~ In i low ->
      exists s, (nth i snr NaN = Fin s /\ 0 < s /\ nth i prof NaN = Fin (k / s)) \/
                (nth i snr NaN = PInf /\ nth i prof NaN = Fin 0).
Proof. exact weights_up_edges. Qed.
Print Assumptions C39_up_edges.
(** 'optimal' for any finite fitted amplitude and centre and positive fitted width. *)
Theorem C39_optimal : forall flux err ms low A mu sigma, 0 < sigma -> (forall i, In i low -> (i < rows flux)%nat) ->
  exists prof M, fit_weights Optimal flux err ms low (Fin A, Fin mu, Fin sigma) = Ok (prof, M) /\
    weights_good (rows flux) (cols flux) low prof M.
Proof. exact weights_optimal. Qed.
Print Assumptions C39_optimal.
(** No weighting: equal weights on all rows, masked rows included. *)
Theorem C39_none : forall flux err ms low f3, (1 <= rows flux)%nat ->
  exists prof M, fit_weights NoWeighting flux err ms low f3 = Ok (prof, M) /\
    weights_good (rows flux) (cols flux) [] prof M /\
    forall i, (i < rows flux)%nat -> nth i prof NaN = Fin (1 / INR (rows flux)).
Proof. exact weights_none. Qed.
Print Assumptions C39_none.
Theorem C39_none_refuted : exists flux err ms low f3 prof M, fit_weights NoWeighting flux err ms low f3 = Ok (prof, M) /\
  exists i, (i < rows flux)%nat /\ In i low /\ nth i prof NaN = Fin (1/3).
Proof. exact none_refuted. Qed.
Print Assumptions C39_none_refuted.
(** Any other weighting type is an error. *)
Theorem C39_unknown : forall flux err ms low f3, fit_weights OtherWeighting flux err ms low f3 = Err UnboundLocalError.
Proof. exact weights_unknown. Qed.
Print Assumptions C39_unknown.
(** With a cut below zero a row of zero signal is kept and its weight is NaN. *)
Theorem C39_nan_refuted : exists flux err ms cut f3,
  let low := low_snr_rows (row_snr flux err ms) cut in
  fltb cut (Fin 0) = true /\ exists prof M, fit_weights UpEdges flux err ms low f3 = Ok (prof, M) /\
  exists i, (i < rows flux)%nat /\ ~ In i low /\ nth i prof NaN = NaN.
Proof. exact nan_weight_refuted. Qed.
Print Assumptions C39_nan_refuted.
Example C39_example : low_snr_rows (row_snr w_flux w_err w_err) (Fin 1) = [0%nat] /\
  exists M, fit_weights UpEdges w_flux w_err w_err [0%nat] (NaN, NaN, NaN) = Ok ([Fin 0; Fin (2/3); Fin (1/3)], M).
Proof. exact (conj w_low w_example). Qed.
