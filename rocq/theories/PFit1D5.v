(* Proofs about the 1-D line fits: instrument correction, line tables, set-up. *)
From Coq Require Import String Ascii Reals List Bool Arith ZArith Lia Lra Psatz.
From Verif Require Import PyFloat PyBase Arr PyNum MKernels MIo MAper1D MPost MMask MTrim MFit1D SKernels SMask STrim SPost SFit1D
  PKernels PKernels2 PMask PTrim PAper1D PPost PPrep4 PFit1D PFit1D2 PFit1D3 PFit1D4.
Import ListNotations.
Local Open Scope R_scope.

Definition corr_of (v i : fl) : fl := if fgtb (fabs v) (fabs i) then fsqrt (fsub (fsq v) (fsq i)) else Fin 0.

Lemma corr_of_Fin v i : corr_of (Fin v) (Fin i) = Fin (if Rlt_dec (Rabs i) (Rabs v) then sqrt (v * v - i * i) else 0).
Proof.
  unfold corr_of, fgtb. cbn [fabs fltb]. destruct (Rltb (Rabs i) (Rabs v)) eqn:E.
  - apply Rltb_true in E. unfold fsub, fsq. cbn [fmul fneg fadd fsqrt].
    assert (i * i < v * v) by (apply Rsqr_lt_abs_1 in E; exact E).
    rewrite (proj2 (Rltb_false _ _)) by lra. destruct (Rlt_dec _ _); [reflexivity|contradiction].
  - apply Rltb_false in E. destruct (Rlt_dec _ _); [lra|reflexivity].
Qed.

Lemma inst_corr_ok c ef s i v : t_inst c = Some (Fin i) -> f_vd s = Fin v ->
  exists s' k, inst_corr c true ef s = (s', Ok tt) /\ same_fit s s' /\ f_corr s' = Some (Fin k) /\
    f_corr_err s' = Some (Fin 0, Fin 0) /\ 0 <= k <= Rabs v /\
    (Rabs i < Rabs v -> k * k + i * i = v * v) /\ (Rabs v <= Rabs i -> k = 0).
Proof.
  intros Ei Ev. unfold inst_corr. rewrite Ei, bind_get. cbv zeta. fold (corr_of (f_vd s) (Fin i)).
  rewrite Ev, corr_of_Fin, bind_mod. set (k := if Rlt_dec _ _ then _ else _).
  eexists. exists k. split; [reflexivity|]. split; [repeat split; reflexivity|].
  split; [reflexivity|]. split; [reflexivity|]. unfold k. destruct (Rlt_dec (Rabs i) (Rabs v)) as [L|L].
  - assert (i * i < v * v) by (apply Rsqr_lt_abs_1 in L; exact L).
    assert (S : sqrt (v * v - i * i) * sqrt (v * v - i * i) = v * v - i * i) by (apply sqrt_sqrt; lra).
    pose proof (sqrt_pos (v * v - i * i)). split; [|split; [intros; lra|lra]]. split; [assumption|].
    apply Rsqr_incr_0; [|assumption|apply Rabs_pos]. unfold Rsqr. rewrite <- Rabs_mult. rewrite Rabs_right by nra. nra.
  - split; [|split; [contradiction|reflexivity]]. split; [lra|apply Rabs_pos].
Qed.

Lemma inst_corr_monotone c ef s1 s2 s1' s2' i v1 v2 k1 k2 : t_inst c = Some (Fin i) -> f_vd s1 = Fin v1 -> f_vd s2 = Fin v2 ->
  Rabs v1 <= Rabs v2 -> inst_corr c true ef s1 = (s1', Ok tt) -> inst_corr c true ef s2 = (s2', Ok tt) ->
  f_corr s1' = Some (Fin k1) -> f_corr s2' = Some (Fin k2) -> k1 <= k2.
Proof.
  intros Ei E1 E2 L R1 R2 K1 K2.
  destruct (inst_corr_ok c ef s1 i v1 Ei E1) as (t1 & a & Q1 & _ & A & _ & (A0 & A1) & A2 & A3).
  destruct (inst_corr_ok c ef s2 i v2 Ei E2) as (t2 & b & Q2 & _ & B & _ & (B0 & B1) & B2 & B3).
  rewrite R1 in Q1. inversion Q1; subst t1. rewrite R2 in Q2. inversion Q2; subst t2.
  assert (a = k1) by congruence. assert (b = k2) by congruence. subst a b.
  destruct (Rle_lt_dec (Rabs v1) (Rabs i)) as [C|C]; [rewrite (A3 C); exact B0|].
  specialize (A2 C). assert (C2 : Rabs i < Rabs v2) by lra. specialize (B2 C2).
  apply Rsqr_incr_0; [|assumption|assumption]. unfold Rsqr.
  assert (v1 * v1 <= v2 * v2) by (apply Rsqr_le_abs_1 in L; exact L). lra.
Qed.

Lemma inst_corr_unset c ne ef s : t_inst c = None -> inst_corr c ne ef s = (s, Ok tt).
Proof. intros E. unfold inst_corr. rewrite E. reflexivity. Qed.

Lemma inst_corr_errors_fail c ef s s' i : t_inst c = Some i -> t_sres c = None ->
  inst_corr c false ef s <> (s', Ok tt).
Proof.
  intros Ei Es H. unfold inst_corr in H. rewrite Ei, bind_get in H. cbv zeta in H. rewrite bind_mod in H.
  apply bind_inv in H. destruct H as (s1 & u & _ & H). apply bind_inv in H. destruct H as (s2 & m & _ & H).
  apply bind_inv in H. destruct H as (s3 & u2 & _ & H). apply bind_inv in H. destruct H as (s4 & i' & A & _).
  apply lift_inv in A. rewrite Es in A. destruct A as [_ A]. discriminate.
Qed.

Lemma inst_corr_attribute c s i v m : t_inst c = Some (Fin i) -> t_sres c = None -> f_vd s = Fin v ->
  f_file s = Some m -> (2 <= cols m)%nat ->
  exists s' k, inst_corr c false true s = (s', Err AttributeError) /\ f_corr s' = Some k /\ f_corr_err s' = f_corr_err s.
Proof.
  intros Ei Es Ev Ef Hc. unfold inst_corr. rewrite Ei, bind_get. cbv zeta. rewrite bind_mod, bind_ret.
  rewrite (bind_ok _ _ _ (set_corr (Some (corr_of (f_vd s) (Fin i))) s) m).
  2:{ unfold load_mc. rewrite bind_get. cbn [f_file set_corr]. rewrite Ef. reflexivity. }
  rewrite (proj2 (Nat.ltb_lt 1 (cols m))) by lia. rewrite bind_ret.
  rewrite (bind_err _ _ _ (set_corr (Some (corr_of (f_vd s) (Fin i))) s) AttributeError) by (rewrite Es; reflexivity).
  eexists. eexists. split; [reflexivity|]. split; reflexivity.
Qed.

Lemma corrected_sample i x : scrub (fsqrt (fsub (fsq (Fin x)) (fsq (Fin i)))) = Fin (corrected i x).
Proof.
  unfold fsub, fsq, corrected. cbn [fmul fneg fadd fsqrt]. destruct (Rle_dec (i * i) (x * x)) as [L|L].
  - rewrite (proj2 (Rltb_false _ _)) by lra. reflexivity.
  - rewrite (proj2 (Rltb_true _ _)) by lra. reflexivity.
Qed.

Lemma inst_corr_errors c s i i' v m : t_inst c = Some (Fin i) -> t_sres c = Some (Fin i') -> f_vd s = Fin v ->
  f_file s = Some m -> (2 <= cols m)%nat -> (0 < rows m)%nat -> col m 1 = map Fin (rcol m 1) ->
  exists s' k lo hi, inst_corr c false true s = (s', Ok tt) /\ same_fit s s' /\ f_corr s' = Some (Fin k) /\
    quantile (15865 / 100000) (map (corrected i') (rcol m 1)) lo /\
    quantile (84135 / 100000) (map (corrected i') (rcol m 1)) hi /\
    f_corr_err s' = Some (Fin (k - lo), Fin (hi - k)).
Proof.
  intros Ei Es Ev Ef Hc Hr Hm. unfold inst_corr. rewrite Ei, bind_get. cbv zeta. fold (corr_of (f_vd s) (Fin i)).
  rewrite Ev, corr_of_Fin. set (k := if Rlt_dec _ _ then _ else _). rewrite bind_mod, bind_ret.
  rewrite (bind_ok _ _ _ (set_corr (Some (Fin k)) s) m).
  2:{ unfold load_mc. rewrite bind_get. cbn [f_file set_corr]. rewrite Ef. reflexivity. }
  rewrite (proj2 (Nat.ltb_lt 1 (cols m))) by lia. rewrite bind_ret.
  rewrite (bind_lift _ (Fin i')) by (rewrite Es; reflexivity).
  rewrite Hm, !map_map.
  rewrite (map_ext _ (fun x => Fin (corrected i' x))) by (intros x; apply (corrected_sample i' x)).
  rewrite <- (map_map (corrected i') Fin). set (l := map (corrected i') (rcol m 1)).
  assert (N : l <> []).
  { unfold l, rcol. destruct (rows m); [lia|]. discriminate. }
  rewrite map_length. replace (Nat.eqb (length l) 0) with false.
  2:{ symmetry. apply Nat.eqb_neq. destruct l; [congruence|discriminate]. }
  rewrite bind_ret.
  destruct (percentile_Fin (15865 / 1000) l N) as (lo & P1 & Q1); [lra|].
  destruct (percentile_Fin (84135 / 1000) l N) as (hi & P2 & Q2); [lra|].
  rewrite P1, P2. cbn [fadd]. rewrite fdiv_Fin by lra. cbn [isfinite]. rewrite bind_ret.
  eexists. exists k, lo, hi. split; [reflexivity|]. split; [repeat split; reflexivity|]. split; [reflexivity|].
  split; [replace (15865 / 100000) with (15865 / 1000 / 100) by lra; exact Q1|].
  split; [replace (84135 / 100000) with (84135 / 1000 / 100) by lra; exact Q2|]. reflexivity.
Qed.

(** Tables. *)
Lemma lookup_ok {A} (t : list (string * A)) k a : lookup t k = Ok a <-> first_row t k a.
Proof.
  induction t as [|[k' b] t IH]; cbn [lookup].
  - split; [discriminate|]. intros (pre & post & E & _). destruct pre; discriminate.
  - destruct (String.eqb_spec k' k) as [->|N].
    + split.
      * intros E. inversion E; subst. exists [], t. split; [reflexivity|auto].
      * intros (pre & post & E & NI). destruct pre as [|[k2 a2] pre]; [inversion E; reflexivity|].
        inversion E; subst. elim NI. left. reflexivity.
    + rewrite IH. split.
      * intros (pre & post & E & NI). exists ((k', b) :: pre), post. split; [rewrite E; reflexivity|].
        intros [X|X]; [apply N, X|apply NI, X].
      * intros (pre & post & E & NI). destruct pre as [|[k2 a2] pre]; inversion E; subst; [congruence|].
        exists pre, post. split; [reflexivity|]. intros X. apply NI. right. exact X.
Qed.

Lemma lookup_err {A} (t : list (string * A)) k e : lookup t k = Err e <-> e = ValueError /\ ~ In k (map fst t).
Proof.
  induction t as [|[k' b] t IH]; cbn [lookup map fst].
  - split; [intros E; inversion E; auto|]. intros [-> _]. reflexivity.
  - destruct (String.eqb_spec k' k) as [->|N].
    + split; [discriminate|]. intros [_ X]. elim X. left. reflexivity.
    + rewrite IH. cbn [In]. tauto.
Qed.

Lemma split_ne s : split_comma s <> [].
Proof.
  destruct s as [|c s]; cbn; [discriminate|]. destruct (Ascii.eqb c ","); [discriminate|].
  destruct (split_comma s); discriminate.
Qed.

Lemma split_comma_spec s : joined (split_comma s) = s /\ Forall no_comma (split_comma s).
Proof.
  induction s as [|c s [IH F]]; [split; [reflexivity|repeat constructor]|]. cbn [split_comma].
  destruct (Ascii.eqb_spec c ",") as [->|N].
  - split; [|constructor; [exact I|exact F]]. unfold joined in *. pose proof (split_ne s) as Ne.
    destruct (split_comma s) as [|w ws]; [congruence|]. cbn [String.concat] in *. cbn [String.append]. f_equal. exact IH.
  - pose proof (split_ne s) as Ne. destruct (split_comma s) as [|w ws]; [congruence|].
    inversion F; subst. split.
    + unfold joined in *. cbn [String.concat] in *. destruct ws as [|w2 ws]; cbn [String.append]; reflexivity.
    + constructor; [split; assumption|assumption].
Qed.

Lemma shipped_lines name : In name (map fst (b_names shipped)) ->
  exists ls, line_set shipped name = Ok ls /\ ls <> [] /\
    (forall w r, In (w, r) ls -> 0 < w /\ 0 < r <= 1) /\ exists w, In (w, 1) ls /\ forall w' r, In (w', r) ls -> w' <> w -> r < 1.
Proof.
  intros H. cbn in H. repeat (destruct H as [<- | H]); [..|contradiction].
  all: (eexists; split; [lazy beta iota zeta delta -[Rdiv IZR]; reflexivity|]; split; [discriminate|]).
  all: split; [intros w r I; cbn [In] in I; repeat (destruct I as [I|I]; [inversion I; subst; lra|]); contradiction|].
  - exists (656460 / 100). split; [left; reflexivity|]. intros w' r [I|[]] N. inversion I. lra.
  - exists (486271 / 100). split; [left; reflexivity|]. intros w' r [I|[]] N. inversion I. lra.
  - exists (500824 / 100). split; [left; reflexivity|]. intros w' r [I|[I|[]]] N; inversion I; lra.
  - exists (658527 / 100). split; [right; left; reflexivity|]. intros w' r [I|[I|[]]] N; inversion I; lra.
  - exists (6732673 / 1000). split; [left; reflexivity|]. intros w' r [I|[I|[]]] N; inversion I; lra.
  - exists (372710 / 100). split; [left; reflexivity|]. intros w' r [I|[I|[]]] N; inversion I; lra.
Qed.

Lemma shipped_windows l : In l (map fst (b_line shipped)) ->
  exists w line mask full, read_restwave (b_lines shipped) l = Ok w /\ lookup (b_line shipped) l = Ok line /\
    lookup (b_mask shipped) l = Ok mask /\ lookup (b_full shipped) l = Ok full /\
    in_window line w /\ inside_window line mask /\ inside_window mask full.
Proof.
  intros H. cbn in H. repeat (destruct H as [<- | H]); [..|contradiction].
  all: do 4 eexists; do 4 (split; [lazy beta iota zeta delta -[Rdiv IZR]; reflexivity|]).
  all: unfold in_window, inside_window; cbn [fst snd]; lra.
Qed.

(** Companion lines are inside the window in which lines are masked out of the continuum. *)
Lemma shipped_mask_companions : forall name l ls,
  In (name, l) [("OIII", "OIII5008"); ("NII", "HA6565")]%string -> line_set shipped name = Ok ls ->
  exists mask, lookup (b_mask shipped) l = Ok mask /\ forall w r, In (w, r) ls -> in_window mask w.
Proof.
  intros name l ls H E. cbn in H. repeat (destruct H as [H | H]; [inversion H; subst; clear H|]); [..|contradiction].
  all: lazy beta iota zeta delta -[Rdiv IZR] in E; inversion E; subst; clear E.
  all: eexists; split; [lazy beta iota zeta delta -[Rdiv IZR]; reflexivity|].
  all: intros w r I; cbn [In] in I; repeat (destruct I as [I|I]; [inversion I; subst; unfold in_window; cbn [fst snd]; lra|]); contradiction.
Qed.

Lemma shipped_trim name : In name ["Halpha"; "Hbeta"; "OIII"]%string ->
  exists ls win, line_set shipped name = Ok ls /\ lookup (b_trim1 shipped) name = Ok win /\
    forall w r, In (w, r) ls -> fst win < w < snd win.
Proof.
  intros H. cbn in H. repeat (destruct H as [<- | H]); [..|contradiction].
  all: do 2 eexists; do 2 (split; [lazy beta iota zeta delta -[Rdiv IZR]; reflexivity|]).
  all: intros w r I; cbn [In] in I; repeat (destruct I as [I|I]; [inversion I; subst; cbn [fst snd]; lra|]); contradiction.
Qed.

Lemma shipped_no_trim name : In name ["NII"; "SII"; "OII"]%string ->
  In name (map fst (b_names shipped)) /\ read_wave_range (b_trim1 shipped) name = Err ValueError.
Proof.
  intros H. cbn in H. repeat (destruct H as [<- | H]); [..|contradiction].
  all: split; [cbn; tauto|reflexivity].
Qed.

Lemma shipped_sky band : (In band ["Y"; "J"; "H"; "K"]%string /\
    exists x, read_skyline_band_cutoff (b_sky shipped) band = Ok (Fin x, "timesMedianErr"%string) /\ 2 <= x <= 3) \/
  (~ In band ["Y"; "J"; "H"; "K"]%string /\ read_skyline_band_cutoff (b_sky shipped) band = Err ValueError).
Proof.
  destruct (in_dec string_dec band ["Y"; "J"; "H"; "K"]%string) as [I|I].
  - left. split; [exact I|]. cbn in I. repeat (destruct I as [<- | I]); [..|contradiction].
    all: eexists; (split; [lazy beta iota zeta delta -[Rdiv IZR]; reflexivity|lra]).
  - right. split; [exact I|]. unfold read_skyline_band_cutoff.
    rewrite (proj2 (lookup_err (b_sky shipped) band ValueError)); [reflexivity|]. split; [reflexivity|].
    intros J. apply I. cbn in J. cbn. tauto.
Qed.

(** Line set-up. *)
Lemma ragged_ok {A} strict (l : list (list A)) : ragged strict l =
  if strict && negb (forallb (fun b => Nat.eqb (length b) (length (hd [] l))) l) then Err ValueError else Ok l.
Proof.
  destruct l as [|a l]; cbn [ragged forallb hd]; [destruct strict; reflexivity|]. rewrite Nat.eqb_refl. reflexivity.
Qed.

Lemma set_attr1_ok T strict names ls ws :
  Forall2 (fun n l => read_line_names (b_names T) n = Ok l) names ls ->
  Forall2 (Forall2 (fun l w => read_restwave (b_lines T) l = Ok w)) ls ws ->
  (strict = false \/ exists k, Forall (fun l => length l = k) ls) ->
  set_attr1 T strict true names None None = Ok (ls, ws).
Proof.
  intros A B C. unfold set_attr1. cbn [negb]. rewrite (proj2 (mapM_ok _ _ _) A). cbn [bind].
  assert (E : mapM (mapM (read_restwave (b_lines T))) ls = Ok ws).
  { apply mapM_ok. clear -B. induction B; constructor; auto. apply mapM_ok. assumption. }
  rewrite E. cbn [bind]. rewrite ragged_ok.
  replace (strict && negb (forallb (fun b => Nat.eqb (length b) (length (hd [] ws))) ws)) with false; [reflexivity|].
  destruct C as [->|[k F]]; [reflexivity|].
  assert (Fw : Forall (fun w => length w = k) ws).
  { clear -B F. induction B as [|l w ls ws H B IH]; constructor.
    - inversion F; subst. clear -H. induction H; cbn; congruence.
    - apply IH. inversion F; assumption. }
  replace (forallb _ ws) with true; [rewrite andb_false_r; reflexivity|]. symmetry. apply forallb_forall.
  intros w I. apply Nat.eqb_eq. rewrite Forall_forall in Fw. rewrite (Fw w I).
  destruct ws as [|w0 ws]; [destruct I|]. cbn [hd]. symmetry. apply Fw. left. reflexivity.
Qed.

Lemma set_attr1_ragged T names ls ws :
  Forall2 (fun n l => read_line_names (b_names T) n = Ok l) names ls ->
  Forall2 (Forall2 (fun l w => read_restwave (b_lines T) l = Ok w)) ls ws ->
  (exists a b, In a ls /\ In b ls /\ length a <> length b) ->
  set_attr1 T true true names None None = Err ValueError.
Proof.
  intros A B (a & b & Ia & Ib & N). unfold set_attr1. cbn [negb]. rewrite (proj2 (mapM_ok _ _ _) A). cbn [bind].
  assert (E : mapM (mapM (read_restwave (b_lines T))) ls = Ok ws).
  { apply mapM_ok. clear -B. induction B; constructor; auto. apply mapM_ok. assumption. }
  rewrite E. cbn [bind]. rewrite ragged_ok. cbn [andb].
  destruct (forallb (fun b0 => Nat.eqb (length b0) (length (hd [] ws))) ws) eqn:F; [|reflexivity].
  exfalso. rewrite forallb_forall in F. apply N.
  assert (G : forall l, In l ls -> length l = length (hd [] ws)).
  { intros l I. assert (X : exists w, In w ws /\ length w = length l).
    { clear -B I. induction B as [|l0 w ls ws H B IH]; [destruct I|]. destruct I as [->|I].
      - exists w. split; [left; reflexivity|]. clear -H. induction H; cbn; congruence.
      - destruct (IH I) as (w' & Iw & L). exists w'. split; [right; exact Iw|exact L]. }
    destruct X as (w & Iw & <-). apply Nat.eqb_eq, F, Iw. }
  rewrite (G a Ia), (G b Ib). reflexivity.
Qed.

Lemma set_attr1_stale T strict names names' ls ws :
  set_attr1 T strict true names' (Some ls) (Some ws) = set_attr1 T strict true names (Some ls) (Some ws) /\
  set_attr1 T strict true names' (Some ls) (Some ws) = Ok (ls, ws).
Proof. split; reflexivity. Qed.

(** Spectrum set-up. *)
Lemma set_slice_entry {A} (l : list A) a b v j x : nth_error l j = Some x ->
  nth_error (set_slice l a b v) j = Some x \/ nth_error (set_slice l a b v) j = Some v.
Proof.
  intros E. unfold set_slice. rewrite mapi_nth, E. cbn [option_map].
  match goal with |- context [if ?c then _ else _] => destruct c end; auto.
Qed.

Lemma edges_entry n m k j a : nth_error m j = Some a ->
  nth_error (mask_edges_1D n m k) j = Some a \/ nth_error (mask_edges_1D n m k) j = Some (Fin 0).
Proof.
  intros E. unfold mask_edges_1D. destruct (where_ _ m) as [|l0 rest]; [auto|]. cbv zeta.
  set (m1 := if (0 <? Z.of_nat l0)%Z then _ else _).
  assert (X : nth_error m1 j = Some a \/ nth_error m1 j = Some (Fin 0)).
  { unfold m1. destruct (0 <? Z.of_nat l0)%Z; [apply set_slice_entry, E|auto]. }
  clearbody m1. destruct (_ <? _)%Z; [|exact X]. destruct X as [X|X].
  - apply set_slice_entry, X.
  - right. destruct (set_slice_entry m1 (Z.of_nat (last rest l0) - k - 1) (Z.of_nat (last rest l0) + 1) (Fin 0) j (Fin 0) X); assumption.
Qed.

Lemma setup_ok T s wave flux err mask v range file names l lo hi ks :
  arrays1 s wave flux err mask -> nth_error names 0 = Some l ->
  match range with
  | Some r => r = (lo, hi)
  | None => read_wave_range (match file with Some t => t | None => b_trim1 T end) l = Ok (lo, hi)
  end ->
  kept (fmul lo (fadd (Fin 1) v), fmul hi (fadd (Fin 1) v)) wave ks -> ks <> [] ->
  exists s' wave' flux' err' mask', setup_spectrum T s (ZNp v) range file names = Ok s' /\
    picked1 ks wave wave' /\ picked1 ks flux flux' /\ picked1 ks err err' /\
    arrays1 s' wave' flux' err' mask' /\ s_trimr s' = Some (lo, hi) /\
    (forall j k, nth_error ks j = Some k -> nth_error mask' j = nth_error mask k \/ nth_error mask' j = Some (Fin 0)) /\
    (used mask (hd 0%nat ks) -> used mask (last ks 0%nat) -> picked1 ks mask mask').
Proof.
  intros A En R K N. unfold setup_spectrum.
  replace (getn names 0) with (@Ok string l) by (symmetry; apply getn_ok; exact En). cbn [bind].
  set (f := read_wave_range _ l) in *.
  assert (E : trim_1D (Some s) (ZNp v) range None f = trim_1D (Some s) (ZNp v) (Some (lo, hi)) None f).
  { destruct range as [r|]; [subst; reflexivity|]. unfold trim_1D. rewrite R. reflexivity. }
  rewrite E. assert (Lm : length mask = length wave) by apply A.
  destruct (trim_1D_ok s wave flux err mask (ZNp v) v (Some (lo, hi)) None
     (fmul lo (fadd (Fin 1) v), fmul hi (fadd (Fin 1) v)) f ks A) as
    (s' & w & fx & e & m & T1 & (W & O & F & Er & M & L1 & L2 & L3) & P1 & P2 & P3 & P4 & Rs & To & Tr & Pf);
    [left; reflexivity|constructor|exact K|exact N|].
  rewrite T1. cbn [bind need]. rewrite M. cbn [bind]. rewrite F. cbn [need bind].
  eexists. exists w, fx, e, (mask_edges_1D (length fx) m 10). split; [reflexivity|].
  split; [exact P1|]. split; [exact P2|]. split; [exact P3|].
  split. { unfold arrays1. cbn [s_wave s_obs s_flux s_err s_mask]. rewrite mask_edges_length. repeat split; auto. }
  split; [exact Tr|]. unfold picked1 in P4.
  assert (Nm : forall j k, nth_error ks j = Some k -> nth_error m j = nth_error mask k).
  { intros j k Hk. assert (Ik : In k ks) by (eapply nth_error_In, Hk). pose proof (kept_bound _ _ _ k K Ik).
    rewrite P4, nth_error_map, Hk. cbn [option_map]. symmetry. apply nth_error_nth'. lia. }
  assert (Hm : length m = length ks) by (rewrite P4; apply map_length).
  split.
  - intros j k Hk. rewrite <- (Nm j k Hk).
    assert (Hj : (j < length m)%nat) by (rewrite Hm; apply nth_error_Some; rewrite Hk; discriminate).
    destruct (nth_error m j) as [a|] eqn:Ea; [|apply nth_error_None in Ea; lia].
    apply edges_entry. exact Ea.
  - intros U1 U2. unfold picked1. rewrite <- P4. unfold mask_edges_1D.
    assert (H0 : nth_error m 0 = Some (Fin 1)).
    { destruct ks as [|k0 ks']; [congruence|]. cbn [hd] in U1. rewrite (Nm 0%nat k0 eq_refl). exact U1. }
    assert (Hl : nth_error m (length m - 1) = Some (Fin 1)).
    { assert (X : nth_error ks (length ks - 1) = Some (last ks 0%nat)).
      { clear -N. rewrite (app_removelast_last 0%nat N) at 1 2. rewrite app_length. cbn [length].
        rewrite nth_error_app2 by lia. replace (_ - _)%nat with 0%nat by lia. reflexivity. }
      rewrite Hm. rewrite (Nm _ _ X). exact U2. }
    pose proof (good_inds_used m) as [As In']. unfold good_inds in *.
    destruct (where_ (fun v => feqb v (Fin 1)) m) as [|a rest] eqn:Ew; [reflexivity|].
    assert (a = 0%nat).
    { assert (I0 : In 0%nat (a :: rest)) by (apply In'; exact H0). destruct I0 as [->|I0]; [reflexivity|].
      inversion As; subst. rewrite Forall_forall in H3. specialize (H3 _ I0). lia. }
    subst a. cbn [Z.of_nat]. cbv zeta. cbn [Z.ltb Z.compare].
    assert (La : (last rest 0 = length m - 1)%nat).
    { assert (Il : In (length m - 1)%nat (0%nat :: rest)) by (apply In'; exact Hl).
      assert (B : (last rest 0 < length m)%nat).
      { apply used_bound. apply In'. destruct rest as [|b rest]; [left; reflexivity|]. right.
        rewrite (app_removelast_last (l := b :: rest) 0%nat) at 2 by discriminate. apply in_or_app. right. left. reflexivity. }
      assert (G : forall x, In x (0%nat :: rest) -> (x <= last rest 0)%nat).
      { clear -As. revert As. generalize 0%nat as d. induction rest as [|b rest IH]; intros d As x I.
        - destruct I as [<-|[]]. cbn. lia.
        - inversion As; subst. assert (Y : last (b :: rest) d = last rest b).
          { clear. revert b d. induction rest as [|c rest IH]; intros; [reflexivity|]. change (last (b :: c :: rest) d) with (last (c :: rest) d). rewrite (IH c d). destruct rest; [reflexivity|]. rewrite <- (IH c b). reflexivity. }
          rewrite Y. destruct I as [<-|I].
          + rewrite Forall_forall in H2. specialize (H2 b (or_introl eq_refl)). specialize (IH b H1 b (or_introl eq_refl)). lia.
          + apply (IH b H1 x I). }
      specialize (G _ Il). lia. }
    rewrite La. replace (Z.of_nat (length m - 1) <? Z.of_nat (length fx) - 1)%Z with false; [reflexivity|].
    symmetry. apply Z.ltb_ge. destruct A as (_ & _ & _ & _ & _ & _). lia.
Qed.

Lemma setup_unlisted T s z file names l : nth_error names 0 = Some l -> z <> ZNone ->
  ~ In l (map fst (match file with Some t => t | None => b_trim1 T end)) ->
  setup_spectrum T s z None file names = Err ValueError.
Proof.
  intros En Z N. unfold setup_spectrum.
  replace (getn names 0) with (@Ok string l) by (symmetry; apply getn_ok; exact En). cbn [bind].
  unfold read_wave_range. rewrite (proj2 (lookup_err _ l ValueError)) by auto. cbn [bind].
  destruct z; [congruence|reflexivity|reflexivity].
Qed.

Lemma setup_plain_float T s v range file names l : nth_error names 0 = Some l ->
  (range <> None \/ In l (map fst (match file with Some t => t | None => b_trim1 T end))) ->
  setup_spectrum T s (ZPy v) range file names = Err AttributeError.
Proof.
  intros En H. unfold setup_spectrum.
  replace (getn names 0) with (@Ok string l) by (symmetry; apply getn_ok; exact En). cbn [bind].
  rewrite trim_1D_py; [reflexivity|]. destruct H as [H|H]; [left; exact H|right].
  unfold read_wave_range. set (t := match file with Some t => t | None => b_trim1 T end) in *.
  destruct (lookup t l) as [a|e] eqn:E; [reflexivity|]. apply lookup_err in E. destruct E as [_ E]. contradiction.
Qed.
