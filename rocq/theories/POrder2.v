(* Proofs: orders of the samples of walkers, and concrete cases. *)
From Coq Require Import String Reals List Bool Arith ZArith Lia Lra Permutation.
From Verif Require Import PyFloat PyBase Arr PyNum MParams MProf MPost SParams SPost SOrder PPost PPost2 PPost3 PPostEx PMirror POrder PUnitsPost PUnitsPost2.
Import ListNotations.
Local Open Scope R_scope.

Lemma rearranges_inj n s : (forall i, (i < n)%nat -> (s i < n)%nat) -> (forall i j, (i < n)%nat -> (j < n)%nat -> s i = s j -> i = j) -> rearranges n s.
Proof.
  intros B I. unfold rearranges. apply NoDup_Permutation_bis.
  - assert (G : forall l, NoDup l -> (forall i, In i l -> (i < n)%nat) -> NoDup (map s l)).
    { induction l as [|x l IH]; intros ND Q; [constructor|]. inversion ND as [|? ? NI ND']; subst. cbn. constructor.
      - intros X. apply in_map_iff in X. destruct X as (y & E & Y). apply NI. rewrite <- (I y x); auto; apply Q; [now right|now left].
      - apply IH; [exact ND'|]. intros i Hi. apply Q. now right. }
    apply G; [apply seq_NoDup|]. intros i Hi. apply in_seq in Hi. lia.
  - rewrite map_length. lia.
  - intros x X. apply in_map_iff in X. destruct X as (i & <- & Hi). apply in_seq in Hi. apply in_seq. specialize (B i). lia.
Qed.

Lemma walkers_steps c : reordered (by_walker c) (by_step c).
Proof.
  unfold reordered, by_walker, by_step. cbn [rows cols at2]. split; [reflexivity|]. split; [reflexivity|].
  set (W := dim0 c). set (T := dim1 c). exists (fun k => ((k mod W) * T + k / W)%nat).
  assert (DM : forall k, (k < W * T)%nat -> (k mod W < W)%nat /\ (k / W < T)%nat /\ (0 < W)%nat).
  { intros k Hk. assert (W <> 0)%nat by (intros Z; rewrite Z in Hk; lia). split; [now apply Nat.mod_upper_bound|].
    split; [apply Nat.div_lt_upper_bound; lia|lia]. }
  split.
  - apply rearranges_inj.
    + intros k Hk. destruct (DM k Hk) as (A & B & _). nia.
    + intros i j Hi Hj E. destruct (DM i Hi) as (A1 & B1 & P). destruct (DM j Hj) as (A2 & B2 & _).
      assert (E1 : (i mod W = j mod W)%nat) by nia. assert (E2 : (i / W = j / W)%nat) by (rewrite E1 in E; lia).
      rewrite (Nat.div_mod i W), (Nat.div_mod j W) by lia. now rewrite E1, E2.
  - intros k j Hk Hj. destruct (DM k Hk) as (A & B & P). 
    rewrite (Nat.div_add_l (k mod W) T (k / W)) by lia. rewrite (Nat.div_small (k / W) T) by exact B. rewrite Nat.add_0_r.
    rewrite (Nat.add_comm (k mod W * T)), Nat.mod_add by lia. now rewrite (Nat.mod_small (k / W) T) by exact B.
Qed.

(** A density estimate whose peak is the sum of the samples. *)
Definition sum_kde : kde := mkKde (fun l => Ok (fsum l)) (fun cs _ => Ok (map fsum cs)).
Lemma fsum_units c l : 0 < c -> fsum (map (fmul (Fin c)) l) = fmul (Fin c) (fsum l).
Proof.
  intros C. induction l as [|x l IH]; cbn [map fsum fold_right]; [cbn; f_equal; ring|]. unfold fsum in IH. rewrite IH. clear IH.
  generalize (fold_right fadd (Fin 0) l). intros y. destruct x as [x| | |], y as [y| | |]; cbn [fmul fadd]; infp; cbn [fadd fmul]; infp; auto. f_equal. ring.
Qed.
Lemma sum_order_free : order_free sum_kde.
Proof.
  split; cbn [k_one k_many sum_kde].
  - intros l l' P. f_equal. now apply fsum_perm.
  - intros n s cs init S L. f_equal. rewrite map_map. apply map_ext_in. intros c Hc. apply fsum_perm.
    rewrite <- (map_map s (fun i => nth i c NaN)). rewrite (Permutation_map _ S). rewrite <- (L c Hc).
    assert (E : map (fun i => nth i c NaN) (seq 0 (length c)) = c).
    { clear. induction c as [|x c IH]; [reflexivity|]. cbn [length seq map nth]. f_equal. rewrite <- seq_shift, map_map. exact IH. }
    now rewrite E.
Qed.
Lemma sum_units_free : units_free sum_kde.
Proof.
  split; cbn [k_one k_many sum_kde].
  - intros c l C. now rewrite fsum_units.
  - intros us cs init L U. f_equal. rewrite map_map. revert cs L. induction us as [|u us IH]; intros [|c cs] L; try discriminate; [reflexivity|].
    cbn [combine map fst snd]. rewrite fsum_units by (apply U; now left). f_equal. apply IH; [intros v V; apply U; now right|now injection L].
Qed.

Lemma order_example : exists h2, order_free sum_kde /\ reordered (h_flat (ex_chain 3)) (h_flat h2) /\ dim2 (h_chain h2) = dim2 (h_chain (ex_chain 3)) /\
  at2 (h_flat h2) 0 0 = Fin (-101) /\ at2 (h_flat (ex_chain 3)) 0 0 = Fin (-100) /\
  exists r, chain_results sum_kde (Some [LinkInds [0; 1]%nat]) (ex_fit false true) (ex_chain 3) = Ok r.
Proof.
  exists (mkChains (mk2 2 3 (fun k j => at2 (h_flat (ex_chain 3)) (1 - k) j)) (h_chain (ex_chain 3)) []).
  split; [exact sum_order_free|]. split.
  - split; [reflexivity|]. split; [reflexivity|]. exists (fun k => (1 - k)%nat). split; [|reflexivity]. cbn. apply perm_swap.
  - split; [reflexivity|]. split; [cbn; f_equal; lra|]. split; [cbn; f_equal; lra|].
    unfold chain_results, add_v_re_22. cbn [bind abs_sigma f_abs ex_fit f_theta f_vary f_prof f_names fiducial kp_nv kp_nd theta_chain ex_chain h_flat cols Nat.ltb Nat.leb length Nat.add free_names].
    match goal with |- exists r, bind (posterior ?K ?l ?v ?fl) _ = _ => assert (X : exists p, posterior K l v fl = Ok p) end.
    { unfold posterior. cbv zeta. cbn [cols add_col seq map]. unfold peaks.
      unfold col. cbn [rows add_col seq map length Nat.eqb h_flat ex_chain at2 cols Nat.ltb Nat.leb firstn skipn kp_vel kp_sig fiducial vel_arctan disp_const fdiv f_re ex_fit fmul].
      rewrite (proj2 (Reqb_false 1 0)) by lra. cbn [fatan fmul fadd forallb isfinite andb bind k_one sum_kde link_groups]. unfold linked. unfold errors. cbn -[percentile fsum fsub opposite]. eauto. }
    destruct X as [p ->]. cbn [bind]. eauto.
Qed.

(** Velocities in units of 1/1000, radii in units of 1/2. *)
Definition ex_w (i : nat) : R := match i with 0%nat | 2%nat => 1000 | 1%nat => 2 | _ => 1 end.
Definition ex_u (j : nat) : R := if Nat.eqb j 1 then 2 else 1000.
Definition ex_fit' : fitted :=
  mkFitted false fiducial [Fin 200000; Fin 2; Fin 50000; Fin 0; Fin 2] [true; true; true; false; false]
    ["Va"; "rt"; "sigma"; "m0"; "z"]%string (Fin 2).
Lemma units_example : exists h2, units_free sum_kde /\ (forall i, 0 < ex_w i) /\ fit_in_units ex_w (ex_fit false true) ex_fit' /\
  columns_in_units ex_w (f_vary (ex_fit false true)) (cols (h_flat (ex_chain 3))) ex_u /\
  in_units ex_u (h_flat (ex_chain 3)) (h_flat h2) /\ dim2 (h_chain h2) = dim2 (h_chain (ex_chain 3)) /\
  at2 (h_flat h2) 1 0 = Fin (-101000) /\ at2 (h_flat (ex_chain 3)) 1 0 = Fin (-101) /\
  exists r, chain_results sum_kde (Some [LinkInds [0; 1]%nat]) (ex_fit false true) (ex_chain 3) = Ok r.
Proof.
  exists (mkChains (mk2 2 3 (fun k j => fmul (Fin (ex_u j)) (at2 (h_flat (ex_chain 3)) k j))) (h_chain (ex_chain 3)) []).
  split; [exact sum_units_free|]. split; [intros [|[|[|i]]]; cbn; lra|]. split; [|split; [|split; [|split; [reflexivity|split; [|split]]]]].
  - unfold fit_in_units. cbn [f_prof f_theta f_re f_abs f_vary f_names ex_fit ex_fit']. repeat split.
    + intros [|[|[|[|[|[|j]]]]]]; cbn; auto; f_equal; f_equal; lra.
    + cbn. f_equal. lra.
  - repeat split.
    + intros [|[|[|[|[|i]]]]] F; cbn in F |- *; try discriminate; auto. destruct i; discriminate.
    + intros j [A B]. cbn in A, B. unfold ex_u. destruct (Nat.eqb_spec j 1); [lia|reflexivity].
    + intros j. unfold ex_u. destruct (Nat.eqb j 1); lra.
  - repeat split.
  - cbn. f_equal. lra.
  - cbn. f_equal. lra.
  - destruct order_example as (_ & _ & _ & _ & _ & _ & X). exact X.
Qed.
