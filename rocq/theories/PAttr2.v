(* Proofs about saving and reloading results. *)
From Coq Require Import String List Bool Arith Lia.
From Verif Require Import PyFloat PyBase MAttr SAttr PAttr.
Import ListNotations.
Local Open Scope string_scope.

Lemma ddel_some {A} (d : dict A) k d' : proper d -> ddel d k = Some d' ->
  In k (keys d) /\ proper d' /\ (forall k', dget d' k' = if String.eqb k' k then None else dget d k').
Proof.
  revert d'. induction d as [|[k0 w] d IH]; intros d' P; cbn [ddel]; [discriminate|]. inversion P as [|? ? N P']; subst.
  destruct (String.eqb_spec k k0) as [->|NE].
  - intros E; inversion E; subst. split; [left; reflexivity|]. split; [exact P'|]. intros k'. cbn [dget].
    destruct (String.eqb_spec k' k0) as [->|]; [apply dget_none; exact N|reflexivity].
  - destruct (ddel d k) as [d1|] eqn:E; [|discriminate]. intros X; inversion X; subst. destruct (IH d1 P' eq_refl) as (I & P1 & G).
    split; [right; exact I|]. split.
    + constructor; [|exact P1]. change (~ In k0 (keys d1)). apply dget_none. rewrite G.
      destruct (String.eqb_spec k0 k); [reflexivity|]. apply dget_none. exact N.
    + intros k'. cbn [dget]. rewrite G. destruct (String.eqb_spec k' k0) as [->|]; [|reflexivity].
      destruct (String.eqb_spec k0 k); [congruence|reflexivity].
Qed.

Lemma ddel_none {A} (d : dict A) k : ddel d k = None <-> ~ In k (keys d).
Proof.
  induction d as [|[k0 w] d IH]; cbn [ddel keys map In fst]; [tauto|]. destruct (String.eqb_spec k k0) as [->|N].
  - split; [discriminate|]. intros H. exfalso. apply H. left. reflexivity.
  - fold (keys d). destruct (ddel d k); split; intros X; try discriminate; try reflexivity.
    + exfalso. assert (Y : ~ In k (keys d)) by tauto. apply IH in Y. discriminate.
    + apply proj1 in IH. specialize (IH eq_refl). intros [Z|Z]; [congruence|contradiction].
Qed.

Lemma copy_keys_ok (d : dict val) ks : (forall k, In k ks -> named d k) -> exists r, copy_keys d ks = Ok r.
Proof.
  induction ks as [|k ks IH]; intros H; cbn [copy_keys]; [eexists; reflexivity|].
  destruct (dget d k) eqn:E.
  - destruct IH as [r R]; [intros k' I; apply H; right; exact I|]. rewrite R. eexists; reflexivity.
  - exfalso. apply dget_none in E. apply E. apply named_keys. apply H. left. reflexivity.
Qed.

Lemma copy_keys_keys (d : dict val) ks r : copy_keys d ks = Ok r -> keys r = ks.
Proof.
  revert r. induction ks as [|k ks IH]; intros r; cbn [copy_keys]; [intros E; inversion E; reflexivity|].
  destruct (dget d k); [|discriminate]. destruct (copy_keys d ks) as [r'|] eqn:E; [|discriminate]. cbn. intros X; inversion X; subst.
  cbn. f_equal. apply IH. reflexivity.
Qed.

Lemma copy_keys_get (d : dict val) ks r : copy_keys d ks = Ok r -> forall k, In k ks -> dget r k = dget d k.
Proof.
  revert r. induction ks as [|k ks IH]; intros r; cbn [copy_keys]; [intros E k []|].
  destruct (dget d k) eqn:G; [|discriminate]. destruct (copy_keys d ks) as [r'|] eqn:E; [|discriminate]. cbn [bind]. intros X; inversion X; subst.
  intros k' I. cbn [dget]. destruct (String.eqb_spec k' k) as [->|]; [congruence|]. apply IH; [reflexivity|]. destruct I; [congruence|assumption].
Qed.

(** What a results object contains. *)
Lemma results_inv (d : dict val) r : make_results d = Ok r ->
  exists rd gd gd1 sd gd2, r = Obj rd /\ dget d "galaxy" = Some (Obj gd) /\ ddel gd "pstamp" = Some gd1 /\
    dget gd1 "spec2D" = Some (Obj sd) /\
    gd2 = match ddel sd "spec_hdr" with Some sd' => dset gd1 "spec2D" (Obj sd') | None => gd1 end /\
    keys rd = results_attrs /\ dget rd "galaxy" = Some (Obj gd2) /\
    (forall k, In k results_attrs -> k <> "galaxy" -> dget rd k = dget d k /\ dget d k <> None).
Proof.
  unfold make_results. destruct (dget d "galaxy") as [g|] eqn:G; [|discriminate]. destruct (dget d "instrument") as [i|]; [|discriminate].
  destruct (dget d "instrument_img"); [|discriminate]. destruct (is_none g || is_none i); [discriminate|].
  destruct (getattr g "n"); [|discriminate]. destruct (getattr g "re_arcsec"); [|discriminate].
  destruct (getattr g "q0"); [|discriminate]. cbn [bind]. destruct (copy_keys d results_attrs) as [r0|] eqn:C; [|discriminate]. cbn [bind].
  destruct g as [|gd]; [discriminate|]. destruct (ddel gd "pstamp") as [gd1|] eqn:D; [|discriminate].
  destruct (dget gd1 "spec2D") as [[|sd]|] eqn:S; try discriminate. intros E. inversion E; subst. clear E.
  eexists _, gd, gd1, sd, _. split; [reflexivity|]. split; [reflexivity|]. split; [exact D|]. split; [exact S|]. split; [reflexivity|].
  pose proof (copy_keys_keys _ _ _ C) as K. split; [rewrite keys_dset_in; [exact K|rewrite K; left; reflexivity]|].
  split; [rewrite dget_dset, String.eqb_refl; reflexivity|]. intros k I N. rewrite dget_dset.
  destruct (String.eqb_spec k "galaxy"); [contradiction|]. split; [apply (copy_keys_get _ _ _ C), I|].
  rewrite <- (copy_keys_get _ _ _ C k I). intros X. apply dget_none in X. apply X. rewrite K. exact I.
Qed.

Lemma savable_results (d gd sd : list (string * val)) : savable d gd sd -> exists r, make_results d = Ok r.
Proof.
  intros (PD & A & NI & HG & PG & (n & HN) & (re & HR) & (q & HQ) & (ps & HP) & HS & PS).
  assert (I1 : dget d "instrument" <> None) by (intros X; apply dget_none in X; apply X, named_keys, A; cbv; tauto).
  assert (I2 : dget d "instrument_img" <> None) by (intros X; apply dget_none in X; apply X, named_keys, A; cbv; tauto).
  unfold make_results. rewrite (in_dget d "galaxy" _ PD HG). destruct (dget d "instrument") as [i|] eqn:EI; [|congruence].
  destruct (dget d "instrument_img"); [|congruence].
  replace (is_none (Obj gd) || is_none i)%bool with false.
  2: { symmetry. destruct i as [[|i]|]; try reflexivity. exfalso. apply NI. apply dget_in, EI. }
  unfold getattr. rewrite (in_dget gd _ _ PG HN), (in_dget gd _ _ PG HR), (in_dget gd _ _ PG HQ). cbn [bind].
  destruct (copy_keys_ok d results_attrs A) as [r R]. rewrite R. cbn [bind].
  destruct (ddel gd "pstamp") as [gd1|] eqn:D.
  2: { exfalso. apply ddel_none in D. apply D. exact (in_keys gd _ _ HP). }
  destruct (ddel_some _ _ _ PG D) as (_ & _ & G1).
  assert (E : dget gd1 "spec2D" = Some (Obj sd)) by (rewrite G1; cbn; apply in_dget; assumption).
  rewrite E. eexists; reflexivity.
Qed.

Lemma proper_results rd : keys rd = results_attrs -> proper (A := val) rd.
Proof.
  intros E. unfold proper. change (NoDup (keys rd)). rewrite E. unfold results_attrs.
  repeat (constructor; [cbn; intuition discriminate|]). constructor.
Qed.

(** Saving completely and reloading. *)
Lemma roundtrip P d gd sd f fs d2 : faithful P -> savable d gd sd -> proper d2 ->
  exists fs' gd' sd', save_bestfit P NoCrash (Some f) d fs = (fs', Ok tt) /\
    (forall g, g <> f -> fs' g = fs g) /\
    exists d', reload_bestfit P (Some f) d2 fs' = (d', Ok tt) /\ proper d' /\
      (forall k v, In k results_attrs -> k <> "galaxy" -> has d' k v <-> has d k v) /\
      (forall k v, ~ In k results_attrs -> has d' k v <-> has d2 k v) /\
      has d' "galaxy" (Obj gd') /\ proper gd' /\ ~ named gd' "pstamp" /\ has gd' "spec2D" (Obj sd') /\
      (forall k v, k <> "pstamp" -> k <> "spec2D" -> has gd' k v <-> has gd k v) /\
      proper sd' /\ ~ named sd' "spec_hdr" /\ (forall k v, k <> "spec_hdr" -> has sd' k v <-> has sd k v).
Proof.
  intros F SV P2. destruct (savable_results d gd sd SV) as [r R]. destruct SV as (PD & A & _ & HG & PG & _ & _ & _ & _ & HS & PS).
  destruct (results_inv d r R) as (rd & gd0 & gd1 & sd0 & gd2 & -> & EG & DG & ES & E2 & KR & GR & OR).
  assert (X : Some (Obj gd0) = Some (Obj gd)) by (rewrite <- EG; apply in_dget; assumption). inversion X; subst gd0. clear X.
  destruct (ddel_some _ _ _ PG DG) as (_ & P1 & G1).
  assert (X : Some (Obj sd0) = Some (Obj sd)) by (rewrite <- ES, G1; cbn; apply in_dget; assumption). inversion X; subst sd0. clear X.
  pose proof (proper_results rd KR) as PR.
  set (sd' := match ddel sd "spec_hdr" with Some s => s | None => sd end).
  assert (SD : proper sd' /\ forall k, dget sd' k = if String.eqb k "spec_hdr" then None else dget sd k).
  { unfold sd'. destruct (ddel sd "spec_hdr") as [s|] eqn:D.
    - destruct (ddel_some _ _ _ PS D) as (_ & ? & ?). auto.
    - apply ddel_none in D. split; [exact PS|]. intros k. destruct (String.eqb_spec k "spec_hdr") as [->|]; [|reflexivity]. apply dget_none, D. }
  assert (P3 : proper gd2 /\ forall k, dget gd2 k = if String.eqb k "spec2D" then Some (Obj sd') else dget gd1 k).
  { unfold sd'. rewrite E2. destruct (ddel sd "spec_hdr") as [s|].
    - split; [apply proper_dset, P1|]. intros k. rewrite dget_dset. reflexivity.
    - split; [exact P1|]. intros k. destruct (String.eqb_spec k "spec2D") as [->|]; [exact ES|reflexivity]. }
  destruct SD as (PSD & GSD). destruct P3 as (PG2 & GG2).
  exists (fwrite fs f (dumps P (Obj rd))), gd2, sd'. split; [unfold save_bestfit; rewrite R; reflexivity|].
  split; [intros g N; unfold fwrite; destruct (String.eqb_spec g f); [contradiction|reflexivity]|].
  exists (dupdate d2 rd). split; [unfold reload_bestfit, load, fwrite; rewrite String.eqb_refl, F; reflexivity|].
  pose proof (proper_dupdate rd d2 P2) as PN. split; [exact PN|]. 
  assert (GN : forall k, dget (dupdate d2 rd) k = match dget rd k with Some v => Some v | None => dget d2 k end) by (intros k; apply dget_dupdate, PR).
  split; [|split; [|split; [|split; [exact PG2|split; [|split; [|split; [|split; [exact PSD|split]]]]]]]].
  - intros k v I N. rewrite (dget_iff _ _ _ PN), (dget_iff _ _ _ PD), GN. destruct (OR k I N) as (-> & ?). destruct (dget d k); [tauto|congruence].
  - intros k v I. rewrite (dget_iff _ _ _ PN), (dget_iff _ _ _ P2), GN. replace (dget rd k) with (@None val); [tauto|]. symmetry. apply dget_none. rewrite KR. exact I.
  - apply (dget_iff _ _ _ PN). rewrite GN, GR. reflexivity.
  - rewrite named_keys. apply dget_none. rewrite GG2. cbn. rewrite G1. reflexivity.
  - apply (dget_iff _ _ _ PG2). rewrite GG2. reflexivity.
  - intros k v N1 N2. rewrite (dget_iff _ _ _ PG2), (dget_iff _ _ _ PG), GG2, G1. destruct (String.eqb_spec k "spec2D"); [contradiction|].
    destruct (String.eqb_spec k "pstamp"); [contradiction|tauto].
  - rewrite named_keys. apply dget_none. rewrite GSD. reflexivity.
  - intros k v N. rewrite (dget_iff _ _ _ PSD), (dget_iff _ _ _ PS), GSD. destruct (String.eqb_spec k "spec_hdr"); [contradiction|tauto].
Qed.

(** A reload which fails, or has no file name, changes nothing. *)
Lemma reload_failure P fn d fs e : snd (reload_bestfit P fn d fs) = Err e -> fst (reload_bestfit P fn d fs) = d.
Proof. unfold reload_bestfit. destruct fn as [f|]; [|discriminate]. destruct (load P fs f) as [[n|r]|]; [reflexivity|discriminate|reflexivity]. Qed.

(** A save which fails writes nothing. *)
Lemma save_failure P c fn d fs e : snd (save_bestfit P c fn d fs) = Err e -> forall g, fst (save_bestfit P c fn d fs) g = fs g.
Proof. unfold save_bestfit. destruct (make_results d); [destruct fn; discriminate|reflexivity]. Qed.

(** Interrupted saves. *)
Lemma crash_safe P c f d fs : faithful P -> detects_truncation P ->
  let fs' := fst (save_bestfit P c (Some f) d fs) in
  (forall g, g <> f -> fs' g = fs g) /\
  (fs' f = fs f \/ (exists e, load P fs' f = Err e) \/ (exists r, make_results d = Ok r /\ load P fs' f = Ok r)).
Proof.
  intros F T fs'. unfold fs', save_bestfit. destruct (make_results d) as [r|e] eqn:R; cbn [fst]; [|auto].
  destruct c as [| |n]; cbn [dump].
  - split; [intros g N; unfold fwrite; destruct (String.eqb_spec g f); [contradiction|reflexivity]|]. right. right. exists r.
    split; [reflexivity|]. unfold load, fwrite. rewrite String.eqb_refl. apply F.
  - auto.
  - split; [intros g N; unfold fwrite; destruct (String.eqb_spec g f); [contradiction|reflexivity]|]. right.
    unfold load, fwrite. rewrite String.eqb_refl. destruct (le_lt_dec (length (dumps P r)) n) as [L|L].
    + right. exists r. split; [reflexivity|]. rewrite firstn_all2 by exact L. apply F.
    + left. apply T, L.
Qed.

(** An interruption between opening and the last byte loses the previous results. *)
Lemma crash_loses P n f d gd sd fs : detects_truncation P -> savable d gd sd ->
  (forall r, make_results d = Ok r -> (n < length (dumps P r))%nat) ->
  exists e, load P (fst (save_bestfit P (Written n) (Some f) d fs)) f = Err e.
Proof.
  intros T S L. destruct (savable_results d gd sd S) as [r R]. unfold save_bestfit. rewrite R. cbn [fst dump]. unfold load, fwrite.
  rewrite String.eqb_refl. apply T, L, R.
Qed.

(** Reload, then save again. *)
Lemma resave_fails P d gd sd f fs d2 c fn : faithful P -> savable d gd sd -> proper d2 ->
  let fs' := fst (save_bestfit P NoCrash (Some f) d fs) in
  let d' := fst (reload_bestfit P (Some f) d2 fs') in
  save_bestfit P c fn d' fs' = (fs', Err AttributeError).
Proof.
  intros F SV P2 fs' d'. destruct (roundtrip P d gd sd f fs d2 F SV P2) as (fs1 & gd' & sd' & E1 & _ & d1 & E2 & PD & HK & _ & HG & PG & NP & _ & OG & _).
  unfold d', fs'. rewrite E1. cbn [fst]. rewrite E2. cbn [fst]. destruct SV as (PD0 & A & NI & HG0 & PG0 & (n & Hn) & (re & Hre) & (q & Hq) & _).
  assert (AL : forall k, In k results_attrs -> named d1 k).
  { intros k I. destruct (string_dec k "galaxy") as [->|N]; [exists (Obj gd'); exact HG|]. destruct (A k I) as [v V]. exists v. apply HK; assumption. }
  assert (I1 : dget d1 "instrument" <> None) by (intros X; apply dget_none in X; apply X, named_keys, AL; cbv; tauto).
  assert (I2 : dget d1 "instrument_img" <> None) by (intros X; apply dget_none in X; apply X, named_keys, AL; cbv; tauto).
  unfold save_bestfit, make_results. rewrite (in_dget d1 _ _ PD HG).
  destruct (dget d1 "instrument") as [i|] eqn:EI; [|congruence]. destruct (dget d1 "instrument_img"); [|congruence].
  replace (is_none (Obj gd') || is_none i)%bool with false.
  2: { symmetry. destruct i as [[|i]|]; try reflexivity. exfalso. apply NI. apply (HK "instrument"); [cbv; tauto|discriminate|]. apply dget_in, EI. }
  apply (OG "n") in Hn; [|discriminate|discriminate]. apply (OG "re_arcsec") in Hre; [|discriminate|discriminate]. apply (OG "q0") in Hq; [|discriminate|discriminate].
  unfold getattr. rewrite (in_dget gd' _ _ PG Hn), (in_dget gd' _ _ PG Hre), (in_dget gd' _ _ PG Hq). cbn [bind].
  destruct (copy_keys_ok d1 results_attrs AL) as [r R]. rewrite R. cbn [bind].
  replace (ddel gd' "pstamp") with (@None (dict val)); [reflexivity|]. symmetry. apply ddel_none. rewrite <- named_keys. exact NP.
Qed.
