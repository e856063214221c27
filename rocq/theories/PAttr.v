(* Proofs about attributes. *)
From Coq Require Import String List Bool Arith Lia.
From Verif Require Import PyFloat PyBase MAttr SAttr.
Import ListNotations.
Local Open Scope string_scope.

Lemma dget_in {A} (d : dict A) k v : dget d k = Some v -> In (k, v) d.
Proof.
  induction d as [|[k' w] d IH]; cbn [dget]; [discriminate|]. destruct (String.eqb_spec k k') as [->|N].
  - intros E; inversion E; subst. left. reflexivity.
  - intros E. right. apply IH, E.
Qed.

Lemma in_keys {A} (d : dict A) k v : In (k, v) d -> In k (keys d).
Proof. intros H. unfold keys. apply in_map_iff. exists (k, v). auto. Qed.

Lemma in_dget {A} (d : dict A) k v : proper d -> In (k, v) d -> dget d k = Some v.
Proof.
  unfold proper. induction d as [|[k' w] d IH]; cbn [dget map]; [intros _ []|]. intros P [E|I].
  - inversion E; subst. rewrite String.eqb_refl. reflexivity.
  - inversion P as [|? ? N P']; subst. destruct (String.eqb_spec k k') as [->|_].
    + exfalso. apply N. exact (in_keys d k' v I).
    + apply IH; assumption.
Qed.

Lemma dget_none {A} (d : dict A) k : dget d k = None <-> ~ In k (keys d).
Proof.
  induction d as [|[k' w] d IH]; cbn [dget keys map In fst]; [tauto|]. destruct (String.eqb_spec k k') as [->|N].
  - split; [discriminate|]. intros H. exfalso. apply H. left. reflexivity.
  - rewrite IH. unfold keys. split; [intros H [E|I]; [congruence|auto]|tauto].
Qed.

Lemma dmem_iff {A} (d : dict A) k : dmem d k = true <-> In k (keys d).
Proof.
  unfold dmem. destruct (dget d k) eqn:E.
  - split; [intros _; exact (in_keys d k a (dget_in d k a E))|reflexivity].
  - apply dget_none in E. split; [discriminate|contradiction].
Qed.

Lemma named_keys {A} (d : dict A) k : named d k <-> In k (keys d).
Proof.
  split; [intros [v V]; exact (in_keys d k v V)|]. unfold keys. intros H. apply in_map_iff in H. destruct H as ([k' v] & E & I).
  cbn in E. subst k'. exists v. exact I.
Qed.

Lemma dget_dset {A} (d : dict A) k v k' : dget (dset d k v) k' = if String.eqb k' k then Some v else dget d k'.
Proof.
  induction d as [|[k0 w] d IH]; cbn [dset dget].
  - reflexivity.
  - destruct (String.eqb_spec k k0) as [->|N]; cbn [dget].
    + destruct (String.eqb k' k0); reflexivity.
    + rewrite IH. destruct (String.eqb_spec k' k0) as [->|]; [|reflexivity]. destruct (String.eqb_spec k0 k); [congruence|reflexivity].
Qed.

Lemma keys_dset_in {A} (d : dict A) k v : In k (keys d) -> keys (dset d k v) = keys d.
Proof.
  unfold keys. induction d as [|[k0 w] d IH]; cbn [dset map In fst]; [intros []|]. intros H. destruct (String.eqb_spec k k0) as [->|N]; cbn [map fst]; [reflexivity|].
  rewrite IH; [reflexivity|]. destruct H; [congruence|assumption].
Qed.

Lemma keys_dset_new {A} (d : dict A) k v : ~ In k (keys d) -> keys (dset d k v) = (keys d ++ [k])%list.
Proof.
  unfold keys. induction d as [|[k0 w] d IH]; cbn [dset map In fst app]; [reflexivity|]. intros H. destruct (String.eqb_spec k k0) as [->|N]; [tauto|].
  cbn [map fst]. rewrite IH; [reflexivity|tauto].
Qed.

Lemma proper_dset {A} (d : dict A) k v : proper d -> proper (dset d k v).
Proof.
  intros P. unfold proper. change (NoDup (keys (dset d k v))). destruct (in_dec string_dec k (keys d)) as [I|I].
  - rewrite keys_dset_in by exact I. exact P.
  - rewrite keys_dset_new by exact I. apply NoDup_rev in P. rewrite <- (rev_involutive (keys d ++ [k])). apply NoDup_rev.
    rewrite rev_app_distr. cbn [rev app]. constructor; [rewrite <- in_rev; exact I|exact P].
Qed.

Lemma dget_dupdate {A} (e : dict A) : forall d k, proper e ->
  dget (dupdate d e) k = match dget e k with Some v => Some v | None => dget d k end.
Proof.
  unfold dupdate. induction e as [|[k0 v] e IH]; intros d k P; cbn [fold_left dget fst snd]; [reflexivity|].
  inversion P as [|? ? N P']; subst. rewrite IH by exact P'. rewrite dget_dset.
  destruct (String.eqb_spec k k0) as [->|]; [|reflexivity].
  replace (dget e k0) with (@None A); [reflexivity|]. symmetry. apply dget_none. exact N.
Qed.

Lemma proper_dupdate {A} (e : dict A) : forall d, proper d -> proper (dupdate d e).
Proof. unfold dupdate. induction e as [|[k v] e IH]; intros d P; cbn [fold_left]; [exact P|]. apply IH, proper_dset, P. Qed.

Lemma keys_dupdate_in {A} (e : dict A) : forall d, (forall k, In k (keys e) -> In k (keys d)) -> keys (dupdate d e) = keys d.
Proof.
  unfold dupdate. induction e as [|[k v] e IH]; intros d H; cbn [fold_left fst snd]; [reflexivity|].
  assert (K : keys (dset d k v) = keys d) by (apply keys_dset_in, H; left; reflexivity).
  rewrite IH; [exact K|]. rewrite K. intros k' I. apply H. right. exact I.
Qed.

Lemma dupdate_nil {A} (e : dict A) : proper e -> dupdate [] e = e.
Proof.
  unfold dupdate. assert (G : forall (e d : dict A), proper (d ++ e)%list -> fold_left (fun d kv => dset d (fst kv) (snd kv)) e d = (d ++ e)%list).
  { clear e. induction e as [|[k v] e IH]; intros d P; cbn [fold_left fst snd]; [now rewrite app_nil_r|].
    assert (D : dset d k v = (d ++ [(k, v)])%list).
    { unfold proper in P. rewrite map_app in P. cbn [map fst] in P. clear IH. induction d as [|[k0 w] d IHd]; [reflexivity|].
      cbn [dset app map fst] in *. inversion P as [|? ? N P']; subst. destruct (String.eqb_spec k k0) as [->|].
      - exfalso. apply N. apply in_or_app. right. left. reflexivity.
      - rewrite IHd by exact P'. reflexivity. }
    rewrite D, IH; rewrite <- app_assoc; [reflexivity|exact P]. }
  intros P. rewrite G; [reflexivity|exact P].
Qed.

Lemma proper_filter {A} (f : string * A -> bool) d : proper d -> proper (filter f d).
Proof.
  unfold proper. induction d as [|[k v] d IH]; cbn [filter map fst]; [auto|]. intros P. inversion P as [|? ? N P']; subst.
  destruct (f (k, v)); cbn [map fst]; [|auto]. constructor; [|auto]. intros I. apply N. apply in_map_iff in I. destruct I as (x & E & I).
  apply filter_In in I. rewrite <- E. apply in_map. tauto.
Qed.

Lemma dget_filter {A} (p : string -> bool) (d : dict A) k : dget (filter (fun kv => p (fst kv)) d) k = if p k then dget d k else None.
Proof.
  induction d as [|[k0 v] d IH]; cbn [filter dget fst]; [destruct (p k); reflexivity|].
  destruct (p k0) eqn:E; cbn [dget]; rewrite IH; destruct (String.eqb_spec k k0) as [->|]; rewrite ?E; reflexivity.
Qed.

Lemma dget_setAttr {A} (d kw : dict A) k : proper kw ->
  dget (setAttr d kw) k = if dmem d k then match dget kw k with Some v => Some v | None => dget d k end else None.
Proof.
  intros P. unfold setAttr. pose proof (proper_filter (fun kv => dmem d (fst kv)) kw P) as PF.
  rewrite dupdate_nil by exact PF. rewrite dget_dupdate by exact PF.
  rewrite (dget_filter (dmem d)). unfold dmem. destruct (dget d k) eqn:E; [reflexivity|]. reflexivity.
Qed.

Lemma keys_setAttr {A} (d kw : dict A) : proper kw -> keys (setAttr d kw) = keys d.
Proof.
  intros P. unfold setAttr. rewrite dupdate_nil by (apply proper_filter, P). apply keys_dupdate_in.
  intros k I. unfold keys in I. apply in_map_iff in I. destruct I as (x & E & I). apply filter_In in I. destruct I as [_ I].
  rewrite E in I. apply dmem_iff in I. exact I.
Qed.

Lemma proper_setAttr {A} (d kw : dict A) : proper kw -> proper d -> proper (setAttr d kw).
Proof. intros P D. unfold proper. change (NoDup (keys (setAttr d kw))). rewrite keys_setAttr by exact P. exact D. Qed.

Lemma dget_iff {A} (d : dict A) k v : proper d -> (has d k v <-> dget d k = Some v).
Proof. intros P. split; [apply in_dget, P|apply dget_in]. Qed.

(** setAttr *)
Lemma setAttr_spec {A} (d kw : list (string * A)) : proper d -> proper kw ->
  map fst (setAttr d kw) = map fst d /\
  forall k v, has (setAttr d kw) k v <-> named d k /\ (has kw k v \/ (~ named kw k /\ has d k v)).
Proof.
  intros D K. split; [exact (keys_setAttr d kw K)|]. intros k v.
  rewrite (dget_iff (setAttr d kw)) by (apply proper_setAttr; assumption). rewrite dget_setAttr by exact K.
  rewrite !named_keys, <- dmem_iff, (dget_iff kw k v K), (dget_iff d k v D). rewrite <- (dget_none kw k).
  destruct (dmem d k); [|split; [discriminate|intros [H _]; discriminate H]].
  destruct (dget kw k) eqn:E.
  - split; [intros ->; auto|]. intros [_ [H|[H _]]]; [exact H|discriminate].
  - split; [auto|]. intros [_ [H|[_ H]]]; [discriminate|exact H].
Qed.

(** constructors *)
Lemma construct_snoc {A} (ls : list (dict A)) l kw : construct (ls ++ [l])%list kw = setAttr (dupdate (construct ls kw) l) kw.
Proof. unfold construct. rewrite fold_left_app. reflexivity. Qed.

Lemma rev_list_ind' {A} (Q : list A -> Prop) : Q [] -> (forall l x, Q l -> Q (l ++ [x])%list) -> forall l, Q l.
Proof. intros H0 HS l. rewrite <- (rev_involutive l). induction (rev l) as [|x r IH]; [exact H0|]. cbn [rev]. apply HS, IH. Qed.

Lemma proper_construct {A} (ls : list (dict A)) kw : proper kw -> proper (construct ls kw).
Proof.
  intros K. revert ls. apply rev_list_ind'; [constructor|]. intros l x IH. rewrite construct_snoc.
  apply proper_setAttr; [exact K|]. apply proper_dupdate, IH.
Qed.

Lemma dget_construct {A} (ls : list (dict A)) kw k : proper kw -> Forall (@proper A) ls ->
  dget (construct ls kw) k = match fold_left (fun o l => match dget l k with Some v => Some v | None => o end) ls None with
                             | None => None
                             | Some v => match dget kw k with Some w => Some w | None => Some v end end.
Proof.
  intros K. induction ls as [|l ls IH] using rev_ind; [reflexivity|].
  intros P. apply Forall_app in P. destruct P as [P1 P2]. inversion P2; subst. specialize (IH P1).
  rewrite construct_snoc, dget_setAttr by exact K. unfold dmem. rewrite dget_dupdate by assumption. rewrite IH. rewrite fold_left_app. cbn [fold_left].
  destruct (dget l k).
  - reflexivity.
  - destruct (fold_left _ ls None); [destruct (dget kw k); reflexivity|reflexivity].
Qed.

Lemma last_default {A} (ls : list (dict A)) k : Forall (@proper A) ls -> forall v,
  fold_left (fun o l => match dget l k with Some v => Some v | None => o end) ls None = Some v <-> default_is ls k v.
Proof.
  induction ls as [|l ls IH] using rev_ind.
  - intros _ v. split; [discriminate|]. intros (l1 & l & l2 & E & _). destruct l1; discriminate.
  - intros P v. apply Forall_app in P. destruct P as [P1 P2]. inversion P2 as [|? ? PL _]; subst. specialize (IH P1).
    rewrite fold_left_app. cbn [fold_left]. split.
    + destruct (dget l k) eqn:E.
      * intros X; inversion X; subst. exists ls, l, []. split; [reflexivity|]. split; [apply dget_in, E|constructor].
      * intros X. apply IH in X. destruct X as (l1 & l0 & l2 & -> & H & F). exists l1, l0, (l2 ++ [l])%list.
        split; [now rewrite <- app_assoc|]. split; [exact H|]. apply Forall_app. split; [exact F|]. constructor; [|constructor].
        rewrite named_keys. apply dget_none, E.
    + intros (l1 & l0 & l2 & E & H & F). destruct (@exists_last _ (l0 :: l2) ltac:(discriminate)) as (r & y & R).
      rewrite R, app_assoc in E. apply app_inj_tail in E. destruct E as [E1 E2]. subst y.
      destruct r as [|y r].
      * cbn in R. inversion R; subst. rewrite (in_dget _ _ _ PL H). reflexivity.
      * cbn in R. inversion R; subst. apply Forall_app in F. destruct F as [F1 F2]. inversion F2 as [|? ? NF _]; subst.
        rewrite named_keys in NF. apply dget_none in NF. rewrite NF. apply IH. exists l1, y, r. auto.
Qed.

Lemma construct_spec {A} (ls : list (list (string * A))) kw : proper kw -> Forall proper ls ->
  proper (construct ls kw) /\
  forall k v, has (construct ls kw) k v <-> (exists l, In l ls /\ named l k) /\ (has kw k v \/ (~ named kw k /\ default_is ls k v)).
Proof.
  intros K P. pose proof (proper_construct ls kw K) as PC. split; [exact PC|]. intros k v.
  rewrite (dget_iff _ _ _ PC), dget_construct by assumption. rewrite named_keys, (dget_iff kw k v K), <- (dget_none kw k), <- (last_default ls k P v).
  assert (EX : (exists l, In l ls /\ named l k) <-> fold_left (fun o l => match dget l k with Some v => Some v | None => o end) ls None <> None).
  { clear - P. induction ls as [|l ls IH] using rev_ind.
    - cbn. split; [intros (l & [] & _)|congruence].
    - apply Forall_app in P. destruct P as [P1 P2]. specialize (IH P1). rewrite fold_left_app. cbn [fold_left]. split.
      + intros (l' & I & N). apply in_app_or in I. destruct (dget l k) eqn:E; [discriminate|]. apply IH. exists l'. split; [|exact N].
        destruct I as [I|[->|[]]]; [exact I|]. apply named_keys in N. apply dget_none in E. contradiction.
      + destruct (dget l k) eqn:E.
        * intros _. exists l. split; [apply in_or_app; right; left; reflexivity|]. exists a. apply dget_in, E.
        * intros X. apply IH in X. destruct X as (l' & I & N). exists l'. split; [apply in_or_app; left; exact I|exact N]. }
  rewrite EX. destruct (fold_left (fun (o : option A) (l : dict A) => match dget l k with Some v0 => Some v0 | None => o end) ls None) as [w|]; [|split; [discriminate|intros [H _]; congruence]].
  destruct (dget kw k) eqn:E.
  - split; [intros ->; split; [discriminate|auto]|]. intros [_ [H|[H _]]]; [exact H|discriminate].
  - split; [intros H; split; [discriminate|auto]|]. intros [_ [H|[_ H]]]; [discriminate|exact H].
Qed.

(** unknown names *)
Lemma construct_unknown {A} (ls : list (dict A)) kw k v : (forall l, In l ls -> ~ named l k) ->
  construct ls ((k, v) :: kw) = construct ls kw.
Proof.
  induction ls as [|l ls IH] using rev_ind; [reflexivity|]. intros H.
  rewrite !construct_snoc, IH by (intros l' I; apply H, in_or_app; left; exact I). unfold setAttr. cbn [filter fst].
  assert (NK : forall e : dict A, ~ In k (keys e) -> forall d : dict A, ~ In k (keys d) -> ~ In k (keys (dupdate d e))).
  { unfold dupdate. induction e as [|[k0 w] e IHe]; intros He d Hd; cbn [fold_left fst snd]; [exact Hd|].
    apply IHe; [intros X; apply He; right; exact X|]. destruct (in_dec string_dec k0 (keys d)) as [I|I].
    - rewrite keys_dset_in by exact I. exact Hd.
    - rewrite keys_dset_new by exact I. intros X. apply in_app_or in X. destruct X as [X|[X|[]]]; [contradiction|]. apply He. left. exact X. }
  assert (NC : forall ls0 : list (dict A), (forall l0, In l0 ls0 -> ~ named l0 k) -> ~ In k (keys (construct ls0 kw))).
  { clear IH H ls l. induction ls0 as [|l0 ls0 IH0] using rev_ind; [intros _ []|]. intros H0.
    rewrite construct_snoc. unfold setAttr. 
    assert (ND : ~ In k (keys (dupdate (construct ls0 kw) l0))).
    { apply NK; [rewrite <- named_keys; apply H0, in_or_app; right; left; reflexivity|]. apply IH0. intros l1 I1. apply H0, in_or_app. left. exact I1. }
    set (D := dupdate (construct ls0 kw) l0) in *. apply NK; [|exact ND]. apply NK; [|intros []].
    intros X. unfold keys in X. apply in_map_iff in X. destruct X as (x & E & X). apply filter_In in X. destruct X as [_ X]. rewrite E in X.
    apply dmem_iff in X. contradiction. }
  destruct (dmem (dupdate (construct ls kw) l) k) eqn:E; [|reflexivity]. exfalso. apply dmem_iff in E. revert E.
  apply NK; [rewrite <- named_keys; apply H, in_or_app; right; left; reflexivity|]. apply NC. intros l1 I1. apply H, in_or_app. left. exact I1.
Qed.
