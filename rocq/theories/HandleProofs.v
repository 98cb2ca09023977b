(** Proofs about the data provider: what it knows only grows, and stays monotone. *)
From Verif Require Import Base BaseProofs LaddersModel CodecModel AlgModel HandleModel HandleSpec.
Open Scope N_scope.

Lemma mget_mput {V} (m : list (N * V)) k v x : mget (mput m k v) x = if N.eqb x k then Some v else mget m x.
Proof. reflexivity. Qed.

Lemma mget_In {V} (m : list (N * V)) x v : mget m x = Some v -> In (x, v) m.
Proof.
  induction m as [|[k w] m IH]; simpl; [discriminate|].
  destruct (N.eqb_spec x k) as [->|]; [intros [= ->]; now left|intros Hm; right; now apply IH].
Qed.

Lemma mhas_mget {V} (m : list (N * V)) x : mhas m x = match mget m x with Some _ => true | None => false end.
Proof. reflexivity. Qed.

Lemma addTimestamp_spec m x t m' : ordered m -> addTimestamp m x t = Ok m' -> m' = mput m x t /\ ordered m' /\ grows m m'.
Proof.
  unfold addTimestamp. intros Ho. rewrite mhas_mget. destruct (mget m x) eqn:Hx; [discriminate|].
  destruct (existsb _ m) eqn:Hb; [discriminate|]. intros [= <-]. split; [reflexivity|].
  assert (Hall : forall y u, mget m y = Some u -> (x < y -> t <= u) /\ (y < x -> u <= t)).
  { intros y u Hy. apply mget_In in Hy.
    assert (Hf : ((x <? y) && (u <? t) || (y <? x) && (t <? u)) = false).
    { destruct (_ || _) eqn:E; [|reflexivity]. rewrite <- Hb. symmetry. apply existsb_exists. exists (y, u). auto. }
    apply Bool.orb_false_iff in Hf. destruct Hf as [H1 H2].
    split; intros Hlt.
    - apply N.ltb_lt in Hlt. rewrite Hlt in H1. cbn in H1. now apply N.ltb_ge.
    - apply N.ltb_lt in Hlt. rewrite Hlt in H2. cbn in H2. now apply N.ltb_ge. }
  split.
  - intros a b ta tb Ha Hb' Hab. rewrite mget_mput in Ha, Hb'.
    destruct (N.eqb_spec a x) as [->|Na]; destruct (N.eqb_spec b x) as [->|Nb].
    + injection Ha as <-. injection Hb' as <-. lia.
    + injection Ha as <-. apply (Hall _ _ Hb'). lia.
    + injection Hb' as <-. apply (Hall _ _ Ha). lia.
    + eapply Ho; eauto.
  - intros a v Ha. rewrite mget_mput. destruct (N.eqb_spec a x) as [->|]; [congruence|assumption].
Qed.

Lemma addPrefixTree_spec m x r m' : addPrefixTree m x r = Ok m' -> mget m' x = Some r /\ grows m m'.
Proof.
  unfold addPrefixTree. destruct (mget m x) eqn:Hx.
  - destruct (bytes_eqb r b) eqn:E; [|discriminate]. apply bytes_eqb_eq in E. subst. intros [= <-]. split; [assumption|intros a v; auto].
  - intros [= <-]. split.
    + rewrite mget_mput, N.eqb_refl. reflexivity.
    + intros a v Ha. rewrite mget_mput. destruct (N.eqb_spec a x) as [->|]; [congruence|assumption].
Qed.

Lemma grows_refl {V} (m : list (N * V)) : grows m m. Proof. intros x v; auto. Qed.
Lemma grows_trans {V} (a b c : list (N * V)) : grows a b -> grows b c -> grows a c.
Proof. intros H1 H2 x v Hx. auto. Qed.

Section S.
Context {S : Type}.
Variable hd : handleIf S.

Definition good (d d' : dataProvider S) : Prop :=
  ordered (d_ts d) -> ordered (d_ts d') /\ grows (d_ts d) (d_ts d') /\ grows (d_roots d) (d_roots d').

Lemma good_refl d : good d d. Proof. intros H. split; [assumption|split; apply grows_refl]. Qed.
Lemma good_same d h : good d (withHandle d h). Proof. intros H. split; [assumption|split; apply grows_refl]. Qed.
Lemma good_trans a b c : good a b -> good b c -> good a c.
Proof.
  intros H1 H2 Ho. destruct (H1 Ho) as (Ho1 & G1 & R1). destruct (H2 Ho1) as (Ho2 & G2 & R2).
  split; [assumption|]. split; eapply grows_trans; eauto.
Qed.

Lemma dpTs_good d x r d' : dpTs hd d x = (r, d') ->
  good d d' /\ (ordered (d_ts d) -> forall t, r = Ok t -> mget (d_ts d') x = Some t).
Proof.
  unfold dpTs. destruct (mget (d_ts d) x) eqn:Hx.
  - intros [= <- <-]. split; [apply good_refl|]. intros _ t [= <-]. assumption.
  - destruct (hTs hd (d_handle d) x) as [r0 h]. destruct r0 as [t|e|e|]; try (intros [= <- <-]; split; [apply good_same|intros _ t0 [=]]).
    cbn [withHandle d_ts]. destruct (addTimestamp (d_ts d) x t) as [m|e|e|] eqn:Ha; intros [= <- <-];
      try (split; [apply good_same|intros _ t0 [=]]).
    split.
    + intros Ho. destruct (addTimestamp_spec _ _ _ _ Ho Ha) as (-> & H1 & H2). split; [assumption|]. split; [assumption|apply grows_refl].
    + intros Ho t0 [= <-]. destruct (addTimestamp_spec _ _ _ _ Ho Ha) as (-> & H1 & H2). cbn. now rewrite N.eqb_refl.
Qed.

Lemma dpRoot_good {B} d x (r : res (bytes * B)) h r' d' : dpRoot d x r h = (r', d') ->
  good d d' /\ d_handle d' = h /\ (forall a, r' = Ok a -> exists root, r = Ok (root, a) /\ mget (d_roots d') x = Some root).
Proof.
  unfold dpRoot. destruct r as [[root a]|e|e|]; try (intros [= <- <-]; split; [apply good_same|split; [reflexivity|intros a0 [=]]]).
  cbn [withHandle d_roots]. destruct (addPrefixTree (d_roots d) x root) as [m|e|e|] eqn:Ha; intros [= <- <-];
    try (split; [apply good_same|split; [reflexivity|intros a0 [=]]]).
  destruct (addPrefixTree_spec _ _ _ _ Ha) as [H1 H2]. split; [|split; [reflexivity|]].
  - intros Ho. split; [assumption|]. split; [apply grows_refl|assumption].
  - intros a0 [= <-]. exists root. split; [reflexivity|assumption].
Qed.

Ltac viaTs H :=
  match type of H with context [dpTs hd ?d ?x] =>
    let t := fresh "t" in let d1 := fresh "d1" in let E := fresh "Ets" in
    destruct (dpTs hd d x) as [t d1] eqn:E; apply dpTs_good in E; destruct E as [?Hg ?Ht];
    destruct t as [t|?|?|]; [|injection H as <- <-; assumption ..] end.

Lemma dpLadder_good d x v o r d' : dpLadder hd d x v o = (r, d') -> good d d'.
Proof.
  intros H. unfold dpLadder in H. viaTs H. destruct (hLadder hd (d_handle d1) x v o) as [r0 h] eqn:El.
  apply dpRoot_good in H. eapply good_trans; [eassumption|apply H].
Qed.
Lemma dpMon_good d x v r d' : dpMon hd d x v = (r, d') -> good d d'.
Proof.
  intros H. unfold dpMon in H. viaTs H. destruct (hMon hd (d_handle d1) x v) as [r0 h] eqn:El.
  apply dpRoot_good in H. eapply good_trans; [eassumption|apply H].
Qed.
Lemma dpIncl_good d x v r d' : dpIncl hd d x v = (r, d') -> good d d'.
Proof.
  intros H. unfold dpIncl in H. destruct v as [|v0 v]; [injection H as <- <-; apply good_refl|].
  viaTs H. destruct (hIncl hd (d_handle d1) x (v0 :: v)) as [r0 h] eqn:El.
  apply dpRoot_good in H. eapply good_trans; [eassumption|apply H].
Qed.

(** A ladder answered: the handle answered, and the root it gave is the one on record. *)
Lemma dpLadder_ok d x v o a d' : ordered (d_ts d) -> dpLadder hd d x v o = (Ok a, d') ->
  exists s root, hLadder hd s x v o = (Ok (root, a), d_handle d') /\ mget (d_roots d') x = Some root /\ mget (d_ts d') x <> None.
Proof.
  intros Ho H. unfold dpLadder in H. destruct (dpTs hd d x) as [t d1] eqn:E. apply dpTs_good in E. destruct E as [Hg Ht].
  destruct t as [t|?|?|]; try discriminate. destruct (hLadder hd (d_handle d1) x v o) as [r0 h] eqn:El.
  pose proof (Hg Ho) as (Ho1 & _ & _).
  apply dpRoot_good in H. destruct H as (Hgd & Hh & Hr). destruct (Hr _ eq_refl) as (root & -> & Hm).
  exists (d_handle d1), root. rewrite Hh. split; [assumption|]. split; [assumption|].
  specialize (Ht Ho t eq_refl). destruct (Hgd Ho1) as (_ & G & _). rewrite (G _ _ Ht). discriminate.
Qed.

Lemma run_good {A} (p : prog A) : forall d, good d (final (run (dpProvider hd) p d)).
Proof.
  induction p as [a|m|m| |x k IHk e IHe|x v o k IHk e IHe|x v k IHk e IHe|x vs k IHk e IHe|x v k IHk|x o g l k IHk]; intros d; cbn [run];
    try apply good_refl.
  - cbn [dpProvider pTs]. destruct (dpTs hd d x) as [r d1] eqn:E. apply dpTs_good in E. destruct E as [E _].
    destruct r as [a|m|m|]; unfold final, addEv.
    + specialize (IHk a d1). unfold final in IHk. destruct (run (dpProvider hd) (k a) d1) as [[? ?] ?]. eapply good_trans; eauto.
    + specialize (IHe m d1). unfold final in IHe. destruct (run (dpProvider hd) (e m) d1) as [[? ?] ?]. eapply good_trans; eauto.
    + assumption.
    + assumption.
  - cbn [dpProvider pLadder]. destruct (dpLadder hd d x v o) as [r d1] eqn:E. apply dpLadder_good in E.
    destruct r as [a|m|m|]; unfold final, addEv.
    + specialize (IHk a d1). unfold final in IHk. destruct (run (dpProvider hd) (k a) d1) as [[? ?] ?]. eapply good_trans; eauto.
    + specialize (IHe m d1). unfold final in IHe. destruct (run (dpProvider hd) (e m) d1) as [[? ?] ?]. eapply good_trans; eauto.
    + assumption.
    + assumption.
  - cbn [dpProvider pMon]. destruct (dpMon hd d x v) as [r d1] eqn:E. apply dpMon_good in E.
    destruct r as [a|m|m|]; unfold final, addEv.
    + specialize (IHk d1). unfold final in IHk. destruct (run (dpProvider hd) k d1) as [[? ?] ?]. eapply good_trans; eauto.
    + specialize (IHe m d1). unfold final in IHe. destruct (run (dpProvider hd) (e m) d1) as [[? ?] ?]. eapply good_trans; eauto.
    + assumption.
    + assumption.
  - cbn [dpProvider pIncl]. destruct (dpIncl hd d x vs) as [r d1] eqn:E. apply dpIncl_good in E.
    destruct r as [a|m|m|]; unfold final, addEv.
    + specialize (IHk d1). unfold final in IHk. destruct (run (dpProvider hd) k d1) as [[? ?] ?]. eapply good_trans; eauto.
    + specialize (IHe m d1). unfold final in IHe. destruct (run (dpProvider hd) (e m) d1) as [[? ?] ?]. eapply good_trans; eauto.
    + assumption.
    + assumption.
  - specialize (IHk (pStop (dpProvider hd) d x v) d). unfold final, addEv in *.
    destruct (run (dpProvider hd) (k (pStop (dpProvider hd) d x v)) d) as [[? ?] ?]. assumption.
  - specialize (IHk (pTrack (dpProvider hd) d x o g l)). unfold final, addEv in *.
    destruct (run (dpProvider hd) k (pTrack (dpProvider hd) d x o g l)) as [[? ?] ?].
    eapply good_trans; [|eassumption]. apply good_same.
Qed.

(** Timestamps answered along the way stay on record. *)
Lemma run_answers {A} (p : prog A) : forall d x t, ordered (d_ts d) ->
  In (EvTs x (Ok t)) (events (run (dpProvider hd) p d)) -> mget (d_ts (final (run (dpProvider hd) p d))) x = Some t.
Proof.
  induction p as [a|m|m| |x0 k IHk e IHe|x0 v o k IHk e IHe|x0 v k IHk e IHe|x0 vs k IHk e IHe|x0 v k IHk|x0 o g l k IHk]; intros d x t Ho; cbn [run];
    try (intros []).
  - cbn [dpProvider pTs]. destruct (dpTs hd d x0) as [r d1] eqn:E. apply dpTs_good in E. destruct E as [E Ht].
    pose proof (E Ho) as (Ho1 & _ & _).
    destruct r as [a|m|m|]; unfold final, events, addEv.
    + pose proof (IHk a d1 x t Ho1) as IH. pose proof (run_good (k a) d1 Ho1) as (_ & G & _). unfold final, events in *.
      destruct (run (dpProvider hd) (k a) d1) as [[? ?] ?]. cbn in *. intros [Heq|Hin]; [|auto].
      injection Heq as <- <-. apply G. now apply Ht.
    + pose proof (IHe m d1 x t Ho1) as IH. unfold final, events in *.
      destruct (run (dpProvider hd) (e m) d1) as [[? ?] ?]. cbn in *. intros [Heq|Hin]; [discriminate|auto].
    + cbn. intros [Heq|[]]. discriminate.
    + cbn. intros [Heq|[]]. discriminate.
  - cbn [dpProvider pLadder]. destruct (dpLadder hd d x0 v o) as [r d1] eqn:E. apply dpLadder_good in E.
    pose proof (E Ho) as (Ho1 & _ & _).
    destruct r as [a|m|m|]; unfold final, events, addEv.
    + pose proof (IHk a d1 x t Ho1) as IH. unfold final, events in *.
      destruct (run (dpProvider hd) (k a) d1) as [[? ?] ?]. cbn in *. intros [Heq|Hin]; [discriminate|auto].
    + pose proof (IHe m d1 x t Ho1) as IH. unfold final, events in *.
      destruct (run (dpProvider hd) (e m) d1) as [[? ?] ?]. cbn in *. intros [Heq|Hin]; [discriminate|auto].
    + cbn. intros [Heq|[]]. discriminate.
    + cbn. intros [Heq|[]]. discriminate.
  - cbn [dpProvider pMon]. destruct (dpMon hd d x0 v) as [r d1] eqn:E. apply dpMon_good in E.
    pose proof (E Ho) as (Ho1 & _ & _).
    destruct r as [a|m|m|]; unfold final, events, addEv.
    + pose proof (IHk d1 x t Ho1) as IH. unfold final, events in *.
      destruct (run (dpProvider hd) k d1) as [[? ?] ?]. cbn in *. intros [Heq|Hin]; [discriminate|auto].
    + pose proof (IHe m d1 x t Ho1) as IH. unfold final, events in *.
      destruct (run (dpProvider hd) (e m) d1) as [[? ?] ?]. cbn in *. intros [Heq|Hin]; [discriminate|auto].
    + cbn. intros [Heq|[]]. discriminate.
    + cbn. intros [Heq|[]]. discriminate.
  - cbn [dpProvider pIncl]. destruct (dpIncl hd d x0 vs) as [r d1] eqn:E. apply dpIncl_good in E.
    pose proof (E Ho) as (Ho1 & _ & _).
    destruct r as [a|m|m|]; unfold final, events, addEv.
    + pose proof (IHk d1 x t Ho1) as IH. unfold final, events in *.
      destruct (run (dpProvider hd) k d1) as [[? ?] ?]. cbn in *. intros [Heq|Hin]; [discriminate|auto].
    + pose proof (IHe m d1 x t Ho1) as IH. unfold final, events in *.
      destruct (run (dpProvider hd) (e m) d1) as [[? ?] ?]. cbn in *. intros [Heq|Hin]; [discriminate|auto].
    + cbn. intros [Heq|[]]. discriminate.
    + cbn. intros [Heq|[]]. discriminate.
  - specialize (IHk (pStop (dpProvider hd) d x0 v) d x t Ho). unfold final, events, addEv in *.
    destruct (run (dpProvider hd) (k (pStop (dpProvider hd) d x0 v)) d) as [[? ?] ?]. cbn in *. intros [Heq|Hin]; [discriminate|auto].
  - specialize (IHk (pTrack (dpProvider hd) d x0 o g l) x t Ho). unfold final, events, addEv in *.
    destruct (run (dpProvider hd) k (pTrack (dpProvider hd) d x0 o g l)) as [[? ?] ?]. cbn in *. intros [Heq|Hin]; [discriminate|auto].
Qed.

Lemma addRetained_loop entries : forall (d d' : dataProvider S),
  foldM (fun d e =>
    let* ts := addTimestamp (d_ts d) (fst e) (le_ts (snd e)) in
    let* rs := addPrefixTree (d_roots d) (fst e) (le_root (snd e)) in
    Ok (withRoots (withTs d ts) rs)) entries d = Ok d' ->
  ordered (d_ts d) ->
  ordered (d_ts d') /\ grows (d_ts d) (d_ts d') /\ grows (d_roots d) (d_roots d') /\
  forall x e, In (x, e) entries -> mget (d_ts d') x = Some (le_ts e) /\ mget (d_roots d') x = Some (le_root e).
Proof.
  induction entries as [|[y e0] entries IH]; intros d d' Hf Ho; cbn [foldM] in Hf.
  - injection Hf as <-. split; [assumption|]. split; [apply grows_refl|]. split; [apply grows_refl|]. intros x e [].
  - cbn [fst snd] in Hf. destruct (addTimestamp (d_ts d) y (le_ts e0)) as [m|?|?|] eqn:Ha; try discriminate. cbn [bind] in Hf.
    destruct (addPrefixTree (d_roots d) y (le_root e0)) as [m2|?|?|] eqn:Hp; try discriminate. cbn [bind] in Hf.
    destruct (addTimestamp_spec _ _ _ _ Ho Ha) as (Hm & Ho1 & G1). destruct (addPrefixTree_spec _ _ _ _ Hp) as (Hr & G2).
    destruct (IH _ _ Hf Ho1) as (Ho' & G1' & G2' & Hall). cbn [withRoots withTs d_ts d_roots] in *.
    split; [assumption|]. split; [eapply grows_trans; eauto|]. split; [eapply grows_trans; eauto|].
    intros x e [[= <- <-]|Hin]; [|now apply Hall]. split; [apply G1'; subst m; cbn; now rewrite N.eqb_refl|now apply G2'].
Qed.

Lemma ordered_nil : ordered (@nil (N * N)).
Proof. intros x y t u H. discriminate. Qed.

Lemma c18_all {A} (p : prog A) (h : S) subtrees entries d :
  addRetained (newDataProvider h) subtrees entries = Ok d ->
  let out := run (dpProvider hd) p d in
  ordered (d_ts (final out)) /\
  (forall x e, In (x, e) entries -> mget (d_ts (final out)) x = Some (le_ts e) /\ mget (d_roots (final out)) x = Some (le_root e)) /\
  (forall x t, In (EvTs x (Ok t)) (events out) -> mget (d_ts (final out)) x = Some t).
Proof.
  intros Hd out. unfold addRetained in Hd. apply addRetained_loop in Hd; [|apply ordered_nil].
  destruct Hd as (Ho & _ & _ & Hall). pose proof (run_good p d Ho) as (Ho' & G1 & G2). fold out in Ho', G1, G2.
  split; [assumption|]. split.
  - intros x e Hin. destruct (Hall x e Hin). split; auto.
  - intros x t Hin. apply run_answers; assumption.
Qed.

Lemma c18_stable {A} (p : prog A) d : ordered (d_ts d) ->
  let d' := final (run (dpProvider hd) p d) in grows (d_ts d) (d_ts d') /\ grows (d_roots d) (d_roots d').
Proof. intros Ho. apply (run_good p d Ho). Qed.

End S.
