(** The server answers every request with a response or an error (C50): updates, and all requests together. *)
From Verif Require Import Base BaseProofs LogMathModel LogMathSpec LogTreeModel LogTreeSpec LogChunkModel LogChunkSpec
  TransMathModel LaddersModel PrefixModel PrefixSpec PrefixHistProofs PrefixVerifyProofs3 CodecModel CodecSpec CodecProofs2
  AlgModel AlgSpec HandleModel StoreModel CommitModel MutateModel MutateSpec MutateProofs5 AuditorProofs5 ServerModel ServerProofs ClientModel
  CalmSpec CalmProofs CalmProofs2 CalmProofs3 ServerCalmSpec ServerCalmProofs.
Open Scope N_scope.
Local Open Scope list_scope.

Lemma w32_small v : v < 2 ^ 32 -> w32 v = v.
Proof. intro Hv. unfold w32. apply N.mod_small. exact Hv. Qed.

Section Updates.
Variable f : bytes -> bytes.
Variable hs : N.
Variable c : pubConfig.
Variable vrf : bytes -> bytes * bytes.
Variable now : N.
Notation H := (full f).

Lemma updateInfos_nice t label pos : forall rest ver, nice (fun r => (List.length r <= List.length rest)%nat) (updateInfos c t label pos ver rest).
Proof.
  induction rest as [|x rest IH]; intro ver; cbn [updateInfos]; [cbn; lia|]. destruct (negb _); [cbn; lia|]. apply calm_then; [apply getVersion_calm|]. intro ov.
  eapply nice_then; [apply IH|]. intros more L. cbn in *. lia.
Qed.

Lemma updateLadder_calm a b : okVersion a -> okVersion b -> calm (updateLadderVersions a b).
Proof.
  intros Ha Hb. unfold updateLadderVersions. apply calm_bind'; [apply search_calm; exact Hb|]. intro ladder. apply calm_bind'; [|intro; exact I].
  destruct (a =? 0); [exact I|]. apply search_calm. unfold okVersion in *. lia.
Qed.

Definition ready (u : updater) : Prop := up_last u <> Some 0 /\ answerable f hs (up_tree u) (up_label u) (up_index u).

Lemma updaterNext_calm u w : ready u -> nth_error (up_index u) (N.to_nat (up_ver u)) <> None -> calm (updaterNext H hs c vrf now u w).
Proof.
  intros (L0 & G) En. unfold updaterNext. destruct (nth_error _ _) as [pos|] eqn:Ep; [clear En|contradiction].
  assert (Hv : (N.to_nat (up_ver u) < List.length (up_index u))%nat) by (apply nth_error_Some; congruence).
  pose proof G as (_ & Li & Gh). unfold lenN in Li. change (2 ^ 31) with 2147483648 in Li.
  destruct (sv_head (up_tree u)) as [th|] eqn:Eh; [|rewrite Gh in Hv; cbn in Hv; lia].
  apply (nice_calm (fun _ => True)). 
  pose proof (updateInfos_nice (up_tree u) (up_label u) pos (skipn (N.to_nat (up_ver u)) (up_index u)) (up_ver u)) as NI.
  destruct (updateInfos _ _ _ _ _ _) as [infos| | |] eqn:Ei; cbn in NI; try contradiction; try exact I. cbn [bind].
  rewrite skipn_length in NI.
  assert (Ki : (1 <= List.length infos)%nat).
  { destruct (skipn (N.to_nat (up_ver u)) (up_index u)) as [|x rest] eqn:Es; [apply (f_equal (@List.length _)) in Es; rewrite skipn_length in Es; cbn in Es; lia|].
    assert (x = pos). { rewrite <- (firstn_skipn (N.to_nat (up_ver u)) (up_index u)), Es in Ep. rewrite nth_error_app2 in Ep; rewrite firstn_length in *; [|lia].
      replace (N.to_nat (up_ver u) - Nat.min (N.to_nat (up_ver u)) (List.length (up_index u)))%nat with O in Ep by lia. cbn in Ep. congruence. }
    subst x. cbn [updateInfos] in Ei. rewrite N.eqb_refl in Ei. cbn [negb] in Ei. destruct (getVersion _ _ _ _); try discriminate. cbn [bind] in Ei.
    destruct (updateInfos _ _ _ _ _ rest); try discriminate. injection Ei as <-. cbn. lia. }
  cbn zeta. unfold lenN. rewrite !w32_small by (change (2 ^ 32) with 4294967296; lia).
  apply calm_then; [apply updateLadder_calm; unfold okVersion; lia|]. intro vers.
  apply calm_then; [eapply ladder_calm; [exact G|exact Eh]|]. intro steps.
  eapply nice_then; [exact (serverHead_nice f hs vrf _ _ _ G _ L0)|]. intros [[[fth n] nP] m] (th' & Eh' & -> & Hn & L). rewrite Eh in Eh'. injection Eh' as <-.
  apply calm_then; [apply (serverView_calm hs c vrf now _ []); [lia|auto]|]. intro d.
  eapply nice_then; [apply exec_nice, (newMonitor_wv (th_size th))|]. intros [mo d1] (_ & _ & _ & Ow). cbn [fst] in Ow.
  rewrite update_none by exact Ow. exact I.
Qed.

Lemma send_calm fuel u own : ready u -> Forall calm (fst (sendVersions H hs c vrf now fuel u own)) /\
  forall u', snd (sendVersions H hs c vrf now fuel u own) = Some u' -> u' = u.
Proof.
  intro R. destruct fuel as [|fuel]; cbn [sendVersions]; [split; [constructor|now intros ? [= ->]]|].
  destruct (nth_error _ _) as [x|] eqn:En; [|split; [constructor|now intros ? [= ->]]].
  match goal with |- context[updaterNext _ _ _ _ _ u ?w] => pose proof (updaterNext_calm u w R ltac:(congruence)) as C; pose proof (updaterNext_never H hs c vrf now u w) as Nv end.
  destruct (updaterNext _ _ _ _ _ _ _) as [[resp u1]|e|e|]; cbn in C; try contradiction; [exfalso; eapply Nv; reflexivity|]. cbn. split; [repeat constructor|discriminate].
Qed.

Lemma process_calm sequencer u : ready u ->
  (forall s pos, sequencer = Some (s, pos) -> calm (openServer c s) /\ forall sv, openServer c s = Ok sv -> sv_head sv <> None /\ exists idx, answerable f hs sv (up_label u) idx) ->
  Forall calm (process H hs c vrf now sequencer u).
Proof.
  intros R Q. unfold process. pose proof (send_calm (S (List.length (up_index u))) u None R) as (F & Su).
  destruct (sendVersions _ _ _ _ _ _ u None) as [out [u1|]]; cbn [fst snd] in *; [|exact F]. rewrite (Su _ eq_refl). clear Su.
  destruct (up_values u); [exact F|]. destruct sequencer as [[s [pos|]]|]; [|apply Forall_app; split; [exact F|repeat constructor]..].
  destruct (Q _ _ eq_refl) as (Co & K). unfold reloadTree. destruct (openServer c s) as [sv|e|e|]; cbn in Co; try contradiction; cbn [bind]; [|apply Forall_app; split; [exact F|repeat constructor]].
  destruct (K _ eq_refl) as (Hh & idx & G). destruct (sv_head sv) as [th|]; [|contradiction].
  destruct (_ <=? _); [apply Forall_app; split; [exact F|repeat constructor]|]. rewrite (proj1 G). cbn [bind].
  destruct (_ || _); [apply Forall_app; split; [exact F|repeat constructor]|]. apply Forall_app. split; [exact F|].
  apply send_calm. split; [exact (proj1 R)|exact G].
Qed.
End Updates.

Section Whole.
Variable f : bytes -> bytes.
Variable hs : N.
Hypothesis Hf : forall x, lenN (f x) = hs.
Hypothesis Hhs : 0 < hs <= 32.
Variable c : pubConfig.
Variable vrf : bytes -> bytes * bytes.
Variable sign : bytes -> res bytes.
Variable Ls : list bytes.
Hypothesis HV : vrfGood hs vrf Ls.
Variable now : N.
Notation H := (full f).

Lemma runs_answerable t rs label sv : runs H hs c vrf sign Ls t rs -> In label Ls -> lenN (labelsNow rs label) < 2 ^ 31 ->
  sv_db sv = durable (t_tx t) -> sv_head sv = t_head t -> exists idx, answerable f hs sv label idx.
Proof.
  intros R Hl Hk Db Hd. destruct (run_describes f hs Hf Hhs c vrf Ls HV sign (fun _ _ => True) (fun _ _ _ => Logic.I) t rs R) as (E & (D & Du & Th) & Q1 & _).
  destruct (labelsNow_last _ _ Q1) as [A B]. rewrite A in Hk. exists (map pv_pos (current E label)).
  destruct (ds_positions _ _ _ _ _ _ D label Hl) as (_ & Fp & _). unfold answerable, serverIndex. rewrite Db, Du, Hd.
  split; [exact (ds_index _ _ _ _ _ _ D label Hl)|]. split; [unfold lenN in *; rewrite map_length; exact Hk|].
  destruct (t_head t) as [th|].
  - destruct Th as (Sz & NE & _). pose proof (ds_size _ _ _ _ _ _ D) as Hn. rewrite Sz. split; [split; [destruct E; [contradiction|unfold lenN; cbn [List.length]; lia]|exact Hn]|].
    split; [apply Forall_forall; intros x Ix; apply in_map_iff in Ix; destruct Ix as (p & <- & Ip); rewrite Forall_forall in Fp; apply Fp; exact Ip|].
    split.
    + intros v keys. destruct (ds_prefix _ _ _ _ _ _ D) as (vs & Hh & _). exact (search_nice f hs Hf Hhs _ vs v keys Hh).
    + intros positions nP m. destruct (ds_log _ _ _ _ _ _ D) as (leaves & fs & FL & Ef).
      eapply (batch_calm f hs Hf Hhs (entriesOf E) leaves fs); eauto; unfold lenN, entriesOf; rewrite map_length; [exact Hn|reflexivity].
  - destruct Th as [-> _]. reflexivity.
Qed.

Lemma open_calm s : calm (openServer c s).
Proof.
  unfold openServer. apply calm_bind'.
  - destruct (x_head s) as [raw|]; [|exact I]. apply calm_bind'; [apply safe_calm, (proj2 (proj2 codec_treeHead))|]. intros [x [|? ?]]; exact I.
  - intro th. apply calm_bind'; [|intro; exact I]. destruct (_ =? _); [|exact I]. destruct (x_auditor s) as [raw|]; [|exact I].
    apply calm_bind'; [apply safe_calm, (proj2 (proj2 codec_auditorTreeHead))|]. intros [x [|? ?]]; exact I.
Qed.

Lemma open_head t rs sv : runs H hs c vrf sign Ls t rs -> openServer c (durable (t_tx t)) = Ok sv -> sv_db sv = durable (t_tx t) /\ sv_head sv = t_head t.
Proof.
  intros R. destruct (run_describes f hs Hf Hhs c vrf Ls HV sign (fun _ _ => True) (fun _ _ _ => Logic.I) t rs R) as (E & T & _).
  assert (Q : forall th, match x_head (durable (t_tx t)) with None => Ok None | Some raw => let* (th, rest) := newTreeHead raw in match rest with [] => Ok (Some th) | _ => Fail "unexpected data appended to tree head" end end = Ok th -> th = t_head t).
  { destruct T as (D & -> & Th). intros th. destruct (t_head t) as [h|].
    - destruct Th as (Hsz & _ & _ & raw & Em & ->). pose proof (proj1 codec_treeHead h raw []) as K. rewrite app_nil_r in K.
      rewrite K; [cbn; congruence| |exact Em]. unfold okTreeHead, u64ok. rewrite Hsz. pose proof (ds_size _ _ _ _ _ _ D) as Z. change two64 with 18446744073709551616. change (2 ^ 63) with 9223372036854775808 in Z. lia.
    - destruct Th as [_ ->]. congruence. }
  unfold openServer. destruct (match x_head (durable (t_tx t)) with Some raw => _ | None => _ end) as [th| | |]; try discriminate. cbn [bind]. specialize (Q th eq_refl). subst th.
  match goal with |- bind ?x _ = _ -> _ => destruct x as [a| | |] end; try discriminate. intros [= <-]. auto.
Qed.

Lemma runs_head t rs : runs H hs c vrf sign Ls t rs -> rs <> [] -> t_head t <> None.
Proof.
  intros R NE. destruct (run_describes f hs Hf Hhs c vrf Ls HV sign (fun _ _ => True) (fun _ _ _ => Logic.I) t rs R) as (E & (D & Du & Th) & Q1 & _).
  destruct (labelsNow_last _ _ Q1) as [_ B]. destruct (t_head t); [discriminate|]. destruct Th as [-> _]. destruct rs; [contradiction|discriminate].
Qed.

Lemma sequenced_ok label sequencer : In label Ls -> sequenced H hs c vrf sign Ls label sequencer ->
  forall s pos, sequencer = Some (s, pos) -> calm (openServer c s) /\ forall sv, openServer c s = Ok sv -> sv_head sv <> None /\ exists idx, answerable f hs sv label idx.
Proof.
  intros Hl S s pos ->. split; [apply open_calm|]. intros sv O. destruct S as (t & rs & R & NE & -> & Hk). destruct (open_head _ _ _ R O) as [Db Hd]. split.
  - rewrite Hd. eapply runs_head; eauto.
  - eapply runs_answerable; eauto.
Qed.

Lemma operator_calm lv label : forall vs ver, calm (operatorSignatures c lv label ver vs).
Proof. induction vs as [|v vs IH]; intro ver; [exact I|]. cbn [operatorSignatures]. apply calm_bind'; [apply updateTBS_calm|]. intro tbs. destruct (lv _ _); [apply IH|exact I]. Qed.

Lemma c50_partial t rs a : runs H hs c vrf sign Ls t rs ->
  (forall q, ordinary Ls rs (sq_label q) (sq_last q) -> optok smallVersion (sq_version q) -> safe (serverSearch H hs c vrf now (serverWith t a) q)) /\
  (forall q, ordinary Ls rs (cq_label q) (cq_last q) -> safe (serverContactMonitor H hs c vrf now (serverWith t a) q)) /\
  (forall q, ordinary Ls rs (iq_label q) (iq_last q) -> safe (serverOwnerInit H hs c vrf now (serverWith t a) q)) /\
  (forall q, ordinary Ls rs (oq_label q) (oq_last q) -> safe (serverOwnerMonitor H hs c vrf now (serverWith t a) q)) /\
  (forall q, ordinary Ls rs (uq_label q) (uq_last q) -> exists u, setRequest (serverWith t a) q = Ok u /\
    forall sequencer, sequenced H hs c vrf sign Ls (uq_label q) sequencer -> Forall safe (process H hs c vrf now sequencer u)) /\
  (forall q leafVerify, ordinary Ls rs (mq_label q) (mq_last q) -> safe (setManagerRequest c leafVerify (serverWith t a) q) /\
    forall u sequencer, setManagerRequest c leafVerify (serverWith t a) q = Ok u -> sequenced H hs c vrf sign Ls (mq_label q) sequencer ->
      Forall safe (process H hs c vrf now sequencer u)).
Proof.
  intro R.
  assert (K : forall label last, ordinary Ls rs label last -> exists idx, answerable f hs (serverWith t a) label idx)
    by (intros label last (Hl & Hk & _); eapply runs_answerable; eauto).
  assert (FS : forall l : list (res updateResponse), Forall calm l -> Forall safe l) by (intros l Fl; eapply Forall_impl; [|exact Fl]; intros r; apply safe_calm).
  split; [|split; [|split; [|split; [|split]]]].
  - intros q O V. destruct (K _ _ O) as (idx & G). apply safe_calm. eapply serverSearch_calm; eauto. apply O.
  - intros q O. destruct (K _ _ O) as (idx & G). apply safe_calm. eapply serverContact_calm; eauto. apply O.
  - intros q O. destruct (K _ _ O) as (idx & G). apply safe_calm. eapply serverOwnerInit_calm; eauto. apply O.
  - intros q O. destruct (K _ _ O) as (idx & G). apply safe_calm. eapply serverOwnerMonitor_calm; eauto. apply O.
  - intros q O. destruct (K _ _ O) as (idx & G). unfold setRequest. rewrite (proj1 G). cbn [bind]. eexists. split; [reflexivity|]. intros sequencer S. apply FS.
    apply process_calm; [split; [apply O|exact G]|]. cbn [up_label]. apply sequenced_ok; [apply O|exact S].
  - intros q lv O. destruct (K _ _ O) as (idx & G). unfold setManagerRequest. split.
    + apply safe_calm, calm_bind'; [apply operator_calm|]. intros _. rewrite (proj1 G). exact I.
    + intros u sequencer Eu S. destruct (operatorSignatures _ _ _ _ _); try discriminate. cbn [bind] in Eu. rewrite (proj1 G) in Eu. cbn [bind] in Eu. injection Eu as <-. apply FS.
      apply process_calm; [split; [apply O|exact G]|]. cbn [up_label]. apply sequenced_ok; [apply O|exact S].
Qed.
End Whole.

Lemma c50_partial_all : forall f hs, (forall x, lenN (f x) = hs) -> 0 < hs <= 32 -> forall c vrf sign Ls, vrfGood hs vrf Ls ->
  forall now t rs a, runs (full f) hs c vrf sign Ls t rs ->
  (forall q, ordinary Ls rs (sq_label q) (sq_last q) -> optok smallVersion (sq_version q) -> safe (serverSearch (full f) hs c vrf now (serverWith t a) q)) /\
  (forall q, ordinary Ls rs (cq_label q) (cq_last q) -> safe (serverContactMonitor (full f) hs c vrf now (serverWith t a) q)) /\
  (forall q, ordinary Ls rs (iq_label q) (iq_last q) -> safe (serverOwnerInit (full f) hs c vrf now (serverWith t a) q)) /\
  (forall q, ordinary Ls rs (oq_label q) (oq_last q) -> safe (serverOwnerMonitor (full f) hs c vrf now (serverWith t a) q)) /\
  (forall q, ordinary Ls rs (uq_label q) (uq_last q) -> exists u, setRequest (serverWith t a) q = Ok u /\
    forall sequencer, sequenced (full f) hs c vrf sign Ls (uq_label q) sequencer -> Forall safe (process (full f) hs c vrf now sequencer u)) /\
  (forall q leafVerify, ordinary Ls rs (mq_label q) (mq_last q) -> safe (setManagerRequest c leafVerify (serverWith t a) q) /\
    forall u sequencer, setManagerRequest c leafVerify (serverWith t a) q = Ok u -> sequenced (full f) hs c vrf sign Ls (mq_label q) sequencer ->
      Forall safe (process (full f) hs c vrf now sequencer u)).
Proof. intros f hs Hf Hhs c vrf sign Ls HV now t rs a R. eapply c50_partial; eauto. Qed.
