(** Requests that the server does not answer. *)
From Verif Require Import Base LogMathModel LogTreeModel LogChunkModel TransMathModel LaddersModel LaddersProofs PrefixModel CodecModel AlgModel HandleModel
  StoreModel CommitModel MutateModel ServerModel.
Local Open Scope string_scope.
Open Scope N_scope.

Lemma frontier_0 : exists e, frontier 0 = Panic e.
Proof. eexists. vm_compute. reflexivity. Qed.

Section Server.
Variable H : bytes -> option bytes.
Variable hs : N.
Variable c : pubConfig.
Variable vrf : bytes -> bytes * bytes.
Variable now : N.

Lemma serverHead_0 t th : sv_head t = Some th -> 0 < th_size th ->
  serverHead t (Some 0) = Ok ({| fth_head := Some th; fth_auditor := sv_auditor t |}, th_size th, option_map ath_size (sv_auditor t), Some 0).
Proof.
  intros E P. unfold serverHead. rewrite E. destruct (N.eqb_spec 0 (th_size th)); [lia|]. destruct (N.ltb_spec (th_size th) 0); [lia|]. reflexivity.
Qed.

Lemma serverView_0 t n d : exists e, serverView hs c now t (Some 0) n d = Panic e.
Proof. destruct frontier_0 as (e & F). exists e. unfold serverView, frontierEntries. rewrite F. reflexivity. Qed.

Lemma startMonitor_0 t th l idx : sv_head t = Some th -> 0 < th_size th -> serverIndex t l = Ok idx ->
  exists e, startMonitor hs c now t (Some 0) l = Panic e.
Proof.
  intros E P I. destruct (serverView_0 t (th_size th) (newDataProvider (newProduced idx))) as (e & V). exists e.
  unfold startMonitor. rewrite (serverHead_0 t th E P). cbn [Base.bind]. rewrite I. cbn [Base.bind]. rewrite V. reflexivity.
Qed.

Lemma contact_0 t th q idx : sv_head t = Some th -> 0 < th_size th -> serverIndex t (cq_label q) = Ok idx -> cq_last q = Some 0 ->
  exists e, serverContactMonitor H hs c vrf now t q = Panic e.
Proof.
  intros E P I L. destruct (startMonitor_0 t th _ _ E P I) as (e & V). exists e. unfold serverContactMonitor. rewrite L, V. reflexivity.
Qed.
Lemma init_0 t th q idx : sv_head t = Some th -> 0 < th_size th -> serverIndex t (iq_label q) = Ok idx -> iq_last q = Some 0 ->
  exists e, serverOwnerInit H hs c vrf now t q = Panic e.
Proof.
  intros E P I L. destruct (startMonitor_0 t th _ _ E P I) as (e & V). exists e. unfold serverOwnerInit. rewrite L, V. reflexivity.
Qed.
Lemma owner_0 t th q idx : sv_head t = Some th -> 0 < th_size th -> serverIndex t (oq_label q) = Ok idx -> oq_last q = Some 0 ->
  exists e, serverOwnerMonitor H hs c vrf now t q = Panic e.
Proof.
  intros E P I L. destruct (startMonitor_0 t th _ _ E P I) as (e & V). exists e. unfold serverOwnerMonitor. rewrite L, V. reflexivity.
Qed.

Lemma ladder_top v left incl : 2 ^ 31 - 1 <= v < 2 ^ 32 -> searchBinaryLadder v v left incl = Fuel.
Proof. intro V. unfold searchBinaryLadder, baseBinaryLadder. rewrite base_diverges by exact V. reflexivity. Qed.

Lemma search_top t th q idx v : sv_head t = Some th -> sq_last q = None \/ (exists k, sq_last q = Some k /\ k <= th_size th) ->
  serverIndex t (sq_label q) = Ok idx -> sq_version q = Some v -> 2 ^ 31 - 1 <= v < 2 ^ 32 ->
  serverSearch H hs c vrf now t q = Fuel.
Proof.
  intros E L I Q V. unfold serverSearch. assert (exists x, serverHead t (sq_last q) = Ok x) as ([[[fth n] nP] m] & ->).
  { unfold serverHead. rewrite E. destruct L as [->|(k & -> & K)]; [eauto|]. destruct (k =? th_size th); [eauto|].
    destruct (N.ltb_spec (th_size th) k); [lia|eauto]. }
  cbn [Base.bind]. rewrite I. cbn [Base.bind]. rewrite Q. unfold searchLadderFor. rewrite ladder_top by exact V. reflexivity.
Qed.

(** ** Update *)

Lemma run_err {S A} (P : provider S) e (s : S) : run P (Err e : prog A) s = (Fail e, s, []).
Proof. reflexivity. Qed.

Lemma newMonitor_owner {S} (P : provider S) n s mo : result (run P (newMonitor n) s) = Ok mo -> mo_owner mo = None.
Proof.
  unfold newMonitor. destruct (n =? 0); [discriminate|]. intro E. cbn in E. destruct (pTs P s (sub64 n 1)) as [[x|e|e|] s'].
  all: cbn in E; try discriminate. injection E as <-. reflexivity.
Qed.

Lemma update_none mo pos k (hd : handleIf produced) d : mo_owner mo = None ->
  exec hd (update c mo pos k) d = Fail "label owner state has not been initialized".
Proof. intro E. unfold exec, update. rewrite E. reflexivity. Qed.

Lemma updaterNext_never u w out : updaterNext H hs c vrf now u w <> Ok out.
Proof.
  unfold updaterNext. destruct (nth_error _ _) as [pos|]; [|discriminate].
  destruct (updateInfos _ _ _ _ _ _) as [infos| | |]; try discriminate. cbn [Base.bind].
  destruct (updateLadderVersions _ _) as [vers| | |]; try discriminate. cbn [Base.bind].
  destruct (getBinaryLadder _ _ _ _ _ _ _ _) as [steps| | |]; try discriminate. cbn [Base.bind].
  destruct (serverHead _ _) as [[[[fth n] nP] m]| | |]; try discriminate. cbn [Base.bind].
  destruct (serverView _ _ _ _ _ _ _) as [d| | |]; try discriminate. cbn [Base.bind].
  destruct (exec _ (newMonitor n) d) as [[mo d1]| | |] eqn:E; try discriminate. cbn [Base.bind].
  assert (O : mo_owner mo = None).
  { unfold exec in E. destruct (result (run _ (newMonitor n) d)) as [mo'| | |] eqn:R; try discriminate. injection E as <- <-.
    eapply newMonitor_owner. exact R. }
  rewrite update_none by exact O. discriminate.
Qed.

Lemma sendVersions_never fuel u own r : In (Ok r) (fst (sendVersions H hs c vrf now fuel u own)) -> False.
Proof.
  destruct fuel; cbn [sendVersions]; [tauto|]. destruct (nth_error _ _); [|tauto].
  destruct (updaterNext _ _ _ _ _ _ _) as [[resp u1]| | |] eqn:E; [exfalso; eapply updaterNext_never; exact E| | |].
  all: cbn; intros [X|[]]; discriminate.
Qed.

Lemma process_never sequencer u r : ~ In (Ok r) (process H hs c vrf now sequencer u).
Proof.
  intro I. unfold process in I. destruct (sendVersions _ _ _ _ _ _ u None) as [out [u1|]] eqn:E.
  all: assert (O : ~ In (Ok r) out) by (intro X; eapply sendVersions_never; rewrite E; exact X).
  2: tauto.
  destruct (up_values u1); [tauto|]. destruct sequencer as [[s [pos|]]|].
  - destruct (reloadTree _ _ _ _) as [u2| | |]; apply in_app_iff in I; destruct I as [I|I]; try tauto.
    + eapply sendVersions_never. exact I.
    + destruct I as [I|[]]; discriminate.
    + destruct I as [I|[]]; discriminate.
    + destruct I as [I|[]]; discriminate.
  - apply in_app_iff in I. destruct I as [I|[I|[]]]; [tauto|discriminate].
  - apply in_app_iff in I. destruct I as [I|[I|[]]]; [tauto|discriminate].
Qed.

End Server.

Lemma size_zero : forall H hs c vrf now t th, sv_head t = Some th -> 0 < th_size th ->
  (forall q idx, serverIndex t (cq_label q) = Ok idx -> cq_last q = Some 0 -> exists e, serverContactMonitor H hs c vrf now t q = Panic e) /\
  (forall q idx, serverIndex t (iq_label q) = Ok idx -> iq_last q = Some 0 -> exists e, serverOwnerInit H hs c vrf now t q = Panic e) /\
  (forall q idx, serverIndex t (oq_label q) = Ok idx -> oq_last q = Some 0 -> exists e, serverOwnerMonitor H hs c vrf now t q = Panic e).
Proof.
  intros H hs c vrf now t th E P. split; [|split]; intros q idx I L.
  - eapply contact_0; eassumption.
  - eapply init_0; eassumption.
  - eapply owner_0; eassumption.
Qed.
