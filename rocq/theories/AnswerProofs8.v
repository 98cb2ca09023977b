(** What an owner has stored stays right when they monitor. *)
From Coq Require Import Sorted.
From Verif Require Import Base BaseProofs LogMathSpec TransMathModel TransMathSpec CodecModel AlgModel AlgSpec AlgProofs WatchSpec WatchProofs WatchProofs2 WatchProofs3 HandleModel StoreModel CommitModel MutateModel MutateSpec
  AnswerSpec AnswerSpec2.
Open Scope N_scope.
Local Open Scope list_scope.

Lemma tracks_total hist os : tracks hist os -> (os_verAt os + Z.of_nat (List.length (os_upcoming os)) = Z.of_nat (List.length hist) - 1)%Z.
Proof.
  intros (-> & ->). generalize (os_starting os). intro s. unfold countLe. assert (K : (List.length (filter (fun p => (p <=? s)%N) hist) + List.length (filter (fun p => (s <? p)%N) hist) = List.length hist)%nat); [|lia].
  induction hist as [|a h IH]; [reflexivity|]. cbn [filter]. destruct (N.leb_spec a s), (N.ltb_spec s a); cbn [List.length]; lia.
Qed.

Lemma monitored_right {S} (P : provider S) c L rs l : okTimes L -> AnswerSpec.describes L rs l -> forall finished, exhaustible P finished ->
  forall hist, StronglySorted N.le hist -> (Z.of_nat (List.length hist) < 4294967296)%Z ->
  forall m os s m' s' evs, watches m L -> mo_owner m = Some os -> tracks hist os -> rightState rs l os ->
  run P (ownerMonitor c m) s = (Ok (inr tt, m'), s', evs) -> Forall (trueEvent L) evs ->
  exists os', mo_owner m' = Some os' /\ tracks hist os' /\ rightState rs l os'.
Proof.
  intros HT (D1 & D2 & D3) finished Hx hist So Hl m os s m' s' evs Hw Eo T (R1 & R2 & R3) R F.
  destruct (ownerMonitor_true P c L HT finished Hx hist So Hl m os s m' s' evs Hw Eo T R F) as (os' & -> & T' & Le & Or & At & _).
  exists os'. split; [reflexivity|]. split; [exact T'|].
  assert (Tot : (os_verAt os' + Z.of_nat (List.length (os_upcoming os')) < Z.of_nat (List.length (labelsNow rs l)))%Z) by (rewrite (tracks_total _ _ T'), <- (tracks_total _ _ T); exact R3).
  destruct (N.eq_dec (os_starting os') (os_starting os)) as [Eq|Ne].
  - split; [rewrite Eq; exact R1|]. split; [|exact Tot]. destruct T as (_ & T), T' as (_ & T'). rewrite T', Eq, <- T. exact R2.
  - destruct Or as [Eq|D]; [contradiction|]. pose proof (w_n L HT) as Hn. assert (Lt : os_starting os' < lenN rs) by (apply DIn_range in D; [rewrite D1 in *; lia|lia]).
    split; [exact Lt|]. split; [|exact Tot]. specialize (At _ D ltac:(lia)). destruct T' as (_ & T'). rewrite T'. unfold expected in At. rewrite <- At, (D3 _ Lt). reflexivity.
Qed.
