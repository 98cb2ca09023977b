(** The client's verification functions end with a result or an error, whatever decodable response they are given:
    programs, provider and checks at the end. *)
From Verif Require Import Base BaseProofs LogMathModel LogMathSpec LogMathProofs LogMathProofs2 NodeMathProofs LogTreeModel LogTreeSpec LogTreeProofs LogTreeProofs3 LogVerifyProofs LogVerifyProofs2 LogChunkModel
  TransMathModel TransMathSpec TransMathProofs TransMathProofs2 LaddersModel LaddersProofs
  PrefixModel PrefixSpec PrefixVerifyProofs3 CodecModel CodecSpec AlgModel AlgSpec AlgProofs AlgProofs2 AlgProofs3 AlgProofs4 HandleModel HandleProofs
  StoreModel CommitModel MutateModel MutateSpec MutateProofs5 AuditorProofs5 ServerModel ClientModel.
Open Scope N_scope.
Local Open Scope list_scope.

(** ** Programs, with the versions they ask for *)

Fixpoint wq (okv : N -> Prop) {A} (Q : A -> Prop) (p : prog A) : Prop :=
  match p with
  | Ret a => Q a
  | Err _ => True
  | Crash _ | Diverge => False
  | GetTs x k e => (forall t, wq okv Q (k t)) /\ (forall m, wq okv Q (e m))
  | GetLadder x v o k e => okv v /\ (forall t, wq okv Q (k t)) /\ (forall m, wq okv Q (e m))
  | GetMonitoring x v k e => okv v /\ wq okv Q k /\ (forall m, wq okv Q (e m))
  | GetIncl x v k e => wq okv Q k /\ (forall m, wq okv Q (e m))
  | StopCond x v k => forall b, wq okv Q (k b)
  | TrackLadder x o g l k => wq okv Q k
  end.

(** Programs that ask for no versions. *)
Fixpoint silent {A} (p : prog A) : Prop :=
  match p with
  | GetTs x k e => (forall t, silent (k t)) /\ (forall m, silent (e m))
  | GetLadder _ _ _ _ _ | GetMonitoring _ _ _ _ => False
  | GetIncl x v k e => silent k /\ (forall m, silent (e m))
  | StopCond x v k => forall b, silent (k b)
  | TrackLadder x o g l k => silent k
  | _ => True
  end.
Lemma silent_bind {A B} (p : prog A) (f : A -> prog B) : silent p -> (forall a, silent (f a)) -> silent (pbind p f).
Proof. intros Hp Hf. induction p; cbn in *; intuition. Qed.
Lemma silent_lift {A} (r : res A) : silent (lift r).
Proof. destruct r; exact I. Qed.
Lemma silent_getTs x : silent (getTs x).
Proof. cbn. auto. Qed.

Lemma rightmost_loop_silent c fuel n rm : forall x, silent (rightmost_loop c fuel n rm x).
Proof.
  induction fuel as [|f IH]; intro x; [exact I|]. cbn [rightmost_loop]. destruct (_ =? _); [exact I|].
  apply silent_bind; [apply silent_getTs|]. intro t. destruct (negb _); [exact I|]. apply silent_bind; [apply silent_lift|auto].
Qed.
Lemma rightmost_silent c n : silent (rightmostDistinguished c n).
Proof.
  unfold rightmostDistinguished. destruct (_ =? _); [exact I|]. apply silent_bind; [apply silent_getTs|]. intro t.
  destruct (negb _); [exact I|]. apply rightmost_loop_silent.
Qed.
Lemma getAllTs_silent xs : silent (getAllTs xs).
Proof. induction xs as [|x t IH]; [exact I|]. cbn [getAllTs]. apply silent_bind; [apply silent_getTs|auto]. Qed.
Lemma updateView_silent c now n m : silent (updateView c now n m).
Proof.
  unfold updateView. destruct (match m with Some m0 => n <? m0 | None => false end); [exact I|]. destruct (_ =? _); [exact I|].
  apply silent_bind; [apply silent_lift|]. intro xs. apply silent_bind; [apply getAllTs_silent|]. intros _.
  apply silent_bind; [apply silent_getTs|]. intro t. destruct (_ && _); [exact I|]. destruct (_ && _); exact I.
Qed.

Section Wq.
Variable okv : N -> Prop.

Lemma wq_bind {A B} (Q : B -> Prop) (p : prog A) (f : A -> prog B) : wq okv (fun a => wq okv Q (f a)) p -> wq okv Q (pbind p f).
Proof. induction p; cbn; intuition. Qed.
Lemma wq_mono {A} (Q R : A -> Prop) (p : prog A) : (forall a, Q a -> R a) -> wq okv Q p -> wq okv R p.
Proof. intro H. induction p; cbn; intuition. Qed.
Lemma wq_catch {A} (Q : A -> Prop) (p : prog A) (h : string -> prog A) : wq okv Q p -> (forall m, wq okv Q (h m)) -> wq okv Q (pcatch p h).
Proof. intros H Hh. induction p; cbn in *; intuition. Qed.
Lemma wq_lift {A} (Q : A -> Prop) (r : res A) a : r = Ok a -> Q a -> wq okv Q (lift r).
Proof. intros -> H. exact H. Qed.
Lemma wq_getTs (Q : N -> Prop) x : (forall t, Q t) -> wq okv Q (getTs x).
Proof. intro H. cbn. auto. Qed.
Lemma wq_getLadder (Q : Z -> Prop) x v o : okv v -> (forall t, Q t) -> wq okv Q (getLadder x v o).
Proof. intros Hv H. cbn. auto. Qed.

Lemma wq_silent {A} (Q : A -> Prop) (p : prog A) : silent p -> wp Q p -> wq okv Q p.
Proof. induction p; cbn; intuition. Qed.

(** Running a program against a provider that is calm on the states it reaches. *)
Definition calmStep {A S} (I : S -> Prop) (r : res A * S) : Prop := calm (fst r) /\ I (snd r).

Lemma wq_run {A S} (P : provider S) (I : S -> Prop) (Q : A -> Prop) :
  (forall s x, I s -> calmStep I (pTs P s x)) ->
  (forall s x v o, okv v -> I s -> calmStep I (pLadder P s x v o)) ->
  (forall s x v, okv v -> I s -> calmStep I (pMon P s x v)) ->
  (forall s x l, I s -> calmStep I (pIncl P s x l)) ->
  (forall s x o g l, I s -> I (pTrack P s x o g l)) ->
  forall (p : prog A) s, wq okv Q p -> I s ->
  match result (run P p s) with Ok a => Q a | Fail _ => True | _ => False end /\ I (final (run P p s)).
Proof.
  intros T1 T2 T3 T4 T5. induction p as [a|m|m| |x k IHk e IHe|x v o k IHk e IHe|x v k IHk e IHe|x v k IHk e IHe|x v k IHk|x o g l k IHk]; cbn [wq run]; intros s H HI;
    try (cbn; tauto).
  - pose proof (T1 s x HI) as [A1 A2]. destruct (pTs P s x) as [[a|m|m|] s']; cbn in A1, A2; try tauto.
    + destruct H as [H _]. specialize (IHk a s' (H a) A2). destruct (run P (k a) s') as [[? ?] ?]. exact IHk.
    + destruct H as [_ H]. specialize (IHe m s' (H m) A2). destruct (run P (e m) s') as [[? ?] ?]. exact IHe.
  - destruct H as (Hv & H). pose proof (T2 s x v o Hv HI) as [A1 A2]. destruct (pLadder P s x v o) as [[a|m|m|] s']; cbn in A1, A2; try tauto.
    + destruct H as [H _]. specialize (IHk a s' (H a) A2). destruct (run P (k a) s') as [[? ?] ?]. exact IHk.
    + destruct H as [_ H]. specialize (IHe m s' (H m) A2). destruct (run P (e m) s') as [[? ?] ?]. exact IHe.
  - destruct H as (Hv & H). pose proof (T3 s x v Hv HI) as [A1 A2]. destruct (pMon P s x v) as [[a|m|m|] s']; cbn in A1, A2; try tauto.
    + destruct H as [H _]. specialize (IHk s' H A2). destruct (run P k s') as [[? ?] ?]. exact IHk.
    + destruct H as [_ H]. specialize (IHe m s' (H m) A2). destruct (run P (e m) s') as [[? ?] ?]. exact IHe.
  - pose proof (T4 s x v HI) as [A1 A2]. destruct (pIncl P s x v) as [[a|m|m|] s']; cbn in A1, A2; try tauto.
    + destruct H as [H _]. specialize (IHk s' H A2). destruct (run P k s') as [[? ?] ?]. exact IHk.
    + destruct H as [_ H]. specialize (IHe m s' (H m) A2). destruct (run P (e m) s') as [[? ?] ?]. exact IHe.
  - specialize (IHk (pStop P s x v) s (H _) HI). destruct (run P (k _) s) as [[? ?] ?]. exact IHk.
  - specialize (IHk (pTrack P s x o g l) H (T5 _ _ _ _ _ HI)). destruct (run P k _) as [[? ?] ?]. exact IHk.
Qed.
End Wq.

(** ** Ladders and prefix proofs *)

Definition okVersion (v : N) : Prop := v < 2 ^ 31 - 1.

Lemma base_calm v : okVersion v -> calm (baseBinaryLadder v).
Proof. intro H. destruct (base_spec v H) as (l & -> & _). exact I. Qed.
Lemma search_calm v n li rn : okVersion v -> calm (searchBinaryLadder v n li rn).
Proof. intro H. unfold searchBinaryLadder. apply calm_bind'; [apply base_calm; auto|]. intro; exact I. Qed.
Lemma monitoring_calm v : okVersion v -> calm (monitoringBinaryLadder v).
Proof. intro H. unfold monitoringBinaryLadder. apply calm_bind'; [apply base_calm; auto|]. intro; exact I. Qed.
Lemma interpret_loop_calm ladder t : forall rs, calm (interpret_loop ladder t rs).
Proof.
  induction ladder as [|v l IH]; intros [|r rs]; try exact I. cbn [interpret_loop]. destruct (_ && _); [destruct rs; exact I|].
  destruct (_ && _); [destruct rs; exact I|]. apply IH.
Qed.
Lemma interpret_calm ladder t rs : calm (interpretSearchLadder ladder t rs).
Proof. unfold interpretSearchLadder. destruct (_ <? _)%nat; [exact I|]. apply interpret_loop_calm. Qed.
Lemma lookup_calm vm : forall vers inc, calm (lookupEntries vm vers inc).
Proof.
  induction vers as [|v vers IH]; intros [|i inc]; try exact I. cbn [lookupEntries]. destruct (mget vm v) as [[vrf com]|]; [|exact I].
  destruct (_ && _); [exact I|]. apply calm_bind'; [apply IH|]. intro; exact I.
Qed.

Definition lowProof (hs : nat) (p : pproof) : Prop := forall r, In r (p_results p) -> (rdepth r <= 8 * hs)%nat.

Lemma Evaluate_calm H hs es p : lowProof hs p -> calm (Evaluate H hs es p).
Proof. intro L. unfold Evaluate. apply calm_bind'; [apply (evaluate_calm hs es p L)|]. intro. apply nodeHash_calm. Qed.

Section Provider.
Variable H : bytes -> option bytes.
Variable hs : N.

Definition lowProofs (d : dataProvider received) : Prop := Forall (lowProof (N.to_nat hs)) (r_proofs (d_handle d)).

Lemma addTimestamp_calm c x t : calm (addTimestamp c x t).
Proof. unfold addTimestamp. destruct (mhas _ _); [exact I|]. destruct (existsb _ _); exact I. Qed.
Lemma addPrefixTree_calm c x t : calm (addPrefixTree c x t).
Proof. unfold addPrefixTree. destruct (mget _ _); [|exact I]. destruct (bytes_eqb _ _); exact I. Qed.

Lemma dpTs_calm d x : lowProofs d -> calmStep lowProofs (dpTs (receivedHandle H hs) d x).
Proof.
  intro L. unfold dpTs. destruct (mget (d_ts d) x); [split; [exact I|exact L]|].
  cbn [hTs receivedHandle]. unfold rTs. destruct (r_ts (d_handle d)) as [|t rest]; [split; [exact I|exact L]|].
  pose proof (addTimestamp_calm (d_ts d) x t). cbn [d_ts withHandle]. destruct (addTimestamp (d_ts d) x t); cbn in *; try tauto; (split; [exact I|exact L]).
Qed.

Lemma dpRoot_calm {A} d x (r : res (bytes * A)) h : calm r -> Forall (lowProof (N.to_nat hs)) (r_proofs h) -> calmStep lowProofs (dpRoot d x r h).
Proof.
  intros C L. unfold dpRoot. destruct r as [[root a]|m|m|]; cbn in C; try tauto; [|split; [exact I|exact L]].
  pose proof (addPrefixTree_calm (d_roots d) x root). cbn [d_roots withHandle]. destruct (addPrefixTree _ _ _); cbn in *; try tauto; (split; [exact I|exact L]).
Qed.

Lemma keeping_calm {A} r (a : res (A * received)) : calm a -> Forall (lowProof (N.to_nat hs)) (r_proofs r) ->
  (forall x r', a = Ok (x, r') -> Forall (lowProof (N.to_nat hs)) (r_proofs r')) ->
  calm (fst (keeping r a)) /\ Forall (lowProof (N.to_nat hs)) (r_proofs (snd (keeping r a))).
Proof. intros C L E. unfold keeping. destruct a as [[x r']|m|m|]; cbn in *; try tauto. split; [exact I|eauto]. Qed.

Ltac popped := intros ? ? E; repeat (match type of E with
  | bind ?x _ = Ok _ => destruct x; [cbn [bind] in E|discriminate..]
  | (if ?b then _ else _) = Ok _ => destruct b; [discriminate|]
  end); injection E as _ <-; cbn [popProof r_proofs]; auto.

Lemma rLadder_calm r x v o : okVersion v -> Forall (lowProof (N.to_nat hs)) (r_proofs r) ->
  calm (fst (rLadder H hs r x v o)) /\ Forall (lowProof (N.to_nat hs)) (r_proofs (snd (rLadder H hs r x v o))).
Proof.
  intros Hv L. unfold rLadder. apply keeping_calm; auto.
  - destruct (r_proofs r) as [|p rest]; [exact I|]. inversion L; subst. destruct (searchMaps _ _ _) as [li rn].
    apply calm_bind'; [apply search_calm; auto|]. intro l. apply calm_bind'; [apply interpret_calm|]. intro z.
    apply calm_bind'; [apply lookup_calm|]. intro es. apply calm_bind'; [apply Evaluate_calm; auto|]. intro; exact I.
  - destruct (r_proofs r) as [|p rest]; [discriminate|]. inversion L; subst. destruct (searchMaps _ _ _) as [li rn]. cbn zeta. popped.
Qed.
Lemma rMon_calm r x v : okVersion v -> Forall (lowProof (N.to_nat hs)) (r_proofs r) ->
  calm (fst (rMon H hs r x v)) /\ Forall (lowProof (N.to_nat hs)) (r_proofs (snd (rMon H hs r x v))).
Proof.
  intros Hv L. unfold rMon. apply keeping_calm; auto.
  - destruct (r_proofs r) as [|p rest]; [exact I|]. inversion L; subst.
    apply calm_bind'; [apply monitoring_calm; auto|]. intro l. destruct (negb _); [exact I|]. destruct (negb _); [exact I|].
    apply calm_bind'; [apply lookup_calm|]. intro es. apply calm_bind'; [apply Evaluate_calm; auto|]. intro; exact I.
  - destruct (r_proofs r) as [|p rest]; [discriminate|]. inversion L; subst. popped.
Qed.
Lemma rIncl_calm r x l : Forall (lowProof (N.to_nat hs)) (r_proofs r) ->
  calm (fst (rIncl H hs r x l)) /\ Forall (lowProof (N.to_nat hs)) (r_proofs (snd (rIncl H hs r x l))).
Proof.
  intros L. unfold rIncl. apply keeping_calm; auto.
  - destruct (r_proofs r) as [|p rest]; [exact I|]. inversion L; subst.
    destruct (negb _); [exact I|]. destruct (negb _); [exact I|].
    apply calm_bind'; [apply lookup_calm|]. intro es. apply calm_bind'; [apply Evaluate_calm; auto|]. intro; exact I.
  - destruct (r_proofs r) as [|p rest]; [discriminate|]. inversion L; subst. popped.
Qed.

Lemma dpLadder_calm d x v o : okVersion v -> lowProofs d -> calmStep lowProofs (dpLadder (receivedHandle H hs) d x v o).
Proof.
  intros Hv L. unfold dpLadder. destruct (dpTs_calm d x L) as [C L1]. destruct (dpTs _ d x) as [[t|m|m|] d1]; cbn in C, L1; try tauto; [|split; [exact I|exact L1]].
  cbn [hLadder receivedHandle]. destruct (rLadder_calm (d_handle d1) x v o Hv L1) as [C2 L2]. destruct (rLadder H hs _ _ _ _) as [r h]. cbn in C2, L2.
  apply dpRoot_calm; auto.
Qed.
Lemma noResult_calm r : calm r -> calm (noResult r).
Proof. destruct r; cbn; auto. Qed.
Lemma dpMon_calm d x v : okVersion v -> lowProofs d -> calmStep lowProofs (dpMon (receivedHandle H hs) d x v).
Proof.
  intros Hv L. unfold dpMon. destruct (dpTs_calm d x L) as [C L1]. destruct (dpTs _ d x) as [[t|m|m|] d1]; cbn in C, L1; try tauto; [|split; [exact I|exact L1]].
  cbn [hMon receivedHandle]. destruct (rMon_calm (d_handle d1) x v Hv L1) as [C2 L2]. destruct (rMon H hs _ _ _) as [r h]. cbn in C2, L2.
  apply dpRoot_calm; auto. apply noResult_calm; auto.
Qed.
Lemma dpIncl_calm d x l : lowProofs d -> calmStep lowProofs (dpIncl (receivedHandle H hs) d x l).
Proof.
  intros L. unfold dpIncl. destruct l as [|v l]; [split; [exact I|exact L]|]. destruct (dpTs_calm d x L) as [C L1].
  destruct (dpTs _ d x) as [[t|m|m|] d1]; cbn in C, L1; try tauto; [|split; [exact I|exact L1]].
  cbn [hIncl receivedHandle]. destruct (rIncl_calm (d_handle d1) x (v :: l) L1) as [C2 L2]. destruct (rIncl H hs _ _ _) as [r h]. cbn in C2, L2.
  apply dpRoot_calm; auto. apply noResult_calm; auto.
Qed.

Lemma received_run {A} (Q : A -> Prop) (p : prog A) d : wq okVersion Q p -> lowProofs d ->
  match result (run (dpProvider (receivedHandle H hs)) p d) with Ok a => Q a | Fail _ => True | _ => False end /\
  lowProofs (final (run (dpProvider (receivedHandle H hs)) p d)).
Proof.
  intros W L. refine (wq_run okVersion (dpProvider (receivedHandle H hs)) lowProofs Q _ _ _ _ _ p d W L); cbn [pTs pLadder pMon pIncl pTrack dpProvider]; intros.
  - apply dpTs_calm; auto.
  - apply dpLadder_calm; auto.
  - apply dpMon_calm; auto.
  - apply dpIncl_calm; auto.
  - assumption.
Qed.

(** ** The checks at the end *)

Lemma getOr_calm {A} m (o : option A) : calm (getOr m o).
Proof. destruct o; exact I. Qed.
Lemma logEntryHash_calm e : calm (logEntryHash H e).
Proof. unfold logEntryHash, logEntryMarshal. cbn [bind]. destruct (H _); exact I. Qed.
Lemma rFinish_calm r : calm (rFinish r).
Proof. unfold rFinish. destruct (r_ts r); [|exact I]. destruct (r_proofs r); [|exact I]. destruct (r_roots r); exact I. Qed.

Lemma inspected_calm d : calm (fst (inspectedLeaves (receivedHandle H hs) d)).
Proof.
  unfold inspectedLeaves. cbn [hRoots receivedHandle]. unfold rRoots. destruct (negb _); [exact I|]. destruct (negb _); exact I.
Qed.

Lemma dpFinish_calm d n nP m : sized H hs -> 0 < hs -> 1 <= n < 2 ^ 64 -> (forall k, m = Some k -> k <= n) -> calm (dpFinish H hs d n nP m).
Proof.
  intros Hs Hh Hn Hm. unfold dpFinish. pose proof (inspected_calm d) as C0. destruct (inspectedLeaves _ d) as [[pos|e|e|] d1]; cbn [fst calm] in C0; try tauto.
  apply calm_bind'; [apply mapM_calm; intros x _; apply calm_bind'; [apply getOr_calm|intro; apply calm_bind'; [apply getOr_calm|intro; apply logEntryHash_calm]]|]. intro values.
  apply calm_bind'; [apply rFinish_calm|]. intro proof.
  apply calm_bind'.
  { destruct (verifyBatch_total H hs (option_map (fun k => (k, d_subtrees d1)) m) pos n nP values proof) as [(fs & ad & ->)|(msg & ->)]; auto; try exact I.
    destruct m as [k|]; cbn; auto. }
  intros [fs ad]. destruct (c10_frontier n Hn) as (front & -> & _). cbn [bind].
  apply calm_bind'; [apply mapM_calm; intros x _; apply calm_bind'; [apply getOr_calm|intro; apply calm_bind'; [apply getOr_calm|intro; exact I]]|].
  intro; exact I.
Qed.

Lemma treeHash_calm l r : sized H hs -> 0 < hs -> snd l <> [] -> snd r <> [] ->
  calm (treeHash H l r) /\ forall a, treeHash H l r = Ok a -> snd a <> [].
Proof.
  intros Hs Hh Hl Hr. destruct l as [lf [|a0 l0]]; [cbn in Hl; congruence|]. destruct r as [rf [|b0 r0]]; [cbn in Hr; congruence|].
  unfold treeHash, LogTreeModel.nodeMarshal. cbn [fst snd bind].
  match goal with |- context [H ?x] => destruct (H x) as [h|] eqn:E end; cbn [of_opt bind]; [|split; [exact I|discriminate]]. split; [exact I|].
  intros a [= <-]. cbn [snd]. apply Hs in E. intros ->. unfold lenN in E. cbn in E. lia.
Qed.
Lemma rollup_calm l : sized H hs -> 0 < hs -> Forall (fun e => snd e <> []) l -> forall acc, snd acc <> [] -> calm (rollup H l acc).
Proof.
  intros Hs Hh F. induction F as [|[x v] l Hv F IH]; intros acc Ha; [exact I|]. cbn [rollup].
  destruct (treeHash_calm (isLeaf x, v) acc Hs Hh Hv Ha) as [C1 C2]. apply calm_bind; [exact C1|]. intros a E. apply IH. eapply C2; eauto.
Qed.
Lemma logRoot_calm n fs : sized H hs -> 0 < hs -> calm (logRoot H hs n fs).
Proof.
  intros Hs Hh. unfold logRoot. rewrite maxTreeSize_two63. destruct (N.eqb_spec n 0); [exact I|]. destruct (N.ltb_spec two63 n); [exact I|]. cbn [orb].
  destruct (fullSubtrees_root n) as (pn & -> & P); [lia|]. cbn [bind].
  destruct (negb _) eqn:EL; [exact I|]. apply negb_false_iff, N.eqb_eq in EL.
  destruct (existsb _ _) eqn:EW; [exact I|].
  assert (F : Forall (fun e : N * bytes => snd e <> []) (rev (combine (map nodeOf pn) fs))).
  { apply Forall_forall. intros [x v] Hi. apply in_rev, in_combine_r in Hi. cbn [snd]. intros ->.
    assert (B : existsb (wrongSize hs) fs = true); [|congruence]. apply existsb_exists. exists []. split; auto. unfold wrongSize, lenN. cbn.
    destruct hs; [lia|reflexivity]. }
  destruct (rev (combine (map nodeOf pn) fs)) as [|[x v] t] eqn:ER.
  - apply (f_equal (@List.length _)) in ER. rewrite rev_length, combine_length in ER. cbn in ER. unfold lenN in EL.
    assert (List.length (map nodeOf pn) <> 0%nat) by (rewrite map_length; inversion P; discriminate). lia.
  - inversion F; subst. apply calm_bind'; [apply rollup_calm; auto|]. intro; exact I.
Qed.
End Provider.
