(** What the client's provider was told is true of the log that the final root commits to, whatever that log holds. *)
From Verif Require Import Base BaseProofs LogTreeModel LogTreeSpec LogTreeProofs LogTreeProofs3 LogVerifyProofs2 LogChunkProofs7 TransMathModel LaddersModel PrefixModel PrefixSpec PrefixHistProofs
  CodecModel CodecSpec CodecProofs3 AlgModel AlgSpec HandleModel HandleProofs CommitModel CommitProofs MutateModel MutateSpec ServerModel ClientModel ClientProofs ClientProofs2 ClientSpec SoundSpec AcceptProofs SoundProofs
  WatchSpec GuardSpec GuardProofs.
From Verif Require Import LogTreeProperties.
Open Scope N_scope.
Local Open Scope list_scope.

(** ** Programs that look at whole ladders only; at search ladders if [lad] *)
Fixpoint plain (lad : bool) {A} (p : prog A) : Prop :=
  match p with
  | Ret _ | Err _ | Crash _ | Diverge => True
  | GetTs x k e => (forall a, plain lad (k a)) /\ (forall m, plain lad (e m))
  | GetLadder x v o k e => lad = true /\ o = false /\ (forall a, plain lad (k a)) /\ (forall m, plain lad (e m))
  | GetMonitoring x v k e => plain lad k /\ (forall m, plain lad (e m))
  | GetIncl _ _ _ _ => False
  | StopCond x v k => forall b, plain lad (k b)
  | TrackLadder _ _ _ _ k => False
  end.

Lemma plain_quiet lad {A} (p : prog A) : quiet p -> plain lad p.
Proof. induction p; cbn; intuition. Qed.
Lemma plain_bind lad {A B} (p : prog A) (k : A -> prog B) : plain lad p -> (forall a, plain lad (k a)) -> plain lad (pbind p k).
Proof. intros Hp Hk. induction p; cbn [plain pbind] in *; intuition. Qed.
Lemma plain_catch lad {A} (p : prog A) h : plain lad p -> (forall m, plain lad (h m)) -> plain lad (pcatch p h).
Proof. intros Hp Hk. induction p; cbn [plain pcatch] in *; intuition. Qed.
Lemma plain_lift lad {A} (r : res A) : plain lad (lift r).
Proof. destruct r; exact I. Qed.
Lemma plain_getTs lad x : plain lad (getTs x).
Proof. cbn. auto. Qed.
Lemma plain_getLadder x v : plain true (getLadder x v false).
Proof. cbn. auto. Qed.
Lemma plain_getMonitoring lad x v : plain lad (getMonitoring x v).
Proof. cbn. auto. Qed.
Lemma plain_stop lad x v : plain lad (stopCond x v).
Proof. cbn. auto. Qed.
Ltac plain1 :=
  repeat match goal with
    | |- plain ?lad (Ret _) => exact I
    | |- plain ?lad (Err _) => exact I
    | |- plain ?lad (Crash _) => exact I
    | |- plain ?lad Diverge => exact I
    | |- plain ?lad (lift _) => apply plain_lift
    | |- plain ?lad (getTs _) => apply plain_getTs
    | |- plain true (getLadder _ _ false) => apply plain_getLadder
    | |- plain ?lad (getMonitoring _ _) => apply plain_getMonitoring
    | |- plain ?lad (stopCond _ _) => apply plain_stop
    | |- plain ?lad (pbind _ _) => apply plain_bind; [|intros]
    | |- plain ?lad (pcatch _ _) => apply plain_catch; [|intros]
    | |- plain ?lad (if ?b then _ else _) => destruct b
    | |- plain ?lad (match ?x with _ => _ end) => destruct x
    end.

Lemma plain_newMonitor lad n : plain lad (newMonitor n).
Proof. unfold newMonitor. plain1. Qed.
Lemma plain_initLadders xs : forall vs, plain true (initLadders xs vs).
Proof. induction xs; intros [|]; cbn [initLadders]; plain1; apply IHxs. Qed.

Section Programs.
Variable c : pubConfig.
Lemma plain_ancestor lad fuel : forall n target curr left right best, plain lad (ancestor_loop c fuel n target curr left right best).
Proof. induction fuel; intros; cbn [ancestor_loop]; plain1; apply IHfuel. Qed.
Lemma plain_contact_loop lad ver : forall inspect previous, plain lad (contact_loop ver inspect previous).
Proof. induction inspect; intros; cbn [contact_loop]; plain1. apply IHinspect. Qed.
Lemma plain_contactAll lad m ptrs0 : forall xs previous ptrs, plain lad (contactAll c m ptrs0 xs previous ptrs).
Proof.
  induction xs; intros; cbn [contactAll]; plain1; [|apply IHxs]. unfold contactMonitorOne, distinguishedAncestor. apply plain_bind; [apply plain_ancestor|intro]. plain1. apply plain_contact_loop.
Qed.
Lemma plain_contact lad m : plain lad (contactMonitor c m).
Proof. unfold contactMonitor. plain1. apply plain_contactAll. Qed.
Lemma plain_expect x v : plain true (expectLadder x v false).
Proof. unfold expectLadder. plain1. Qed.
Lemma plain_owner_rec fuel : forall n os x left right, plain true (ownerMonitor_rec c fuel n os x left right).
Proof. induction fuel; intros; cbn [ownerMonitor_rec]; plain1; try apply plain_expect; apply IHfuel. Qed.
Lemma plain_owner m : plain true (ownerMonitor c m).
Proof. unfold ownerMonitor. destruct (mo_owner m); [|exact I]. apply plain_catch; [|intros; exact I]. apply plain_bind; [apply plain_owner_rec|intros; exact I]. Qed.
Lemma plain_init_rec lad fuel : forall m starting x left right, plain lad (init_rec c fuel m starting x left right).
Proof. induction fuel; intros; cbn [init_rec]; plain1; apply IHfuel. Qed.
Lemma plain_init m starting vs : plain true (ownerInit c m starting vs).
Proof.
  unfold ownerInit, initEntries. destruct (mo_owner m); [exact I|]. apply plain_bind; [apply plain_init_rec|intro]. plain1. apply plain_initLadders.
Qed.
End Programs.

Lemma events_addEv {A S} e (r : res A * S * list event) : events (addEv e r) = e :: events r.
Proof. destruct r as [[a s] l]. reflexivity. Qed.

(** ** The log *)

Section Guard.
Variable f : bytes -> bytes.
Variable T : list bytes.
Variable hs : N.
Hypothesis Hf : forall x, lenN (f x) = hs.
Hypothesis Hhs : 0 < hs.
Local Notation H := (restrict f T).
Local Notation nhs := (N.to_nat hs).
Local Notation RH := (receivedHandle H hs).
Local Notation P := (dpProvider RH).
Local Notation provider := (dataProvider received).
Variable vrf : bytes -> bytes * bytes.
Variable l : bytes.
Variable es : list logEntry.
Variable leaves : list bytes.
Variable trees : list trie.
Hypothesis Hlog : commitsTo H nhs es leaves trees.
Hypothesis Hts : Forall (fun e => le_ts e < two64) es.
Local Notation n := (lenN es).

Lemma g_hashes : Forall2 (fun e h => logEntryHash H e = Ok h) es leaves.
Proof. apply Hlog. Qed.

Definition tsOf (d : provider) : Prop := forall x t, mget (d_ts d) x = Some t -> exists e, nth_error es (N.to_nat x) = Some e /\ le_ts e = t.

Lemma finish_log d nP m pr r :
  dpFinish H hs d n nP m = Ok pr -> logRoot H hs n (pr_subtrees pr) = Ok r -> Mth H leaves r ->
  match m with Some k => k <= n | None => True end -> rootsTimed d -> smallTs d ->
  (forall x e, In (x, e) (d_retained d) -> nth_error es (N.to_nat x) = Some e /\ mget (d_roots d) x = Some (le_root e) /\ mget (d_ts d) x = Some (le_ts e)) ->
  rootsOf es d /\ tsOf d \/ collisionIn f T.
Proof.
  intros E Er Em Hm Td [_ Tt] Rt.
  destruct (finish_roots f T hs Hf Hhs es leaves g_hashes Hts d nP m pr r E Er Em Hm Td Tt) as [[R _]|C]; [| |auto].
  { intros x e I. destruct (Rt x e I) as (A & B & _). auto. }
  unfold dpFinish in E. destruct (inspectedLeaves RH d) as [[positions|e|e|] d1] eqn:Ei; try discriminate.
  unfold inspectedLeaves in Ei. set (lv := nsort _) in Ei. set (em := filter _ lv) in Ei. destruct (hRoots RH (d_handle d) em) as [[roots|e|e|] h]; try discriminate.
  destruct (negb _); [discriminate|]. injection Ei as <- <-.
  apply bind_ok in E. destruct E as (values & Ev & E). apply bind_ok in E. destruct E as (proof & Ep & E). apply bind_ok in E. destruct E as ([fs ad] & Eb & E).
  apply bind_ok in E. destruct E as (front & Ef & E). apply bind_ok in E. destruct E as (ents & Een & E). injection E as <-. cbn [pr_subtrees] in Er.
  assert (Hm' : match option_map (fun k => (k, d_subtrees (withRoots (withHandle d h) (fillRoots (d_roots (withHandle d h)) em roots)))) m with Some (m0, _) => m0 <= n | None => True end).
  { destruct m; cbn; auto. }
  destruct (C06_inclusion_sound f T hs _ _ n nP values proof fs ad leaves r Hf Hhs Hm' (leaves_len f T es leaves g_hashes) (leaf_sizes f T hs Hf es leaves g_hashes) Eb Er Em) as [(F & _)|C]; [|auto].
  apply mapM_inv in Ev. cbn [withRoots withHandle d_ts d_roots] in Ev, Een.
  destruct (restrict_collision f T) as [CF|C]; [|auto]. left. split; [exact R|].
  intros x t Et. destruct (mhas (d_retained d) x) eqn:Mr.
  - unfold mhas in Mr. destruct (mget (d_retained d) x) as [e|] eqn:Me; [|discriminate]. apply mget_In2 in Me. destruct (Rt x e Me) as (A & _ & B). exists e. split; [exact A|congruence].
  - assert (Ix : In x lv).
    { apply nsort_in. apply filter_In. split; [|now rewrite Mr]. eapply mget_In. exact Et. }
    assert (K : exists w, (let* ts := getOr "unreachable" (mget (d_ts d) x) in let* root := getOr "unreachable" (mget (fillRoots (d_roots d) em roots) x) in logEntryHash H {| le_ts := ts; le_root := root |}) = Ok w /\
                nth_error leaves (N.to_nat x) = Some w).
    { exact (Forall2_both _ _ _ _ x Ev F Ix). }
    destruct K as (w & K & Kw). rewrite Et in K. cbn [getOr bind] in K. destruct (mget (fillRoots (d_roots d) em roots) x) as [root|]; [|discriminate K]. cbn [getOr bind] in K.
    destruct (Forall2_nth _ _ _ _ _ g_hashes Kw) as (e & Ee & He).
    assert (Te : le_ts e < two64). { apply nth_error_In in Ee. rewrite Forall_forall in Hts. now apply Hts. }
    destruct (logEntryHash_inj f T {| le_ts := t; le_root := root |} e w (Tt _ _ Et) Te K He) as [Q|(a & b & A1 & A2 & A3 & A4)].
    + exists e. split; [exact Ee|]. now rewrite <- Q.
    + exfalso. apply A3. apply (CF a b (f a)); unfold restrict.
      * replace (existsb (bytes_eqb a) T) with true; [reflexivity|]. symmetry. apply existsb_exists. exists a. split; [exact A1|now apply bytes_eqb_eq].
      * replace (existsb (bytes_eqb b) T) with true; [now rewrite A4|]. symmetry. apply existsb_exists. exists b. split; [exact A2|now apply bytes_eqb_eq].
Qed.

(** ** What one lookup proves *)

(** The commitments known to the client. *)
Variable cl : N -> bytes -> Prop.

(** In the prefix tree of entry [x], version [w] is there ([b]), with a known commitment, or it is not. *)
Definition truthAt (x w : N) (b : bool) : Prop :=
  exists t, nth_error trees (N.to_nat x) = Some t /\
    if b then exists com, cl w com /\ heldAs vrf l t w = Some com else heldAs vrf l t w = None.

Definition keysKnown (vm : verMap) : Prop := forall w key o, mget vm w = Some (key, o) -> key = keyOf vrf l w /\ forall com, o = Some com -> cl w com.

Lemma tree_of_root d x root : rootsOf es d -> mget (d_roots d) x = Some root -> exists t, nth_error trees (N.to_nat x) = Some t /\ Canon nhs [] t /\ thash H nhs t = Some root.
Proof.
  intros Hr Hx. destruct (Hr x root Hx) as (e & Ee & <-). destruct Hlog as [_ F]. clear -F Ee. revert Ee. generalize (N.to_nat x). induction F as [|e0 t0 es0 ts0 E F IH]; intros [|k] Ee; try discriminate.
  - injection Ee as <-. exists t0. split; [reflexivity|exact E].
  - apply IH. exact Ee.
Qed.

Lemma combine_nth_in {A B} (xs : list A) (ys : list B) i a b : nth_error xs i = Some a -> nth_error ys i = Some b -> In (a, b) (combine xs ys).
Proof.
  revert ys i. induction xs as [|x xs IH]; intros [|y ys] [|i] E1 E2; try discriminate; cbn in *.
  - injection E1 as ->. injection E2 as ->. now left.
  - right. eapply IH; eassumption.
Qed.

Lemma lookup_true vm vs pf ents root d x : keysKnown vm -> okPrefixProof nhs pf -> rootsOf es d -> mget (d_roots d) x = Some root ->
  lookupEntries vm vs (map rincl (p_results pf)) = Ok ents -> Evaluate H nhs ents pf = Ok root ->
  (forall v c d w com, In (NonLeaf v c d) (p_results pf) -> cl w com -> v = keyOf vrf l w -> c = com) ->
  (forall i w v c d, nth_error vs i = Some w -> nth_error (p_results pf) i = Some (NonLeaf v c d) -> v <> keyOf vrf l w) ->
  (forall i w r, nth_error vs i = Some w -> nth_error (p_results pf) i = Some r -> truthAt x w (rincl r)) \/ broken f nhs T.
Proof.
  intros Hk [O1 O2] Hr Hx El Ev Hal Hown. destruct (tree_of_root d x root Hr Hx) as (t & Et & Ct & Ht).
  assert (W : wfProof nhs pf). { split; [exact O2|]. intros v0 c0 d0 I. rewrite Forall_forall in O1. destruct (O1 _ I) as [_ O]. exact O. }
  assert (NA : agreeing ents (p_results pf)).
  { intros v0 c0 d0 en r0 I I' R0 <-. destruct (lookup_known _ _ _ _ El en r0 I') as (w & ow & Ew & Es & Eo). destruct (Hk _ _ _ Ew) as [K1 K2].
    destruct ow as [cm|]; [|destruct (Eo R0); reflexivity]. rewrite Es. symmetry. eapply Hal; eauto. }
  assert (Hf' : forall x, List.length (f x) = nhs). { intro y. pose proof (Hf y). unfold lenN in *. lia. }
  destruct (verify_sound_weak f nhs T ents pf t root Hf' Ct W NA Ht Ev) as [Q|B]; [|auto]. left. intros i w r Hw Hi.
  assert (Hb : nth_error (map rincl (p_results pf)) i = Some (rincl r)) by (rewrite nth_error_map, Hi; reflexivity).
  destruct (lookup_spec _ _ _ _ El i w (rincl r) Hw Hb) as (key & o & K1 & K2 & K3). destruct (Hk _ _ _ K1) as [-> K4].
  specialize (Q _ _ (combine_nth_in _ _ _ _ _ K2 Hi)). cbn [fst snd] in Q.
  assert (Own : forall v0 c0 d0, r = NonLeaf v0 c0 d0 -> v0 <> keyOf vrf l w). { intros v0 c0 d0 ->. eapply Hown; eauto. }
  specialize (Q Own). exists t. split; [exact Et|]. unfold heldAs. destruct (rincl r); [|exact Q].
  destruct o as [com|]; [|destruct (K3 eq_refl); reflexivity]. exists com. auto.
Qed.

(** ** What the events of a run prove *)

Definition provenEvent (e : event) : Prop :=
  match e with
  | EvTs x (Ok t) => x < n /\ t = timeAt es x
  | EvLadder x v o (Ok z) => o = false /\ exists ladder results, searchBinaryLadder v v [] [] = Ok ladder /\ interpretSearchLadder ladder v results = Ok z /\
      forall i w b, nth_error ladder i = Some w -> nth_error results i = Some b -> truthAt x w b
  | EvMon x v (Ok _) => exists ladder, monitoringBinaryLadder v = Ok ladder /\ forall w, In w ladder -> truthAt x w true
  | EvIncl _ _ _ | EvTrack _ _ _ _ => False
  | _ => True
  end.

Variable pfs : list pproof.
Hypothesis Hpfs : Forall (okPrefixProof nhs) pfs.
Variable lad : bool.
Hypothesis Hal : lad = true -> aliasFree vrf l cl pfs.

Lemma tsOf_at d x t : tsOf d -> mget (d_ts d) x = Some t -> x < n /\ t = timeAt es x.
Proof.
  intros Ht Hx. destruct (Ht x t Hx) as (e & Ee & <-). unfold timeAt. rewrite Ee. split; [|reflexivity]. assert (nth_error es (N.to_nat x) <> None) by congruence. apply nth_error_Some in H. unfold lenN. lia.
Qed.

Lemma dpRoot_ok {A} (d : provider) x (r : res (bytes * A)) h a (d' : provider) : dpRoot d x r h = (Ok a, d') -> exists root, r = Ok (root, a) /\ mget (d_roots d') x = Some root.
Proof.
  unfold dpRoot. destruct r as [[root a0]|e|e|]; try discriminate. destruct (addPrefixTree (d_roots (withHandle d h)) x root) as [m| | |] eqn:Em; try discriminate.
  intro E. injection E as -> <-. exists root. split; [reflexivity|]. cbn. unfold addPrefixTree in Em. destruct (mget (d_roots (withHandle d h)) x) as [old|] eqn:Eo.
  - destruct (bytes_eqb root old) eqn:Eq; [|discriminate]. apply bytes_eqb_eq in Eq. subst old. injection Em as <-. exact Eo.
  - injection Em as <-. rewrite mget_mput, N.eqb_refl. reflexivity.
Qed.

Lemma ladder_proven d x v z d' fin : lad = true -> incl (r_proofs (d_handle d)) pfs -> keysKnown (vers d) -> dpLadder RH d x v false = (Ok z, d') -> ext d' fin -> rootsOf es fin ->
  provenEvent (EvLadder x v false (Ok z)) \/ broken f nhs T.
Proof.
  intros Hlad Hp Hk E X Hr. unfold dpLadder in E. pose proof (dpTs_ext H hs d x) as (E1 & _ & _ & _).
  destruct (dpTs RH d x) as [[t|e|e|] d1]; cbn [fst snd] in *; try discriminate. cbn [receivedHandle hLadder] in E.
  destruct (rLadder H hs (d_handle d1) x v false) as [r h] eqn:El. destruct (dpRoot_ok _ _ _ _ _ _ E) as (root & -> & Hroot). apply (x_roots _ _ X) in Hroot.
  unfold rLadder, keeping in El. destruct (r_proofs (d_handle d1)) as [|pf rest] eqn:Epf; [discriminate|].
  assert (Hpf : In pf pfs). { apply Hp. apply (x_proofs _ _ E1). rewrite Epf. now left. }
  unfold searchMaps in El. cbn [negb] in El.
  destruct (searchBinaryLadder v v [] []) as [ladder| | |] eqn:Es; try discriminate. cbn [bind] in El.
  destruct (interpretSearchLadder ladder v (map rincl (p_results pf))) as [z0| | |] eqn:Ei; try discriminate. cbn [bind] in El.
  destruct (lookupEntries (r_versions (d_handle d1)) ladder (map rincl (p_results pf))) as [ents| | |] eqn:Elk; try discriminate. cbn [bind] in El.
  destruct (Evaluate H nhs ents pf) as [root'| | |] eqn:Ev; try discriminate. cbn [bind] in El. injection El as -> -> <-.
  assert (Hk1 : keysKnown (r_versions (d_handle d1))). { fold (vers d1). rewrite (x_vers _ _ E1). exact Hk. }
  rewrite Forall_forall in Hpfs. destruct (Hal Hlad pf Hpf) as [A1 A2].
  destruct (lookup_true _ _ _ _ _ fin x Hk1 (Hpfs pf Hpf) Hr Hroot Elk Ev A1) as [Q|B]; [|left|auto].
  { intros i w v0 c0 d0 I1 I2. eapply A2; eauto. }
  cbn. split; [reflexivity|]. exists ladder, (map rincl (p_results pf)). split; [exact Es|]. split; [exact Ei|]. intros i w b I1 I2. rewrite nth_error_map in I2.
  destruct (nth_error (p_results pf) i) as [r0|] eqn:Er; [|discriminate]. injection I2 as <-. eapply Q; eauto.
Qed.

Lemma mon_proven d x v d' u fin : incl (r_proofs (d_handle d)) pfs -> keysKnown (vers d) -> dpMon RH d x v = (Ok u, d') -> ext d' fin -> rootsOf es fin ->
  provenEvent (EvMon x v (Ok u)) \/ broken f nhs T.
Proof.
  intros Hp Hk E X Hr. unfold dpMon in E. pose proof (dpTs_ext H hs d x) as (E1 & _ & _ & _).
  destruct (dpTs RH d x) as [[t|e|e|] d1]; cbn [fst snd] in *; try discriminate. cbn [receivedHandle hMon] in E.
  destruct (rMon H hs (d_handle d1) x v) as [r h] eqn:El. destruct (dpRoot_ok _ _ _ _ _ _ E) as (root & Er & Hroot). apply (x_roots _ _ X) in Hroot.
  destruct r as [root0|e|e|]; try discriminate Er. cbn in Er. injection Er as -> _.
  unfold rMon, keeping in El. destruct (r_proofs (d_handle d1)) as [|pf rest] eqn:Epf; [discriminate|].
  assert (Hpf : In pf pfs). { apply Hp. apply (x_proofs _ _ E1). rewrite Epf. now left. }
  destruct (monitoringBinaryLadder v) as [ladder| | |] eqn:Es; try discriminate. cbn [bind] in El.
  destruct (Nat.eqb_spec (List.length (p_results pf)) (List.length ladder)) as [Elen|]; [|discriminate]. cbn [negb] in El.
  destruct (forallb rincl (p_results pf)) eqn:Eall; [|discriminate]. cbn [negb] in El. rewrite forallb_forall in Eall.
  assert (Emap : map (fun _ => true) ladder = map rincl (p_results pf)).
  { clear -Elen Eall. revert ladder Elen. induction (p_results pf) as [|r rs IH]; intros [|w ladder] Elen; try discriminate; [reflexivity|]. cbn in *. rewrite (Eall r) by auto. f_equal. apply IH; [intros; apply Eall; auto|lia]. }
  rewrite Emap in El.
  destruct (lookupEntries (r_versions (d_handle d1)) ladder (map rincl (p_results pf))) as [ents| | |] eqn:Elk; try discriminate. cbn [bind] in El.
  destruct (Evaluate H nhs ents pf) as [root'| | |] eqn:Ev; try discriminate. cbn [bind] in El. injection El as -> <-.
  assert (Hk1 : keysKnown (r_versions (d_handle d1))). { fold (vers d1). rewrite (x_vers _ _ E1). exact Hk. }
  rewrite Forall_forall in Hpfs. destruct (lookup_true _ _ _ _ _ fin x Hk1 (Hpfs pf Hpf) Hr Hroot Elk Ev) as [Q|B]; [| |left|auto].
  { intros v0 c0 d0 w com I2. specialize (Eall _ I2). discriminate. }
  { intros i w v0 c0 d0 I1 I2. apply nth_error_In in I2. specialize (Eall _ I2). discriminate. }
  cbn. exists ladder. split; [exact Es|]. intros w Hw. apply In_nth_error in Hw. destruct Hw as [i Hi].
  destruct (nth_error (p_results pf) i) as [r0|] eqn:Er.
  - specialize (Q i w r0 Hi Er). apply nth_error_In in Er. rewrite (Eall _ Er) in Q. exact Q.
  - exfalso. apply nth_error_None in Er. assert (nth_error ladder i <> None) by congruence. apply nth_error_Some in H. lia.
Qed.

Lemma run_proven {A} (p : prog A) : plain lad p -> forall d fin, incl (r_proofs (d_handle d)) pfs -> keysKnown (vers d) -> ext (final (run P p d)) fin -> rootsOf es fin -> tsOf fin ->
  Forall provenEvent (events (run P p d)) \/ broken f nhs T.
Proof.
  induction p as [a|m|m| |x k IK e IE|x v o k IK e IE|x v k IHp e IE|x v k IHp e IE|x v k IK|x o g ladr k IHp]; cbn [plain]; intros Q d fin Hp Hk X Hr Ht; try contradiction; cbn [run] in *; try (left; constructor).
  - destruct Q as [Q1 Q2]. cbn [pTs dpProvider] in *. pose proof (dpTs_ext H hs d x) as (E1 & _ & _ & E2). destruct (dpTs RH d x) as [r d1]. cbn [fst snd] in *.
    rewrite final_addEv in X. rewrite events_addEv.
    assert (Hp1 : incl (r_proofs (d_handle d1)) pfs). { intros q Hq. apply Hp. apply (x_proofs _ _ E1). exact Hq. }
    assert (Hk1 : keysKnown (vers d1)). { rewrite (x_vers _ _ E1). exact Hk. }
    destruct r as [t|m|m|]; cbn [final events fst snd] in *.
    + destruct (IK t (Q1 t) d1 fin Hp1 Hk1 X Hr Ht) as [F|B]; [|auto]. left. constructor; [|exact F]. cbn.
      assert (X1 : ext d1 fin). { eapply ext_trans; [|exact X]. apply run_ext. }
      apply (tsOf_at fin); [exact Ht|]. apply (x_ts _ _ X1). exact E2.
    + destruct (IE m (Q2 m) d1 fin Hp1 Hk1 X Hr Ht) as [F|B]; [|auto]. left. constructor; [exact I|exact F].
    + left. constructor; [exact I|constructor].
    + left. constructor; [exact I|constructor].
  - destruct Q as (Ql & -> & Q1 & Q2). cbn [pLadder dpProvider] in *. pose proof (pr_ladder _ _ (preserves_ext H hs d) d x v false (ext_refl d)) as E1. cbn [pLadder dpProvider] in E1.
    destruct (dpLadder RH d x v false) as [r d1] eqn:Ed. cbn [fst snd] in *.
    rewrite final_addEv in X. rewrite events_addEv.
    assert (Hp1 : incl (r_proofs (d_handle d1)) pfs). { intros q Hq. apply Hp. apply (x_proofs _ _ E1). exact Hq. }
    assert (Hk1 : keysKnown (vers d1)). { rewrite (x_vers _ _ E1). exact Hk. }
    destruct r as [t|m|m|]; cbn [final events fst snd] in *.
    + destruct (IK t (Q1 t) d1 fin Hp1 Hk1 X Hr Ht) as [F|B]; [|auto].
      assert (X1 : ext d1 fin). { eapply ext_trans; [|exact X]. apply run_ext. }
      destruct (ladder_proven d x v t d1 fin Ql Hp Hk Ed X1 Hr) as [G|B]; [|auto]. left. constructor; [exact G|exact F].
    + destruct (IE m (Q2 m) d1 fin Hp1 Hk1 X Hr Ht) as [F|B]; [|auto]. left. constructor; [exact I|exact F].
    + left. constructor; [exact I|constructor].
    + left. constructor; [exact I|constructor].
  - destruct Q as (Q1 & Q2). cbn [pMon dpProvider] in *. pose proof (pr_mon _ _ (preserves_ext H hs d) d x v (ext_refl d)) as E1. cbn [pMon dpProvider] in E1.
    destruct (dpMon RH d x v) as [r d1] eqn:Ed. cbn [fst snd] in *.
    rewrite final_addEv in X. rewrite events_addEv.
    assert (Hp1 : incl (r_proofs (d_handle d1)) pfs). { intros q Hq. apply Hp. apply (x_proofs _ _ E1). exact Hq. }
    assert (Hk1 : keysKnown (vers d1)). { rewrite (x_vers _ _ E1). exact Hk. }
    destruct r as [t|m|m|]; cbn [final events fst snd] in *.
    + destruct (IHp Q1 d1 fin Hp1 Hk1 X Hr Ht) as [F|B]; [|auto].
      assert (X1 : ext d1 fin). { eapply ext_trans; [|exact X]. apply run_ext. }
      destruct (mon_proven d x v d1 t fin Hp Hk Ed X1 Hr) as [G|B]; [|auto]. left. constructor; [exact G|exact F].
    + destruct (IE m (Q2 m) d1 fin Hp1 Hk1 X Hr Ht) as [F|B]; [|auto]. left. constructor; [exact I|exact F].
    + left. constructor; [exact I|constructor].
    + left. constructor; [exact I|constructor].
  - rewrite final_addEv in X. rewrite events_addEv. destruct (IK _ (Q _) d fin Hp Hk X Hr Ht) as [F|B]; [|auto]. left. constructor; [exact I|exact F].
Qed.
End Guard.
