(** The server answers every request with a response or an error (C50), apart from the two cases that crash it: the parts. *)
From Verif Require Import Base BaseProofs LogMathModel LogMathSpec LogTreeModel LogTreeSpec LogChunkModel LogChunkSpec LogChunkProofs7
  TransMathModel TransMathSpec TransMathProofs LaddersModel PrefixModel PrefixSpec PrefixMutateProofs PrefixHistProofs PrefixVerifyProofs3 CodecModel CodecSpec CodecProofs2
  TransMathProofs2 AlgModel AlgSpec AlgProofs AlgProofs2 AlgProofs3 AlgProofs4 HandleModel HandleProofs StoreModel CommitModel MutateModel MutateSpec MutateProofs5 AuditorProofs5 ServerModel ClientModel
  CalmSpec CalmProofs CalmProofs2 CalmProofs3.
Open Scope N_scope.
Local Open Scope list_scope.

Lemma calm_foldM {A B} (g : B -> A -> res B) l : (forall b a, In a l -> calm (g b a)) -> forall b, calm (foldM g l b).
Proof.
  induction l as [|a l IH]; intros K b; [exact I|]. cbn [foldM]. apply calm_bind'; [apply K; now left|]. intro b'. apply IH. intros; apply K; now right.
Qed.

(** ** Stores *)
Section Stores.
Variable f : bytes -> bytes.
Variable hs : N.
Hypothesis Hf : forall x, lenN (f x) = hs.
Hypothesis Hhs : 0 < hs <= 32.

Lemma search_nice s vs v keys : hist f (N.to_nat hs) s vs -> nice (fun r => List.length (snd r) = List.length keys) (search (full f) (N.to_nat hs) s v keys).
Proof.
  intro Hh. destruct keys as [|k keys].
  { unfold search. destruct (v =? 0); [exact I|]. cbn. reflexivity. }
  destruct (N.eqb_spec v 0) as [->|V]; [exact I|].
  destruct (existsb (badLen (N.to_nat hs)) (k :: keys)) eqn:B.
  { unfold search. apply N.eqb_neq in V. rewrite V, B. exact I. }
  assert (F : Forall (fun k : bytes => List.length k = N.to_nat hs) (k :: keys)).
  { apply Forall_forall. intros x Ix. destruct (badLen (N.to_nat hs) x) eqn:Q.
    - assert (existsb (badLen (N.to_nat hs)) (k :: keys) = true) by (apply existsb_exists; eauto). congruence.
    - unfold badLen in Q. apply negb_false_iff, Nat.eqb_eq in Q. exact Q. }
  assert (HfL : forall x, List.length (f x) = N.to_nat hs) by (intro x; specialize (Hf x); unfold lenN in Hf; lia).
  assert (Hsm : (N.to_nat hs <= 32)%nat) by lia.
  destruct (nth_error vs (N.to_nat v)) as [[m h]|] eqn:En.
  - destruct (hist_search f (N.to_nat hs) HfL Hsm s vs v m h (k :: keys) Hh En ltac:(lia) ltac:(discriminate) F) as (p & -> & _). cbn. now rewrite map_length.
  - unfold search. apply N.eqb_neq in V. rewrite V, B. unfold loadTree, loadFuel. cbn [foldM].
    replace (16 * N.to_nat hs + 4)%nat with (S (16 * N.to_nat hs + 3)) by lia. cbn [loadPath]. unfold fetch.
    destruct (hist_inv f (N.to_nat hs) HfL Hsm s vs Hh) as (NE & Fr & _).
    destruct (sget s (v, 0)) as [raw|] eqn:G; [|exact I]. exfalso. specialize (Fr (v, 0)). cbn [fst] in Fr.
    assert (v <= lenN vs - 1) by (apply Fr; congruence). apply nth_error_None in En. destruct vs; [contradiction|]. unfold lenN in *. cbn [List.length] in *. lia.
Qed.

Lemma batch_calm es leaves fs st positions n nP m :
  Forall2 (fun e h => logEntryHash (full f) e = Ok h) es leaves -> lenN es < 2 ^ 63 -> n = lenN es ->
  foldM (fun s e => let* (fs, st) := treeAppend (full f) hs (snd s) (fst (fst s)) e in Ok (fst (fst s) + 1, fs, st)) leaves (0, [], []) = Ok (lenN leaves, fs, st) ->
  calm (getBatch (full f) hs st positions n nP m).
Proof.
  intros FL Hn -> E. assert (LL : lenN leaves = lenN es) by (symmetry; exact (LogTreeProofs.Forall2_len _ _ _ FL)).
  assert (HL : Forall (fun e : bytes => lenN e = hs) leaves).
  { clear E LL. induction FL as [|e h es leaves Q FL IH]; constructor; [|apply IH].
    - unfold logEntryHash in Q. destruct (logEntryMarshal e) as [raw| | |]; try discriminate. cbn in Q. injection Q as <-. apply Hf.
    - unfold lenN in *. cbn [List.length] in Hn. lia. }
  destruct (c08_store f hs Hf ltac:(lia) leaves ltac:(lia) HL) as (fs' & st' & E' & _ & SO). rewrite E in E'. injection E' as -> ->.
  destruct (getBatch_args f hs Hf ltac:(lia) leaves HL ltac:(lia) st' positions (lenN es) nP m SO ltac:(lia)) as [[p ->]|[msg ->]]; exact I.
Qed.
End Stores.

(** ** The handle *)
Section Handle.
Variable hs : N.
Variable entriesDb : N -> option bytes.

Lemma newLogEntry_calm k raw : calm (newLogEntry k raw).
Proof. apply safe_calm. apply (proj2 (proj2 (codec_logEntry k))). Qed.
Lemma getLogEntry_calm x : calm (getLogEntry hs entriesDb x).
Proof.
  unfold getLogEntry. destruct (entriesDb x) as [raw|]; [|exact I]. apply calm_bind'; [apply newLogEntry_calm|]. intros [e [|? ?]]; exact I.
Qed.
Lemma greatestAt_calm q x : calm (greatestAt q x).
Proof. unfold greatestAt. destruct (bsearch_ok (q_index q) (add64 x 1)) as (k & -> & _). exact I. Qed.
Lemma keepingQ_calm {A} q (a : res (A * produced)) : calm a -> calm (fst (keepingQ q a)).
Proof. destruct a as [[x q']|m|m|]; cbn; auto. Qed.

Definition anything (d : dataProvider produced) : Prop := True.
Notation hd := (producedHandle hs entriesDb).

Lemma qTs_calm q x : calm (fst (qTs hs entriesDb q x)).
Proof. apply keepingQ_calm. apply calm_bind'; [apply getLogEntry_calm|]. intro; exact I. Qed.
Lemma qLadder_calm q x v o : okVersion v -> calm (fst (qLadder hs entriesDb q x v o)).
Proof.
  intro Hv. apply keepingQ_calm. apply calm_bind'; [apply greatestAt_calm|]. intro g. apply calm_bind'.
  - destruct (g <? 0)%Z; [exact I|]. destruct (searchMaps _ _ _). apply search_calm; auto.
  - intro l. apply calm_bind'; [apply getLogEntry_calm|]. intro; exact I.
Qed.
Lemma qMon_calm q x v : okVersion v -> calm (fst (qMon hs entriesDb q x v)).
Proof. intro Hv. apply keepingQ_calm. apply calm_bind'; [apply getLogEntry_calm|]. intro. apply calm_bind'; [apply monitoring_calm; auto|]. intro; exact I. Qed.
Lemma qIncl_calm q x l : calm (fst (qIncl hs entriesDb q x l)).
Proof. apply keepingQ_calm. apply calm_bind'; [apply getLogEntry_calm|]. intro; exact I. Qed.
Lemma qRoots_calm q xs : calm (fst (qRoots hs entriesDb q xs)).
Proof. apply keepingQ_calm. apply calm_bind'; [apply mapM_calm; intros; apply calm_bind'; [apply getLogEntry_calm|intro; exact I]|]. intro; exact I. Qed.

Lemma root_calm {A S} (d : dataProvider S) x (r : res (bytes * A)) h : calm r -> calm (fst (dpRoot d x r h)).
Proof.
  intro C. unfold dpRoot. destruct r as [[root a]|m|m|]; cbn in C; try tauto; try exact I.
  pose proof (addPrefixTree_calm (d_roots (withHandle d h)) x root). destruct (addPrefixTree _ _ _); cbn in *; tauto.
Qed.
Lemma pTs_calm d x : calm (fst (dpTs hd d x)).
Proof.
  unfold dpTs. destruct (mget (d_ts d) x); [exact I|]. cbn [hTs producedHandle]. pose proof (qTs_calm (d_handle d) x) as C.
  destruct (qTs _ _ _ _) as [[t|m|m|] h]; cbn in C; try tauto; try exact I.
  pose proof (addTimestamp_calm (d_ts (withHandle d h)) x t). destruct (addTimestamp _ _ _); cbn in *; tauto.
Qed.

Lemma produced_run {A} (Q : A -> Prop) (p : prog A) d : wq okVersion Q p -> nice Q (result (run (dpProvider hd) p d)).
Proof.
  intro W. refine (proj1 (wq_run okVersion (dpProvider hd) anything Q _ _ _ _ _ p d W Logic.I)); cbn [pTs pLadder pMon pIncl pTrack dpProvider]; intros; try (split; [|exact Logic.I]); try exact Logic.I.
  - apply pTs_calm.
  - unfold dpLadder. pose proof (pTs_calm s x) as C. destruct (dpTs hd s x) as [[t|m|m|] d1]; cbn in C; try tauto; try exact I.
    cbn [hLadder producedHandle]. pose proof (qLadder_calm (d_handle d1) x v o H) as C2. destruct (qLadder _ _ _ _ _ _) as [r h]. apply root_calm. exact C2.
  - unfold dpMon. pose proof (pTs_calm s x) as C. destruct (dpTs hd s x) as [[t|m|m|] d1]; cbn in C; try tauto; try exact I.
    cbn [hMon producedHandle]. pose proof (qMon_calm (d_handle d1) x v H) as C2. destruct (qMon _ _ _ _ _) as [r h]. apply root_calm, noResult_calm. exact C2.
  - unfold dpIncl. destruct l as [|v l]; [exact I|]. pose proof (pTs_calm s x) as C. destruct (dpTs hd s x) as [[t|m|m|] d1]; cbn in C; try tauto; try exact I.
    cbn [hIncl producedHandle]. pose proof (qIncl_calm (d_handle d1) x (v :: l)) as C2. destruct (qIncl _ _ _ _ _) as [r h]. apply root_calm, noResult_calm. exact C2.
Qed.
Lemma exec_nice {A} (Q : A -> Prop) (p : prog A) d : wq okVersion Q p -> nice (fun r => Q (fst r)) (exec hd p d).
Proof. intro W. unfold exec. pose proof (produced_run Q p d W) as C. destruct (result _); cbn in *; tauto. Qed.

Lemma leaves_calm d : calm (fst (inspectedLeaves hd d)).
Proof.
  unfold inspectedLeaves. cbn zeta. cbn [hRoots producedHandle]. pose proof (qRoots_calm (d_handle d) (filter (fun x => negb (mhas (d_roots d) x)) (nsort (filter (fun x => negb (mhas (d_retained d) x)) (map fst (d_ts d)))))) as C.
  destruct (qRoots _ _ _ _) as [[r|m|m|] h]; cbn in C; try tauto; try exact I. destruct (negb _); exact I.
Qed.

Lemma note_calm : forall vers coms vm, calm (noteCommitments vm vers coms).
Proof.
  induction vers as [|v vers IH]; intros [|[c|] coms] vm; try exact I; cbn [noteCommitments]; [|apply IH].
  destruct (mget vm v) as [[o [c'|]]|]; try apply IH. destruct (bytes_eqb _ _); [apply IH|exact I].
Qed.

Lemma output_calm H logDb prefixDb d n nP m : (forall v keys, calm (search H (N.to_nat hs) prefixDb v keys)) ->
  (forall positions, calm (getBatch H hs logDb positions n nP m)) -> calm (dpOutput H hs entriesDb logDb prefixDb d n nP m).
Proof.
  intros CS CB. unfold dpOutput. pose proof (leaves_calm d) as C. destruct (inspectedLeaves _ d) as [[ps|e|e|] d1]; cbn in C; try tauto; try exact I.
  unfold qOutput. apply calm_bind'.
  { apply mapM_calm. intros [pos vers] _. apply calm_bind'; [|intro; exact I]. apply mapM_calm. intros v _. apply calm_bind'; [apply getOr_calm|intro; exact I]. }
  intro searches. apply calm_bind'; [apply mapM_calm; intros [v keys] _; apply CS|]. intro results.
  apply calm_bind'; [apply calm_foldM; intros; apply note_calm|]. intro vm. apply calm_bind'; [apply CB|]. intro; exact I.
Qed.

Lemma addVersions_calm vrf label : forall vers q, calm (addLadderVersions hs vrf label q vers).
Proof.
  induction vers as [|v vers IH]; intro q; [exact I|]. cbn [addLadderVersions]. apply calm_bind'; [unfold computeVrfOutput; apply calm_bind'; [apply vrfInput_calm|intro; exact I]|].
  intros [out proof]. apply calm_bind'.
  - unfold qAddVersion, addVersion. apply calm_bind'; [|intro; exact I]. destruct (negb _); [exact I|]. destruct (mhas _ _); exact I.
  - intro q1. apply calm_bind'; [apply IH|]. intros [q2 ps]. exact I.
Qed.
End Handle.

(** ** Requests *)
Lemma nice_foldM {A B} (R : B -> Prop) (g : B -> A -> res B) l : (forall b a, R b -> nice R (g b a)) -> forall b, R b -> nice R (foldM g l b).
Proof. intro K. induction l as [|a l IH]; intros b Rb; [exact Rb|]. cbn [foldM]. eapply nice_then; [apply K; exact Rb|]. auto. Qed.

Lemma mapM_len {A B} (g : A -> res B) : forall l, calm (mapM g l) -> nice (fun r => List.length r = List.length l) (mapM g l).
Proof.
  induction l as [|a l IH]; intro C; [reflexivity|]. cbn [mapM] in *. destruct (g a) as [b| | |]; cbn [bind] in *; try exact I; try contradiction.
  destruct (mapM g l) as [bs| | |] eqn:E; cbn [bind nice] in *; try exact I; try contradiction. cbn. f_equal. apply IH. exact I.
Qed.

Lemma setCommitments_calm : forall coms steps, (List.length coms <= List.length steps)%nat -> calm (setCommitments steps coms).
Proof.
  induction coms as [|com coms IH]; intros [|st steps] L; try exact I; cbn [List.length] in L; [lia|]. cbn [setCommitments]. apply calm_bind'; [apply IH; lia|intro; exact I].
Qed.

Lemma filter_len {A} (p : A -> bool) l : (List.length (filter p l) <= List.length l)%nat.
Proof. induction l as [|a l IH]; cbn; [lia|]. destruct (p a); cbn; lia. Qed.

Lemma computeVrf_calm vrf l v : calm (computeVrfOutput vrf l v).
Proof. unfold computeVrfOutput. apply calm_bind'; [apply vrfInput_calm|intro; exact I]. Qed.

Lemma getVersion_calm c s l v : calm (getVersion c s l v).
Proof.
  unfold getVersion. destruct (vget _ _) as [raw|]; [|exact I]. apply calm_bind'; [apply safe_calm, (proj2 (proj2 (codec_openingAndValue c)))|]. intros [x [|? ?]]; exact I.
Qed.

Section Requests.
Variable f : bytes -> bytes.
Variable hs : N.
Variable c : pubConfig.
Variable vrf : bytes -> bytes * bytes.
Variable now : N.
Notation H := (full f).

(** What answers to requests about [label] rest on. *)
Definition answerable (sv : server) (label : bytes) (idx : list N) : Prop :=
  serverIndex sv label = Ok idx /\ lenN idx < 2 ^ 31 /\
  match sv_head sv with
  | None => idx = []
  | Some th => 1 <= th_size th < 2 ^ 63 /\ Forall (fun x => x < th_size th) idx /\
      (forall v keys, nice (fun r => List.length (snd r) = List.length keys) (search H (N.to_nat hs) (x_prefix (sv_db sv)) v keys)) /\
      (forall positions nP m, calm (getBatch H hs (x_log (sv_db sv)) positions (th_size th) nP m))
  end.

Section One.
Variable sv : server.
Variable label : bytes.
Variable idx : list N.
Hypothesis G : answerable sv label idx.

Lemma serverHead_nice last : last <> Some 0 ->
  nice (fun '(fth, n, nP, m) => exists th, sv_head sv = Some th /\ n = th_size th /\ 1 <= n < 2 ^ 63 /\ forall k, last = Some k -> 1 <= k <= n) (serverHead sv last).
Proof.
  intro L0. unfold serverHead. destruct (sv_head sv) as [th|] eqn:Eh; [|exact I]. destruct G as (_ & _ & G2). rewrite Eh in G2. destruct G2 as (G2 & _).
  destruct last as [k|].
  - destruct (N.eqb_spec k (th_size th)) as [->|]; [|destruct (N.ltb_spec (th_size th) k); [exact I|]]; cbn; exists th; (split; [reflexivity|]; split; [reflexivity|]; split; [exact G2|]);
      intros k' [= <-]; split; try lia; destruct (N.eq_dec k 0) as [->|]; try congruence; lia.
  - cbn. exists th. split; [reflexivity|]. split; [reflexivity|]. split; [exact G2|]. discriminate.
Qed.

Lemma serverView_calm last n d : n < 2 ^ 63 -> (forall k, last = Some k -> 1 <= k <= n) -> calm (serverView hs c now sv last n d).
Proof.
  intros Hn L. unfold serverView. assert (n < 2 ^ 64) by (change (2 ^ 63) with 9223372036854775808 in Hn; change (2 ^ 64) with 18446744073709551616; lia). apply calm_bind'.
  - destruct last as [k|]; [|exact I]. apply calm_bind'; [|intro; exact I]. unfold frontierEntries.
    destruct (frontier_spec k) as (front & -> & _). { specialize (L k eq_refl). change (2 ^ 63) with 9223372036854775808 in Hn. change two64 with 18446744073709551616. lia. }
    cbn [bind]. apply mapM_calm. intros p _. destruct (mget _ p) as [raw|]; [|exact I]. apply calm_bind'; [apply newLogEntry_calm|]. intros [e [|? ?]]; exact I.
  - intro d1. apply calm_bind'; [|intros []; exact I]. eapply nice_calm. apply exec_nice. apply updateView_wv. auto.
Qed.

Lemma output_ok th d nP m : sv_head sv = Some th ->
  calm (dpOutput H hs (fun x => mget (x_entries (sv_db sv)) x) (x_log (sv_db sv)) (x_prefix (sv_db sv)) d (th_size th) nP m).
Proof.
  intro Eh. destruct G as (_ & _ & G2). rewrite Eh in G2. destruct G2 as (_ & _ & CS & CB). apply output_calm; [|auto].
  intros v keys. eapply nice_calm. apply CS.
Qed.

Lemma idx_small : (Z.of_nat (List.length idx) - 1 < 2147483647)%Z.
Proof. destruct G as (_ & L & _). unfold lenN in L. change (2 ^ 31) with 2147483648 in L. lia. Qed.

Lemma searchTarget_ok version : optok smallVersion version -> okVersion (searchTarget version (Z.of_nat (List.length idx) - 1)).
Proof.
  intro O. unfold searchTarget. destruct version as [v|]; [exact O|]. destruct (_ <? _)%Z eqn:E; [unfold okVersion; lia|].
  apply toU32_small. apply Z.ltb_ge in E. pose proof idx_small. lia.
Qed.
Lemma searchLadderFor_calm version : optok smallVersion version -> calm (searchLadderFor version (Z.of_nat (List.length idx) - 1)).
Proof.
  intro O. unfold searchLadderFor. destruct version as [v|]; [apply search_calm; exact O|]. destruct (_ <? _)%Z eqn:E; [exact I|].
  apply search_calm, toU32_small. apply Z.ltb_ge in E. pose proof idx_small. lia.
Qed.

Lemma serverSearch_calm req : sq_label req = label -> sq_last req <> Some 0 -> optok smallVersion (sq_version req) -> calm (serverSearch H hs c vrf now sv req).
Proof.
  intros El L0 O. unfold serverSearch. rewrite El. apply (nice_calm (fun _ => True)). eapply nice_then; [apply serverHead_nice; exact L0|]. intros [[[fth n] nP] m] (th & Eh & -> & Hn & L).
  rewrite (proj1 G). cbn [bind]. apply calm_nice. apply calm_bind'; [apply searchLadderFor_calm; auto|]. intro ladder.
  apply calm_bind'; [apply getVersion_calm|]. intro ov. apply calm_bind'; [apply addVersions_calm|]. intros [q proofs].
  apply calm_bind'; [apply serverView_calm; [lia|auto]|]. intro d1.
  assert (H64 : th_size th < 2 ^ 64) by (change (2 ^ 63) with 9223372036854775808 in Hn; change (2 ^ 64) with 18446744073709551616; lia).
  pose proof (searchTarget_ok (sq_version req) O) as Tv.
  match goal with |- context[run ?P ?p d1] => assert (C : nice (fun t => t < th_size th) (result (run P p d1))) end.
  { apply produced_run. destruct (sq_version req) as [v|]; [apply fixed_wv; auto|apply greatest_wv; auto]. }
  match goal with |- context[result ?r] => set (R := r) in * end.
  apply calm_bind'; [destruct (result R) as [x|e|e|]; cbn in C; try tauto; try exact I; destruct (String.eqb _ _); exact I|]. intros _.
  apply calm_bind'; [apply output_ok; exact Eh|]. intros []. exact I.
Qed.

Lemma verifyEntries_nice es th : sv_head sv = Some th -> nice (Forall (finePtr (th_size th))) (verifyEntries es idx (th_size th)).
Proof.
  intro Eh. pose proof G as (_ & Li & G2). rewrite Eh in G2. destruct G2 as (Hn & F & _). unfold verifyEntries.
  apply calm_then. { clear. induction es as [|a [|b t] IH]; try exact I. cbn [entriesSorted] in *. destruct (_ <=? _); [exact I|]. destruct (_ <=? _); [exact I|exact IH]. }
  intros _. apply nice_foldM; [|constructor]. intros ptrs e Fp. destruct (N.leb_spec (lenN idx) (snd e)) as [|Hv]; [exact I|].
  assert (Hfirst : nth (N.to_nat (snd e)) idx 0 < th_size th).
  { rewrite Forall_forall in F. apply F, nth_In. unfold lenN in Hv. lia. }
  cbn zeta. change (2 ^ 63) with 9223372036854775808 in Hn. change (2 ^ 31) with 2147483648 in Li.
  destruct (rightDirectPath_spec (nth (N.to_nat (snd e)) idx 0) (th_size th)) as (path & -> & Mp & _); [change two64 with 18446744073709551616; lia|exact Hfirst|].
  cbn [bind]. destruct (N.eqb_spec (fst e) (nth (N.to_nat (snd e)) idx 0)) as [Ef|]; cbn [negb andb].
  - constructor; [|exact Fp]. split; cbn [fst snd]; [lia|unfold okVersion; lia].
  - destruct (existsb _ path) eqn:Ex; cbn [negb]; [|exact I]. apply existsb_exists in Ex. destruct Ex as (z & Iz & Ez). apply N.eqb_eq in Ez. subst z. apply Mp in Iz.
    constructor; [|exact Fp]. split; cbn [fst snd]; [tauto|unfold okVersion; lia].
Qed.

Definition startedOp (op : monitorOp) : Prop := exists th, sv_head sv = Some th /\ op_n op = th_size th /\ op_index op = idx /\
  mo_size (op_monitor op) = th_size th /\ mo_contact (op_monitor op) = None /\ mo_owner (op_monitor op) = None /\ ok64 (th_size th).

Lemma startMonitor_nice last : last <> Some 0 -> nice startedOp (startMonitor hs c now sv last label).
Proof.
  intro L0. unfold startMonitor. eapply nice_then; [apply serverHead_nice; exact L0|]. intros [[[fth n] nP] m] (th & Eh & -> & Hn & L).
  rewrite (proj1 G). cbn [bind]. apply calm_then; [apply serverView_calm; [lia|auto]|]. intro d.
  eapply nice_then; [apply exec_nice, (newMonitor_wv (th_size th))|]. intros [mo d'] (N1 & Sz & Ct & Ow). cbn [fst] in *. cbn [nice].
  exists th. cbn. repeat split; auto. unfold ok64 in *. change (2 ^ 63) with 9223372036854775808 in Hn. change (2 ^ 64) with 18446744073709551616 in *; try lia. 
Qed.

Lemma finishMonitor_calm op d : startedOp op -> calm (finishMonitor H hs vrf sv label op d).
Proof.
  intros (th & Eh & En & _). unfold finishMonitor. apply calm_bind'; [apply addVersions_calm|]. intros [q ps]. rewrite En. apply calm_bind'; [apply output_ok; exact Eh|]. intros []. exact I.
Qed.

Lemma serverContact_calm req : cq_label req = label -> cq_last req <> Some 0 -> calm (serverContactMonitor H hs c vrf now sv req).
Proof.
  intros El L0. unfold serverContactMonitor. rewrite El. apply (nice_calm (fun _ => True)). eapply nice_then; [apply startMonitor_nice; exact L0|]. intros op Hop. pose proof Hop as Hop'.
  destruct Hop as (th & Eh & En & Ei & Sz & Ct & Ow & N64). rewrite Ei, En.
  eapply nice_then; [apply verifyEntries_nice; exact Eh|]. intros ptrs Fp.
  eapply nice_then; [apply exec_nice; apply (contact_wv c (withContact (op_monitor op) ptrs) ptrs); cbn; rewrite ?Sz; auto|]. intros [mo d] _.
  apply calm_then; [apply finishMonitor_calm; exact Hop'|]. intro; exact I.
Qed.

Lemma versionsAt_nice os entries : (os_verAt os = -1)%Z -> (greatestVersion os < 2147483647)%Z -> nice (Forall okVersion) (versionsAt os entries).
Proof.
  intros V1 Gv. induction entries as [|x t IH]; [constructor|]. cbn [versionsAt]. destruct (greatestAt_fine os x) as (z & -> & Hz). cbn [bind].
  destruct (Z.eqb_spec z (-1)); [constructor|]. eapply nice_then; [exact IH|]. intros rest Fr. cbn. constructor; [|exact Fr]. apply toU32_small. lia.
Qed.

Lemma ladder_calm versions greatest n th : sv_head sv = Some th -> calm (getBinaryLadder H hs vrf sv label versions greatest n).
Proof.
  intro Eh. pose proof G as (_ & _ & G2). rewrite Eh in G2. destruct G2 as (_ & _ & CS & _). unfold getBinaryLadder.
  apply (nice_calm (fun _ => True)). eapply nice_then; [apply mapM_len, mapM_calm; intros; apply computeVrf_calm|]. intros outs Lo.
  eapply nice_then; [apply CS|]. intros [p coms] Lc. cbn [snd] in Lc. apply calm_nice, setCommitments_calm. rewrite Lc, !map_length.
  etransitivity; [apply filter_len|]. rewrite combine_length. lia.
Qed.

Lemma initEntries_calm d mo start : ok64 (mo_size mo) -> calm (exec (serverHandle hs sv) (initEntries c mo start) d).
Proof.
  intro Hn. eapply nice_calm. apply exec_nice with (Q := fun _ => True). unfold initEntries. apply wq_silent; [apply init_silent|].
  destruct (c09_entries _ Hn) as (-> & _). apply init_safe; auto; [constructor|]. pose proof (log_fuel _ 0 _ Hn (SR_root _)). lia.
Qed.

Lemma serverOwnerInit_calm req : iq_label req = label -> iq_last req <> Some 0 -> calm (serverOwnerInit H hs c vrf now sv req).
Proof.
  intros El L0. unfold serverOwnerInit. rewrite El. apply (nice_calm (fun _ => True)). eapply nice_then; [apply startMonitor_nice; exact L0|]. intros op Hop. pose proof Hop as Hop'.
  destruct Hop as (th & Eh & En & Ei & Sz & Ct & Ow & N64). 
  apply calm_then; [apply initEntries_calm; rewrite Sz; auto|]. intros [entries d1]. cbn zeta. rewrite Ei.
  assert (Gi : (greatestVersion {| os_starting := 0; os_verAt := (-1)%Z; os_upcoming := idx |} < 2147483647)%Z) by (unfold greatestVersion; cbn [os_verAt os_upcoming]; pose proof idx_small; lia).
  eapply nice_then; [apply versionsAt_nice; auto|]. intros versions Fv.
  apply calm_then; [apply allLadder_calm; exact Fv|]. intro ladder.
  match goal with |- context[greatestVersionAt ?o ?x] => destruct (greatestAt_fine o x) as (z & -> & _) end. cbn [bind].
  apply calm_then; [eapply ladder_calm; exact Eh|]. intro steps.
  eapply nice_then; [apply exec_nice, ownerInit_wv; [rewrite Sz; auto|exact Fv]|]. intros [r d2] _.
  apply calm_then; [apply finishMonitor_calm; exact Hop'|]. intro; exact I.
Qed.

Lemma serverOwnerMonitor_calm req : oq_label req = label -> oq_last req <> Some 0 -> calm (serverOwnerMonitor H hs c vrf now sv req).
Proof.
  intros El L0. unfold serverOwnerMonitor. rewrite El. apply (nice_calm (fun _ => True)). eapply nice_then; [apply startMonitor_nice; exact L0|]. intros op Hop. pose proof Hop as Hop'.
  destruct Hop as (th & Eh & En & Ei & Sz & Ct & Ow & N64). rewrite Ei, En, Eh.
  eapply nice_then; [apply verifyEntries_nice; exact Eh|]. intros ptrs Fp.
  destruct (_ <=? _); [exact I|].
  destruct (match oq_greatest req with Some g => lenN idx <=? g | None => false end) eqn:Eg; [exact I|].
  match goal with |- context[setStarting ?o ?x] => destruct (setStarting_fine o x) as (os & -> & Gv & Va) end. unfold greatestVersion in Gv. cbn [bind os_verAt os_upcoming] in *.
  pose proof idx_small as Hi.
  destruct ((-1 <? os_verAt os)%Z && _) eqn:Ev; [exact I|]. cbn zeta.
  set (endAt := match oq_greatest req with Some g => (Z.of_N g - os_verAt os)%Z | None => 0%Z end).
  assert (He : (0 <= endAt <= Z.of_nat (List.length (os_upcoming os)))%Z).
  { subst endAt. destruct (oq_greatest req) as [g|]; [|lia]. apply N.leb_gt in Eg. unfold lenN in Eg. apply andb_false_iff in Ev. destruct Ev as [Ev|Ev]; apply Z.ltb_ge in Ev; lia. }
  destruct (Z.ltb_spec endAt 0); [lia|]. destruct (Z.ltb_spec (Z.of_nat (List.length (os_upcoming os))) endAt); [lia|]. cbn [orb].
  set (os' := {| os_starting := os_starting os; os_verAt := os_verAt os; os_upcoming := firstn (Z.to_nat endAt) (os_upcoming os) |}).
  assert (Fo : fineOwner os'). { split; [exact Va|]. unfold greatestVersion, os'. cbn [os_verAt os_upcoming]. rewrite firstn_length. lia. }
  eapply nice_then; [apply exec_nice; apply (contact_wv c (withOwner (withContact (op_monitor op) ptrs) os') ptrs); cbn; rewrite ?Sz; auto|].
  intros [mo d1] (Sm & Om & _ & _). cbn [fst mo_size mo_owner withOwner withContact] in *.
  eapply nice_then; [apply exec_nice, (ownerMonitor_wv c mo os'); [rewrite Sm, Sz; auto|rewrite Om; reflexivity|exact Fo]|].
  intros [out d2] _. destruct (fst out); [exact I|]. apply calm_then; [apply finishMonitor_calm; exact Hop'|]. intro; exact I.
Qed.
End One.
End Requests.
