(** Proofs about the in-memory store. *)
From Verif Require Import Base BaseProofs PrefixModel StoreModel StoreSpec StoreProofs MemoryModel MemorySpec.
Open Scope N_scope.

Lemma versionKey_inj l v l' v' : versionKey l v = versionKey l' v' -> l = l' /\ v = v'.
Proof.
  intros E. unfold versionKey in E. apply (sep_inj _ colon_sep) in E; [|apply hexBytes_digits|apply hexBytes_digits].
  destruct E as [E F]. apply hexBytes_inj in E. apply digits_inj in F; [|lia|lia]. auto.
Qed.
Lemma tileKey_inj a b : tileKey a = tileKey b -> a = b.
Proof.
  intros E. assert (D : dbKey (OTile a) = dbKey (OTile b)) by (cbn [dbKey]; unfold tileKey in E; now rewrite E).
  apply dbKey_inj in D. congruence.
Qed.

Lemma mget_mdel {A} (m : list (N * A)) k k' : mget (mdel m k) k' = if k' =? k then None else mget m k'.
Proof.
  induction m as [|[a v] m IH]; cbn [mdel filter mget fst]; [now destruct (k' =? k)|].
  destruct (N.eqb_spec k a) as [->|H]; cbn [negb].
  - fold (mdel m a). rewrite IH. destruct (N.eqb_spec k' a); reflexivity.
  - cbn [mget]. fold (mdel m k). rewrite IH. destruct (N.eqb_spec k' a) as [->|]; [|reflexivity].
    destruct (N.eqb_spec a k); [congruence|reflexivity].
Qed.

(** The objects in the maps. *)
Definition kept (sh : memShared) : contentsOf := fun o =>
  match o with
  | OTreeHead | OAuditorHead => None
  | OIndex l => bget (ms_indices sh) (indexKey l)
  | OVersion l v => bget (ms_versions sh) (versionKey l v)
  | OEntry k => mget (ms_entries sh) k
  | OChunk k => mget (ms_chunks sh) k
  | OTile k => bget (ms_tiles sh) (tileKey k)
  end.
Definition heads (h : memHandle) : option bytes * option bytes := (mh_head h, mh_auditor h).

Definition agree (w : memWorld) (s : sharedSpec) : Prop :=
  (forall o, o <> OTreeHead -> o <> OAuditorHead -> kept (mw_shared w) o = sp_contents s o) /\
  map heads (mw_handles w) = sp_heads s.

Ltac keys := repeat match goal with
  | |- context [bytes_eqb ?a ?b] => let E := fresh in destruct (bytes_eqb a b) eqn:E;
      [apply bytes_eqb_eq in E; first [apply hexBytes_inj in E | apply versionKey_inj in E; destruct E | apply tileKey_inj in E]; subst|]
  | |- context [?a =? ?b] => destruct (N.eqb_spec a b); subst
  | |- context [object_eq_dec ?a ?b] => destruct (object_eq_dec a b) as [EQ|]; [try discriminate EQ; try (injection EQ as ?; subst)|]
  end; try congruence; try (exfalso; match goal with H : bytes_eqb ?a ?a = false |- _ => rewrite bytes_eqb_refl in H; discriminate H end).

Lemma put_kept sh h w sh' h' : memPut sh h w = Ok (sh', h') ->
  match writtenObj w with
  | (OTreeHead, v) => sh' = sh /\ heads h' = (v, mh_auditor h)
  | (OAuditorHead, v) => sh' = sh /\ heads h' = (mh_head h, v)
  | (o, v) => h' = h /\ forall o', kept sh' o' = setObj (kept sh) o v o'
  end.
Proof.
  destruct w as [v|v|l v|l k v|k v|k v|k v]; cbn [memPut writtenObj];
    try (intros [= <- <-]; split; reflexivity);
    (destruct v as [v|]; [|discriminate]); cbn [of_opt bind]; intros [= <- <-];
    (split; [reflexivity|]); intros o'; unfold setObj;
    destruct o' as [| |l'|l' k'|k'|k'|k']; cbn [kept ms_indices ms_versions ms_entries ms_chunks ms_tiles]; unfold bput, mput; cbn [bget mget]; keys.
Qed.

Lemma put_ok sh h i w : withValue (MWrite i w) -> exists sh' h', memPut sh h w = Ok (sh', h').
Proof.
  destruct w as [v|v|l v|l k v|k v|k v|k v]; cbn [withValue writtenObj snd memPut]; intros V; try (do 2 eexists; reflexivity);
    destruct v as [v|]; try congruence; do 2 eexists; reflexivity.
Qed.

Lemma delete_kept sh d : forall o', kept (memDelete sh d) o' = setObj (kept sh) (deletedObj d) None o'.
Proof.
  intros o'. unfold setObj. destruct d as [l|l k|k|k|k]; cbn [memDelete deletedObj];
    destruct o' as [| |l'|l' k'|k'|k'|k']; cbn [kept ms_indices ms_versions ms_entries ms_chunks ms_tiles]; rewrite ?bget_bdel, ?mget_mdel; keys.
Qed.

Lemma memRead_spec sh h r m : (forall o, o <> OTreeHead -> o <> OAuditorHead -> kept sh o = m o) ->
  fst (memRead sh h r) = readBoth (view m (heads h)) r /\ (forall o, kept (snd (memRead sh h r)) o = kept sh o).
Proof.
  intros E. split; [|now destruct r].
  assert (E1 : forall l, bget (ms_indices sh) (indexKey l) = m (OIndex l)) by (intros; apply (E (OIndex l)); discriminate).
  assert (E2 : forall l v, bget (ms_versions sh) (versionKey l v) = m (OVersion l v)) by (intros; apply (E (OVersion l v)); discriminate).
  assert (E3 : forall k, mget (ms_entries sh) k = m (OEntry k)) by (intros; apply (E (OEntry k)); discriminate).
  assert (E4 : forall k, mget (ms_chunks sh) k = m (OChunk k)) by (intros; apply (E (OChunk k)); discriminate).
  assert (E5 : forall k, bget (ms_tiles sh) (tileKey k) = m (OTile k)) by (intros; apply (E (OTile k)); discriminate).
  destruct r; cbn [memRead fst readBoth specRead view]; unfold look, found; cbn [view]; try reflexivity; f_equal;
    first [apply map_ext; intros; auto | apply flat_map_ext; intros; now rewrite ?E3, ?E4, ?E5 | auto].
Qed.

Lemma nth_heads l i h : nth_error l i = Some h -> nth i (map heads l) (None, None) = heads h.
Proof. intros E. apply nth_error_nth. apply (map_nth_error heads) in E. exact E. Qed.

Lemma setHandle_heads l i h : map heads (setHandle l i h) = setHeads (map heads l) i (heads h).
Proof. unfold setHandle, setHeads. rewrite map_app, firstn_map. cbn [map]. now rewrite skipn_map. Qed.

Lemma setHandle_same l : forall i h, nth_error l i = Some h -> setHandle l i h = l.
Proof. induction l as [|x l IH]; intros [|i] h; cbn; try discriminate; [now intros [= ->]|]. intros E. unfold setHandle in IH. cbn. f_equal. now apply IH. Qed.
Lemma setHandle_length l : forall i h, (i < List.length l)%nat -> List.length (setHandle l i h) = List.length l.
Proof.
  intros i h L. unfold setHandle. rewrite app_length, firstn_length. cbn [List.length]. rewrite skipn_length. lia.
Qed.

Lemma step_refines w s op : agree w s -> (callOn op < List.length (mw_handles w))%nat -> withValue op ->
  exists w', memStep w op = Ok (fst (sharedStep s op), w') /\ agree w' (snd (sharedStep s op)) /\
    List.length (mw_handles w') = match op with MClone _ => S (List.length (mw_handles w)) | _ => List.length (mw_handles w) end.
Proof.
  intros [K M] L V. destruct (nth_error (mw_handles w) (callOn op)) as [h|] eqn:E; [|apply nth_error_None in E; lia].
  pose proof (nth_heads _ _ _ E) as HD. rewrite M in HD.
  destruct op as [i r|i x|i d|i|i]; cbn [callOn] in *; cbn [memStep sharedStep]; rewrite E; cbn [of_opt bind].
  - destruct (memRead_spec (mw_shared w) h r (sp_contents s) K) as [R1 R2]. destruct (memRead (mw_shared w) h r) as [a sh]. cbn [fst snd] in *.
    eexists. rewrite R1, HD. split; [reflexivity|]. split; [|reflexivity]. split; [|exact M]. intros o A B. cbn [mw_shared]. rewrite R2. now apply K.
  - destruct (put_ok (mw_shared w) h i x V) as (sh' & h' & P). rewrite P.
    cbn [bind]. pose proof (put_kept _ _ _ _ _ P) as Q.
    eexists. split; [|split].
    + destruct x; reflexivity.
    + destruct x as [v|v|l v|l k v|k v|k v|k v]; cbn [writtenObj] in Q |- *; cbn [snd]; destruct Q as [Q1 Q2]; split; cbn [mw_shared mw_handles sp_contents sp_heads];
        try (subst sh'; exact K); try (rewrite setHandle_heads, M, Q2, HD; reflexivity);
        try (subst h'; rewrite (setHandle_same _ _ _ E); exact M);
        (intros o A B; rewrite Q2; unfold setObj; destruct (object_eq_dec _ o); [reflexivity|now apply K]).
    + cbn [mw_handles]. now apply setHandle_length.
  - eexists. split; [reflexivity|]. split; [|reflexivity]. split; cbn [snd mw_shared sp_contents]; [|exact M].
    intros o A B. rewrite delete_kept. unfold setObj. destruct (object_eq_dec _ o); [reflexivity|now apply K].
  - exists w. split; [reflexivity|]. split; [split; assumption|reflexivity].
  - eexists. split; [reflexivity|]. split; [|cbn [mw_handles]; rewrite app_length; cbn [List.length]; lia]. split; [exact K|].
    cbn [mw_handles snd sp_heads]. rewrite map_app, M, HD. reflexivity.
Qed.

Theorem memory_refines : forall ops w s, agree w s -> wellUsed (List.length (mw_handles w)) ops ->
  exists w', runMem w ops = Ok (fst (sharedRun s ops), w') /\ agree w' (snd (sharedRun s ops)).
Proof.
  induction ops as [|op ops IH]; intros w s A U; cbn [runMem sharedRun].
  - exists w. split; [reflexivity|exact A].
  - destruct U as (U1 & U2 & U3). destruct (step_refines w s op A U1 U2) as (w1 & E1 & A1 & L1). rewrite E1. cbn [bind].
    rewrite <- L1 in U3. destruct (IH w1 _ A1 U3) as (w2 & E2 & A2). rewrite E2. cbn [bind].
    destruct (sharedStep s op) as [a s1]. cbn [fst snd] in *. destruct (sharedRun s1 ops) as [b s2]. exists w2. split; [reflexivity|exact A2].
Qed.

Lemma agree_new : agree newMemory emptyShared.
Proof. split; [|reflexivity]. intros o A B. destruct o; reflexivity. Qed.

Theorem memory_answers ops : wellUsed 1 ops -> exists w, runMem newMemory ops = Ok (fst (sharedRun emptyShared ops), w).
Proof. intros U. destruct (memory_refines ops _ _ agree_new U) as (w & E & _). eauto. Qed.

(** ** Compared with LevelDB *)

(** One store of the shared specification, against the specification of the durable store. *)
Definition same (s : sharedSpec) (t : specStore) : Prop :=
  exists h, sp_heads s = [h] /\ (forall o, view (sp_contents s) h o = s_pending t o).

Lemma same_run ops : forall s t, same s t -> Forall proper ops -> Forall plain ops ->
  (s_pending t OTreeHead <> None \/ (s_pending t OAuditorHead = None /\ headFirst ops)) ->
  fst (sharedRun s (map onFirst ops)) = fst (specRun t ops).
Proof.
  induction ops as [|op ops IH]; intros s t S P Q H; [reflexivity|].
  inversion P as [|? ? P1 P2]; subst. inversion Q as [|? ? Q1 Q2]; subst. cbn [map sharedRun specRun].
  assert (STEP : fst (sharedStep s (onFirst op)) = fst (specStep t op) /\ same (snd (sharedStep s (onFirst op))) (snd (specStep t op)) /\
     (s_pending (snd (specStep t op)) OTreeHead <> None \/ (s_pending (snd (specStep t op)) OAuditorHead = None /\ headFirst ops))).
  { destruct S as (h & S1 & S2). destruct op as [r|w|d| | |rs]; try contradiction; cbn [onFirst sharedStep specStep].
    - cbn [fst snd]. rewrite S1. cbn [nth]. split; [|split; [exists h; auto|destruct H as [H|[H1 H2]]; [left; exact H|right; split; [exact H1|exact H2]]]].
      f_equal. destruct r; cbn [readBoth]; try (now apply read_ext).
      rewrite !S2. cbn [specRead]. destruct H as [H|[H1 H2]]; [destruct (s_pending t OTreeHead); [reflexivity|contradiction]|].
      rewrite H1. now destruct (s_pending t OTreeHead).
    - rewrite S1. cbn [nth].
      destruct w as [v|v|l v|l k v|k v|k v|k v]; cbn [writtenObj fst snd]; (split; [reflexivity|]);
        (split; [cbn [proper writtenObj snd] in P1; (eexists; split; [first [exact S1 | reflexivity]|]); intros o; cbn [sp_contents s_pending]; unfold setObj;
        destruct o; cbn [view fst snd];
        repeat match goal with |- context [object_eq_dec ?a ?b] => destruct (object_eq_dec a b) as [X|]; [try discriminate X|] end;
        first [reflexivity | congruence | match goal with |- _ = s_pending _ ?o => exact (S2 o) end]|]).
      + left. cbn [s_pending]. unfold setObj. destruct (object_eq_dec OTreeHead OTreeHead); [exact P1|congruence].
      + cbn [s_pending]. unfold setObj. destruct (object_eq_dec OAuditorHead OTreeHead); [discriminate|]. destruct H as [H|[H1 H2]]; [left; exact H|destruct H2].
      + cbn [s_pending]. unfold setObj. destruct (object_eq_dec _ OTreeHead) as [X|_]; [discriminate X|]. destruct (object_eq_dec _ OAuditorHead) as [X|_]; [discriminate X|]. exact H.
      + cbn [s_pending]. unfold setObj. destruct (object_eq_dec _ OTreeHead) as [X|_]; [discriminate X|]. destruct (object_eq_dec _ OAuditorHead) as [X|_]; [discriminate X|]. exact H.
      + cbn [s_pending]. unfold setObj. destruct (object_eq_dec _ OTreeHead) as [X|_]; [discriminate X|]. destruct (object_eq_dec _ OAuditorHead) as [X|_]; [discriminate X|]. exact H.
      + cbn [s_pending]. unfold setObj. destruct (object_eq_dec _ OTreeHead) as [X|_]; [discriminate X|]. destruct (object_eq_dec _ OAuditorHead) as [X|_]; [discriminate X|]. exact H.
      + cbn [s_pending]. unfold setObj. destruct (object_eq_dec _ OTreeHead) as [X|_]; [discriminate X|]. destruct (object_eq_dec _ OAuditorHead) as [X|_]; [discriminate X|]. exact H.
    - cbn [fst snd]. split; [reflexivity|]. split.
      + exists h. split; [exact S1|]. intros o. cbn [sp_contents s_pending]. unfold setObj.
        destruct o; cbn [view]; destruct (object_eq_dec _ _) as [X|NE]; try (destruct d; discriminate X); try (symmetry; apply S2); try (now rewrite <- S2); reflexivity.
      + cbn [s_pending]. unfold setObj. destruct (object_eq_dec _ OTreeHead) as [X|_]; [destruct d; discriminate X|].
        destruct (object_eq_dec _ OAuditorHead) as [X|_]; [destruct d; discriminate X|]. exact H.
    - cbn [fst snd]. split; [reflexivity|]. split; [exists h; auto|exact H]. }
  destruct STEP as (E & S' & H'). destruct (sharedStep s (onFirst op)) as [a s1], (specStep t op) as [b t1]. cbn [fst snd] in *. subst b.
  pose proof (IH s1 t1 S' P2 Q2 H') as E2. destruct (sharedRun s1 (map onFirst ops)) as [x s2], (specRun t1 ops) as [y t2]. cbn [fst] in *. congruence.
Qed.

Lemma plain_wellUsed ops : Forall proper ops -> wellUsed 1 (map onFirst ops).
Proof.
  induction ops as [|op ops IH]; intros P; cbn [map wellUsed]; [exact I|]. inversion P as [|? ? P1 P2]; subst.
  destruct op as [r|w|d| | |rs]; cbn [onFirst callOn withValue]; (split; [lia|]); (split; [|auto]); try exact I.
  cbn [proper] in P1. destruct w; auto.
Qed.

Theorem same_answers ops : Forall proper ops -> Forall plain ops -> headFirst ops ->
  exists answers w c, runMem newMemory (map onFirst ops) = Ok (answers, w) /\ runStore (newLDBConn [] false) ops = Ok (answers, c).
Proof.
  intros P Q H. destruct (memory_answers _ (plain_wellUsed ops P)) as (w & E).
  destruct (store_refines ops _ _ (related_open []) P) as (c & E2 & _).
  rewrite (same_run ops emptyShared {| s_pending := onDisk []; s_durable := onDisk [] |}) in E; auto.
  - eauto 6.
  - exists (None, None). split; [reflexivity|]. intros o. destruct o; reflexivity.
Qed.

(** ** Clones *)

(** Reads through a fresh clone, against reads through the store itself. *)
Lemma clone_reads w i rs : (i < List.length (mw_handles w))%nat ->
  exists answers w1 w2, runMem w (map (MRead i) rs) = Ok (answers, w1) /\
    runMem w (MClone i :: map (MRead (List.length (mw_handles w))) rs) = Ok (answers, w2).
Proof.
  intros L. destruct (nth_error (mw_handles w) i) as [h|] eqn:E; [|apply nth_error_None in E; lia].
  cbn [runMem memStep]. rewrite E. cbn [of_opt bind].
  set (hs := (mw_handles w ++ _)%list).
  assert (E' : nth_error hs (List.length (mw_handles w)) = Some h).
  { unfold hs. rewrite nth_error_app2 by lia. rewrite Nat.sub_diag. destruct h; reflexivity. }
  assert (G : forall rs sh, exists answers sh', runMem {| mw_shared := sh; mw_handles := mw_handles w |} (map (MRead i) rs) = Ok (answers, {| mw_shared := sh'; mw_handles := mw_handles w |}) /\
     runMem {| mw_shared := sh; mw_handles := hs |} (map (MRead (List.length (mw_handles w))) rs) = Ok (answers, {| mw_shared := sh'; mw_handles := hs |})).
  { induction rs0 as [|r rs0 IH]; intros sh; cbn [map runMem].
    - do 2 eexists. split; reflexivity.
    - cbn [memStep mw_handles mw_shared]. rewrite E, E'. cbn [of_opt bind]. destruct (memRead sh h r) as [a sh1]. cbn [bind].
      destruct (IH sh1) as (an & sh2 & A & B). rewrite A, B. cbn [bind]. do 2 eexists. split; reflexivity. }
  destruct (G rs (mw_shared w)) as (an & sh & A & B). destruct w as [sh0 hd]; cbn [mw_shared mw_handles] in *.
  rewrite A, B. cbn [bind]. do 3 eexists. split; reflexivity.
Qed.
