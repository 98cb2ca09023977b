(** Requests to the server of HandleExamples.v. *)
From Coq Require Import Sorted.
From Verif Require Import Base BaseProofs LogMathModel LogMathSpec TransMathModel TransMathSpec LogTreeModel LogTreeSpec LogTreeProofs3 LogChunkModel LogChunkSpec LogChunkProofs6 LogChunkProofs7 PrefixModel PrefixSpec PrefixProofs PrefixExamples LaddersModel CodecModel AlgModel AlgSpec AlgProofs AlgProofs4 AlgExamples HandleModel HandleSpec HandleProofs4 HandleExamples HandleExamples2.
Open Scope N_scope.

Definition exCfg : pubConfig := exConfig 1000 1000 1000 10000.
Definition exOwner : ownerState := {| os_starting := 4; os_verAt := 2; os_upcoming := [] |}.
Definition exMonitor : monitor := {| mo_rightmost := 70; mo_size := 7; mo_contact := Some [(1, 1)]; mo_owner := Some exOwner |}.

Lemma exOwner_tracks : tracks [1; 1; 4] exOwner.
Proof. split; reflexivity. Qed.

Lemma keeps_none : keeps exWorld None [].
Proof. split; [split; [constructor|intros x e []]|exact I]. Qed.

(** A client which has seen the first four entries. *)
Definition exRet : list (N * logEntry) := [(3, entryAt exWorld 3)].
Definition exOld : list bytes := Eval vm_compute in
  snd (get (0, []) (foldM (fun st e => let* fs' := logAppend (full toy32) (fst st) (snd st) e in Ok (fst st + 1, fs')) (firstn 4 exLeaves) (0, []))).

Lemma keeps_four : keeps exWorld (Some 4) exRet.
Proof.
  split; [split; [repeat constructor; intros []|]|].
  - intros x e [[= <- <-]|[]]. split; reflexivity.
  - intros front x [= <-] [<-|[]]. left. reflexivity.
Qed.

Lemma full_len : sized (full toy32) 32.
Proof. intros x h [= <-]. unfold lenN. rewrite toy32_len. reflexivity. Qed.

Lemma exOld_ok : FullValues (full toy32) exLeaves 4 exOld.
Proof.
  destruct (c04_append (full toy32) 32 (firstn 4 exLeaves)) as (fs & r & E & (parts & P & F) & _ & _).
  - exact full_len.
  - reflexivity.
  - intros x. eexists. reflexivity.
  - split; discriminate.
  - repeat constructor.
  - vm_compute in E. injection E as E. change (lenN (firstn 4 exLeaves)) with 4 in P.
    exists parts. split; [exact P|]. assert (E' : exOld = fs) by exact E. rewrite E'. clear E E'.
    assert (forall z, In z parts -> fst z + snd z <= 4) as B.
    { clear F. inversion P as [? ? HP|? ? ? HP]; subst; [intros z [<-|[]]; cbn; lia|]. destruct HP. exists 2. reflexivity. }
    clear P. induction F as [|z v parts fs NV F IH]; constructor; [|apply IH; intros; apply B; now right].
    specialize (B z (or_introl eq_refl)). unfold NodeVal in *. replace (slice exLeaves (fst z) (snd z)) with (slice (firstn 4 exLeaves) (fst z) (snd z)); [exact NV|].
    unfold slice. rewrite skipn_firstn_comm, firstn_firstn. f_equal. lia.
Qed.

Definition exFixed (m : option N) : prog N := pbind (updateView exCfg 70 7 m) (fun _ => fixedVersionSearch exCfg 1 7).

Definition exAnswer := Eval vm_compute in
  get (Ok 0, {| cp_ts := []; cp_proofs := []; cp_roots := []; cp_incl := [] |}, []) (serverSide toy32 32 exWorld (exFixed (Some 4)) exRet None (Some 4)).

Lemma exAnswer_ok : serverSide toy32 32 exWorld (exFixed (Some 4)) exRet None (Some 4) = Ok exAnswer.
Proof. vm_compute. reflexivity. Qed.

Lemma exAnswer_refused : clientSide (full toy32) 32 (snd (fst exAnswer)) (snd exAnswer) (exFixed (Some 4)) exOld exRet 7 None (Some 4) = Fail "expected timestamp not retained".
Proof. vm_compute. reflexivity. Qed.

Lemma c66_refuted : exists f hs W c now ver m old ret a,
  faithful f hs W /\ (forall x, List.length (f x) = N.to_nat hs) /\ (N.to_nat hs <= 32)%nat /\ 0 < hs /\ ver < 2 ^ 31 - 1 /\ keeps W (Some m) ret /\
  let n := lenN (w_entries W) in
  let p := pbind (updateView c now n (Some m)) (fun _ => fixedVersionSearch c ver n) in
  honestAnswer W p = Ok a /\ ~ convincing f hs W p (Ok a) ret (Some (m, old)) None.
Proof.
  exists toy32, 32, exWorld, exCfg, 70, 1, 4, exOld, exRet, 3. split; [exact exWorld_ok|]. split; [exact toy32_len|]. split; [apply Nat.leb_le; reflexivity|].
  split; [reflexivity|]. split; [reflexivity|]. split; [exact keeps_four|]. cbn zeta. change (lenN (w_entries exWorld)) with 7. fold (exFixed (Some 4)).
  split; [vm_compute; reflexivity|]. intros C.
  assert (exists root, Mth (full toy32) exLeaves root) as (root & M).
  { apply Mth_total; [intros x; eexists; reflexivity|discriminate]. }
  destruct (C exLeaves root) as (cp & vers & E & HC); auto.
  - repeat constructor.
  - split; [change (lenN (w_entries exWorld)) with 7; lia|]. exact exOld_ok.
  - exact I.
  - cbn [option_map fst] in E. rewrite exAnswer_ok in E.
    assert (Ecp : cp = snd (fst exAnswer) /\ vers = snd exAnswer) by (destruct exAnswer as [[r0 c0] v0]; injection E as _ <- <-; auto).
    destruct Ecp as [-> ->]. destruct (HC (snd exAnswer)) as (pr & fr & EC & _).
    + intros v k co I0. exists co. split; [|auto]. clear -I0.
      assert (G : Forall (fun e => mget (snd exAnswer) (fst e) = Some (snd e)) (snd exAnswer)) by (vm_compute; repeat constructor).
      rewrite Forall_forall in G. exact (G _ I0).
    + change (lenN (w_entries exWorld)) with 7 in EC. cbn [option_map fst] in EC. rewrite exAnswer_refused in EC. discriminate.
Qed.

(** ** Updates with several versions *)

Lemma c61_never {H hs c m os pos versions d m'} : mo_owner m = Some os -> (2 <= List.length (additionalOf os versions))%nat ->
  result (run (dpProvider (receivedHandle H hs)) (update c m pos versions) d) <> Ok m'.
Proof.
  intros Eo Hl.
  destruct ((greatestVersion os + versions <? 0)%Z || (4294967295 <=? greatestVersion os + versions)%Z) eqn:Eb.
  - unfold update. rewrite Eo. unfold result. destruct (_ <=? pos); [discriminate|]. destruct (pos <=? _); [discriminate|]. destruct (_ <? 1)%Z; [discriminate|].
    cbn zeta. rewrite Eb. discriminate.
  - unfold additionalOf in Hl. destruct (searchBinaryLadder _ _ _ _) as [ladder| | |] eqn:El; [|cbn in Hl; lia..].
    eapply c61_update; eauto. apply orb_false_iff in Eb. lia.
Qed.

Definition exUpdated : monitor := {| mo_rightmost := 70; mo_size := 7; mo_contact := Some [(5, 7)];
  mo_owner := Some {| os_starting := 4; os_verAt := 2; os_upcoming := [5; 5; 5; 5; 5] |} |}.
Definition exMonitor' : monitor := {| mo_rightmost := 70; mo_size := 7; mo_contact := None; mo_owner := Some exOwner |}.

Lemma c61_refuted : exists f hs W c mo os known pos k later mo' cp vers,
  faithful f hs W /\ mo_size mo = lenN (w_entries W) /\ mo_owner mo = Some os /\ tracks known os /\
  w_index W = known ++ repeat pos k ++ later /\
  honestAnswer W (update c mo pos (Z.of_nat k)) = Ok mo' /\
  serverSide f hs W (update c mo pos (Z.of_nat k)) [] None None = Ok (Ok mo', cp, vers) /\
  forall vm mo'' old ret n nP m pr, clientSide (full f) hs cp vm (update c mo pos (Z.of_nat k)) old ret n nP m <> Ok (Ok mo'', pr).
Proof.
  pose (out := get (Ok exMonitor, {| cp_ts := []; cp_proofs := []; cp_roots := []; cp_incl := [] |}, []) (serverSide toy32 32 exWorld (update exCfg exMonitor' 5 5) [] None None)).
  exists toy32, 32, exWorld, exCfg, exMonitor', exOwner, [1; 1; 4], 5, 5%nat, [], exUpdated, (snd (fst out)), (snd out).
  split; [exact exWorld_ok|]. split; [reflexivity|]. split; [reflexivity|]. split; [exact exOwner_tracks|]. split; [reflexivity|].
  split; [vm_compute; reflexivity|]. split; [vm_compute; reflexivity|].
  intros vm mo'' old ret n nP m pr E. unfold clientSide in E. destruct (addRetained _ _ _) as [d| | |]; try discriminate. cbn [bind] in E.
  pose proof (@c61_never (full toy32) 32 exCfg exMonitor' exOwner 5 5 d mo'' eq_refl) as Nv. unfold result in Nv.
  change (Z.of_nat 5) with 5%Z in E.
  destruct (run (dpProvider (receivedHandle (full toy32) 32)) (update exCfg exMonitor' 5 5) d) as [[r dC] evs]. cbn [fst] in Nv.
  destruct (dpFinish _ _ _ _ _ _) as [q| | |]; try discriminate. cbn [bind] in E. injection E as -> _. apply Nv; [vm_compute; lia|reflexivity].
Qed.

(** ** Convincing answers *)

Definition exAsk {A} (p : prog A) (m : option N) : prog A := pbind (updateView exCfg 70 7 m) (fun _ => p).

Lemma exContact_ok : forall ptrs x v, mo_contact exMonitor = Some ptrs -> mget ptrs x = Some v -> x < 7 /\ (Z.of_N v <= h_g (observed exWorld) x)%Z.
Proof.
  intros ptrs x v [= <-]. cbn [mget]. destruct (N.eqb_spec x 1); [|discriminate]. intros [= <-]. subst. split; [reflexivity|]. vm_compute. discriminate.
Qed.
