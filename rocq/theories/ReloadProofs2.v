(** Proofs for ReloadProperties.v: the client's operations depend only on the contents of the client's state. *)
From Coq Require Import Permutation.
From Verif Require Import Base BaseProofs LogTreeModel PrefixModel CodecModel CodecSpec AlgModel HandleModel ServerModel ClientModel ReloadSpec ReloadProofs CodecProofs3.
Open Scope N_scope.
Local Open Scope list_scope.

(** Both succeed, with related results, or both end in the same way. *)
Definition follows {A B} (R : A -> B -> Prop) (r : res A) (r' : res B) : Prop :=
  match r, r' with
  | Ok a, Ok b => R a b
  | Fail m, Fail m' => m = m'
  | Panic m, Panic m' => m = m'
  | Fuel, Fuel => True
  | _, _ => False
  end.

Lemma follows_bind {A B C D} (R : A -> B -> Prop) (T : C -> D -> Prop) r r' (f : A -> res C) (g : B -> res D) :
  follows R r r' -> (forall a b, R a b -> follows T (f a) (g b)) -> follows T (bind r f) (bind r' g).
Proof. destruct r, r'; cbn; intros F G; try contradiction; auto. Qed.
Lemma follows_same {A} (r : res A) : follows eq r r.
Proof. destruct r; cbn; auto. Qed.
Lemma follows_ok {A B} (R : A -> B -> Prop) a b : R a b -> follows R (Ok a) (Ok b).
Proof. auto. Qed.
Lemma follows_fail {A B} (R : A -> B -> Prop) m : follows R (Fail m) (Fail m).
Proof. reflexivity. Qed.
Lemma follows_panic {A B} (R : A -> B -> Prop) m : follows R (Panic m) (Panic m).
Proof. reflexivity. Qed.
Lemma follows_eq {A} (r r' : res A) : follows eq r r' -> r = r'.
Proof. destruct r, r'; cbn; try contradiction; congruence. Qed.

Record alikeV (v v' : cverifier) : Prop := {
  av_state : sameStates (v_state v) (v_state v'); av_fth : v_fth v = v_fth v'; av_d : alike (v_d v) (v_d v');
  av_n : v_n v = v_n v'; av_nP : v_nP v = v_nP v'; av_m : v_m v = v_m v' }.

Lemma alike_refl {S} (h : S) : alike (newDataProvider h) (newDataProvider h).
Proof. constructor; cbn; auto; constructor. Qed.

Lemma states_perm x y : sameState x y -> NoDup (map fst (cs_entries x)) -> NoDup (map fst (cs_entries y)) -> Permutation (cs_entries x) (cs_entries y).
Proof. intros (_ & _ & _ & E) N1 N2. now apply perm_mget. Qed.

Lemma newCVerifier_follows s s' last fth proof : sameStates s s' -> follows alikeV (newCVerifier s last fth proof) (newCVerifier s' last fth proof).
Proof.
  intro S. unfold newCVerifier. eapply (follows_bind alike).
  - destruct s as [x|], s' as [y|]; cbn in S; try contradiction; [|apply follows_ok, alike_refl]. destruct S as (S & N1 & N2).
    pose proof S as (_ & _ & Es & _). rewrite <- Es. pose proof (states_perm _ _ S N1 N2) as P.
    destruct (addRetained_either (newReceived proof) (cs_subtrees x) _ N1) as [[d E]|E], (addRetained_either (newReceived proof) (cs_subtrees x) _ N2) as [[d' E']|E'].
    + destruct (addRetained_alike _ _ _ _ _ P N1 E) as (d1 & E1 & A). rewrite E, E1. exact A.
    + destruct (addRetained_alike _ _ _ _ _ P N1 E) as (d1 & E1 & A). congruence.
    + destruct (addRetained_alike _ _ _ _ _ (Permutation_sym P) N2 E') as (d1 & E1 & A). congruence.
    + rewrite E, E'. apply follows_fail.
  - intros d d' A. eapply follows_bind; [apply follows_same|]. intros n ? <-. apply follows_ok. constructor; cbn; auto.
Qed.

Section Client.
Variable H : bytes -> option bytes.
Variable hs : N.
Variable c : pubConfig.
Variable now : N.
Variable vrfVerify : bytes -> bytes -> option bytes.
Variable sigVerify leafVerify audVerify : bytes -> bytes -> bool.
Variable visit : nat -> list (N * N) -> list N.

Definition pairV {A} (a b : A * cverifier) : Prop := fst a = fst b /\ alikeV (snd a) (snd b).

Lemma setProvider_alike v v' d d' : alikeV v v' -> alike d d' -> alikeV (setProvider v d) (setProvider v' d').
Proof. intros [] A. constructor; cbn; auto. Qed.

Lemma execV_follows {A} (p : prog A) v v' : alikeV v v' -> follows pairV (execV H hs p v) (execV H hs p v').
Proof.
  intro A0. unfold execV. destruct (run_alike (receivedHandle H hs) p _ _ (av_d _ _ A0)) as [E F]. cbn zeta. rewrite <- E.
  eapply follows_bind; [apply follows_same|]. intros a ? <-. apply follows_ok. split; [reflexivity|]. now apply setProvider_alike.
Qed.

Lemma vAddVersion_follows v v' ver out com : alikeV v v' -> follows alikeV (vAddVersion hs v ver out com) (vAddVersion hs v' ver out com).
Proof.
  intro A0. unfold vAddVersion. rewrite <- (a_handle _ _ (av_d _ _ A0)). eapply follows_bind; [apply follows_same|]. intros a ? <-. apply follows_ok.
  apply setProvider_alike; [exact A0|]. apply withHandle_alike, A0.
Qed.

Lemma addLabelState_follows ls v v' : alikeV v v' -> follows alikeV (addLabelState hs v ls) (addLabelState hs v' ls).
Proof.
  unfold addLabelState. revert v v'. induction (cl_versions ls) as [|e t IH]; intros v v' A0; cbn [foldM]; [now apply follows_ok|].
  eapply follows_bind; [apply vAddVersion_follows; exact A0|]. intros a b A1. now apply IH.
Qed.

Lemma ladderSteps_follows label manual vers : forall ladder v v', alikeV v v' ->
  follows alikeV (ladderSteps hs vrfVerify label v vers ladder manual) (ladderSteps hs vrfVerify label v' vers ladder manual).
Proof.
  induction vers as [|ver t IH]; intros ladder v v' A0; cbn [ladderSteps]; [now apply follows_ok|]. destruct ladder as [|st ladder]; [now apply follows_ok|].
  eapply follows_bind; [apply follows_same|]. intros i ? <-. destruct (vrfVerify i (ls_proof st)) as [out|]; [|apply follows_fail].
  destruct (mget manual ver), (ls_commitment st); try apply follows_fail; (eapply follows_bind; [apply vAddVersion_follows; exact A0|intros va vb A1; now apply IH]).
Qed.
Lemma processLadder_follows v v' label ladder vers manual : alikeV v v' ->
  follows alikeV (processLadder hs vrfVerify v label ladder vers manual) (processLadder hs vrfVerify v' label ladder vers manual).
Proof. intro A0. unfold processLadder. destruct (negb _); [apply follows_fail|]. now apply ladderSteps_follows. Qed.

Lemma mapM_ext {A B} (f g : A -> res B) l : (forall x, f x = g x) -> mapM f l = mapM g l.
Proof. intro E. induction l as [|x t IH]; cbn; [reflexivity|]. now rewrite E, IH. Qed.

Lemma dpFinish_alike d d' n nP m : alike d d' -> dpFinish H hs d n nP m = dpFinish H hs d' n nP m.
Proof.
  intro A0. unfold dpFinish. destruct (inspected_alike (receivedHandle H hs) d d' A0) as (E1 & E2 & E3 & E4 & E5).
  destruct (inspectedLeaves _ d) as [r s], (inspectedLeaves _ d') as [r' s']. cbn [fst snd] in *. subst r'. destruct r as [ps|e|e|]; auto.
  rewrite (mapM_ext _ (fun x => let* ts := getOr "unreachable" (mget (d_ts s') x) in let* root := getOr "unreachable" (mget (d_roots s') x) in logEntryHash H {| le_ts := ts; le_root := root |})) by (intro x; now rewrite E4, E5).
  destruct (mapM _ ps) as [vals|e|e|]; cbn [bind]; auto. rewrite E2. destruct (rFinish _) as [pf|e|e|]; cbn [bind]; auto. rewrite E3.
  destruct (verifyBatch _ _ _ _ _ _ _ _) as [[su ad]|e|e|]; cbn [bind]; auto. destruct (TransMathModel.frontier n) as [fr|e|e|]; cbn [bind]; auto.
  rewrite (mapM_ext _ (fun x => let* ts := getOr "expected timestamp not retained" (mget (d_ts s') x) in let* root := getOr "expected prefix tree root not retained" (mget (d_roots s') x) in Ok (x, {| le_ts := ts; le_root := root |}))) by (intro x; now rewrite E4, E5).
  reflexivity.
Qed.

Lemma verifyTreeHead_alike v v' root rootP : alikeV v v' -> verifyTreeHead H hs c sigVerify audVerify v root rootP = verifyTreeHead H hs c sigVerify audVerify v' root rootP.
Proof.
  intros [S F D N1 N2 N3]. unfold verifyTreeHead, verifyAuditorHead. rewrite <- F, <- N1.
  destruct (dpTs_alike (receivedHandle H hs) _ _ (sub64 (v_n v) 1) D) as [E _]. rewrite <- E.
  destruct (v_state v) as [x|], (v_state v') as [y|]; cbn in S; try contradiction; [|reflexivity]. destruct S as ((Sh & Sa & _) & _). rewrite <- Sh, <- Sa. reflexivity.
Qed.

Lemma finish_follows v v' : alikeV v v' -> follows eq (finish H hs c sigVerify audVerify v) (finish H hs c sigVerify audVerify v').
Proof.
  intro A0. unfold finish, checkFinish. pose proof A0 as [S F D N1 N2 N3]. rewrite <- N1, <- N2, <- N3, <- (dpFinish_alike _ _ _ _ _ D).
  eapply (follows_bind eq).
  - eapply follows_bind; [apply follows_same|]. intros r ? <-. eapply follows_bind; [apply follows_same|]. intros root ? <-. eapply follows_bind; [apply follows_same|]. intros rootP ? <-.
    rewrite (verifyTreeHead_alike v v') by exact A0. apply follows_same.
  - intros r ? <-. destruct (v_state v) as [x|], (v_state v') as [y|]; cbn in S; try contradiction; [|apply follows_panic].
    destruct S as ((Sh & Sa & _) & _). unfold finishState. rewrite <- Sh, <- F. apply follows_same.
Qed.

Ltac same := eapply follows_bind; [apply follows_same|].
Ltac exec A := eapply follows_bind; [apply execV_follows; exact A|].

Lemma checkSearch_follows s s' req resp : sameStates s s' ->
  follows (fun a b => alikeV (fst (fst a)) (fst (fst b)) /\ snd (fst a) = snd (fst b) /\ snd a = snd b)
    (checkSearch H hs c now vrfVerify leafVerify s req resp) (checkSearch H hs c now vrfVerify leafVerify s' req resp).
Proof.
  intro S. unfold checkSearch. eapply follows_bind; [apply newCVerifier_follows; exact S|]. intros v v' A. same. intros target ? <-. same. intros u ? <-. same. intros ladder ? <-. same. intros com ? <-.
  eapply follows_bind; [apply processLadder_follows; exact A|]. intros v1 v1' A1. rewrite <- (av_n _ _ A1), <- (av_m _ _ A1). exec A1. intros [[] v2] [[] v2'] [_ A2]. cbn [fst snd] in A2.
  rewrite <- (av_n _ _ A2). exec A2. intros [t v3] [t' v3'] [Et A3]. cbn [fst snd] in *. subst t'. apply follows_ok. auto.
Qed.

Lemma handle_eq v v' : alikeV v v' -> d_handle (v_d v) = d_handle (v_d v').
Proof. intro A. apply (a_handle _ _ (av_d _ _ A)). Qed.

Theorem search_follows k s s' req resp : sameStates s s' ->
  follows eq (clientSearch H hs c now vrfVerify sigVerify leafVerify audVerify visit k s req resp) (clientSearch H hs c now vrfVerify sigVerify leafVerify audVerify visit k s' req resp).
Proof.
  intro S. unfold clientSearch. eapply follows_bind; [apply checkSearch_follows; exact S|]. intros [[v target] terminal] [[v' target'] terminal'] (A & E1 & E2). cbn [fst snd] in A, E1, E2. subst target' terminal'.
  eapply follows_bind; [apply finish_follows; exact A|]. intros up ? <-. destruct (negb _); [apply follows_same|]. rewrite <- (av_n _ _ A). exec A. intros [d v1] [d' v1'] [Ed A1]. cbn [fst snd] in *. subst d'.
  destruct (match d with Some d0 => _ | None => _ end); [apply follows_same|]. same. intros ls ? <-. eapply follows_bind; [apply addLabelState_follows; exact A1|]. intros v2 v2' A2. rewrite <- (av_n _ _ A1).
  same. intros [ct t'] ? <-. rewrite <- (handle_eq _ _ A2). apply follows_same.
Qed.

Theorem init_follows k s s' ls req resp : sameStates s s' ->
  follows eq (clientOwnerInit H hs c now vrfVerify sigVerify audVerify k s ls req resp) (clientOwnerInit H hs c now vrfVerify sigVerify audVerify k s' ls req resp).
Proof.
  intro S. unfold clientOwnerInit. eapply follows_bind; [apply newCVerifier_follows; exact S|]. intros v v' A. same. intros ladder ? <-.
  eapply follows_bind; [apply processLadder_follows; exact A|]. intros v1 v1' A1. destruct (existsb _ _); [apply follows_fail|].
  rewrite <- (av_n _ _ A1), <- (av_m _ _ A1). exec A1. intros [[] v2] [[] v2'] [_ A2]. cbn [fst snd] in A2. rewrite <- (av_n _ _ A2). exec A2. intros [mo v3] [mo' v3'] [Em A3]. cbn [fst snd] in *. subst mo'.
  exec A3. intros [[xs mo'] v4] [[xs' mo''] v4'] [Em A4]. cbn [fst snd] in *. injection Em as <- <-. eapply follows_bind; [apply finish_follows; exact A4|]. intros up ? <-.
  eapply follows_bind; [apply addLabelState_follows; exact A4|]. intros v5 v5' A5. rewrite <- (handle_eq _ _ A5). apply follows_same.
Qed.

Theorem contact_follows k s s' ls req resp : sameStates s s' ->
  follows eq (clientContactMonitor H hs c now sigVerify audVerify k s ls req resp) (clientContactMonitor H hs c now sigVerify audVerify k s' ls req resp).
Proof.
  intro S. unfold clientContactMonitor. eapply follows_bind; [apply newCVerifier_follows; exact S|]. intros v v' A. eapply follows_bind; [apply addLabelState_follows; exact A|]. intros v1 v1' A1.
  rewrite <- (av_n _ _ A1), <- (av_m _ _ A1). exec A1. intros [[] v2] [[] v2'] [_ A2]. cbn [fst snd] in A2. rewrite <- (av_n _ _ A2). exec A2. intros [mo v3] [mo' v3'] [Em A3]. cbn [fst snd] in *. subst mo'.
  exec A3. intros [mo' v4] [mo'' v4'] [Em A4]. cbn [fst snd] in *. subst mo''. eapply follows_bind; [apply finish_follows; exact A4|]. intros up ? <-. same. intros ct ? <-.
  rewrite <- (handle_eq _ _ A4). same. intros ls' ? <-. rewrite <- (av_n _ _ A4). exec A4. intros [t v5] [t' v5'] [Et _]. cbn [fst snd] in *. subst t'. apply follows_same.
Qed.

Theorem owner_follows k s s' ls req resp : sameStates s s' ->
  follows eq (clientOwnerMonitor H hs c now sigVerify audVerify k s ls req resp) (clientOwnerMonitor H hs c now sigVerify audVerify k s' ls req resp).
Proof.
  intro S. unfold clientOwnerMonitor. eapply follows_bind; [apply newCVerifier_follows; exact S|]. intros v v' A. eapply follows_bind; [apply addLabelState_follows; exact A|]. intros v1 v1' A1.
  rewrite <- (av_n _ _ A1), <- (av_m _ _ A1). exec A1. intros [[] v2] [[] v2'] [_ A2]. cbn [fst snd] in A2. rewrite <- (av_n _ _ A2). exec A2. intros [mo v3] [mo' v3'] [Em A3]. cbn [fst snd] in *. subst mo'.
  destruct (cl_owner ls) as [o|]; [|apply follows_panic]. exec A3. intros [mo' v4] [mo'' v4'] [Em A4]. cbn [fst snd] in *. subst mo''.
  exec A4. intros [out v5] [out' v5'] [Eo A5]. cbn [fst snd] in *. subst out'. destruct (fst out); [apply follows_fail|]. eapply follows_bind; [apply finish_follows; exact A5|]. intros up ? <-.
  rewrite <- (handle_eq _ _ A5). apply follows_same.
Qed.

Theorem stream_follows k s s' ls req resp : sameStates s s' ->
  follows eq (streamVerify H hs c now vrfVerify sigVerify leafVerify audVerify k {| ss_state := s; ss_label := ls; ss_req := req |} resp)
             (streamVerify H hs c now vrfVerify sigVerify leafVerify audVerify k {| ss_state := s'; ss_label := ls; ss_req := req |} resp).
Proof.
  intro S. unfold streamVerify. cbn [ss_state ss_label ss_req]. destruct (cl_owner ls) as [o|]; [|apply follows_panic].
  change (verifyValues H c leafVerify {| ss_state := s'; ss_label := ls; ss_req := req |}) with (verifyValues H c leafVerify {| ss_state := s; ss_label := ls; ss_req := req |}).
  same. intros [startVer coms] ? <-. same. intros ladder ? <-. same. intros u ? <-.
  assert (El : getLast s' = getLast s). { destruct s as [x|], s' as [y|]; cbn in S; try contradiction; [|reflexivity]. destruct S as ((Sh & _) & _). cbn. now rewrite Sh. }
  rewrite El. eapply follows_bind; [apply newCVerifier_follows; exact S|]. intros v v' A. eapply follows_bind; [apply addLabelState_follows; exact A|]. intros v0 v0' A0.
  eapply follows_bind; [apply processLadder_follows; exact A0|]. intros v1 v1' A1.
  rewrite <- (av_n _ _ A1), <- (av_m _ _ A1). exec A1. intros [[] v2] [[] v2'] [_ A2]. cbn [fst snd] in A2. rewrite <- (av_n _ _ A2). exec A2. intros [mo v3] [mo' v3'] [Em A3]. cbn [fst snd] in *. subst mo'.
  exec A3. intros [mo' v4] [mo'' v4'] [Em A4]. cbn [fst snd] in *. subst mo''. eapply follows_bind; [apply finish_follows; exact A4|]. intros up ? <-.
  rewrite <- (handle_eq _ _ A4). apply follows_same.
Qed.
End Client.

(** ** The requests *)

Lemma getLast_same s s' : sameStates s s' -> getLast s = getLast s'.
Proof. destruct s as [x|], s' as [y|]; cbn; intro S; try contradiction; [|reflexivity]. destruct S as ((Sh & _) & _). now rewrite Sh. Qed.

Lemma sameStates_sym s s' : sameStates s s' -> sameStates s' s.
Proof.
  destruct s as [x|], s' as [y|]; cbn; auto. intros ((A & B & C & D) & E & F). split; [|auto]. split; [congruence|]. split; [congruence|]. split; [congruence|]. intro p. now rewrite D.
Qed.
Lemma getDistinguished_same c s s' : sameStates s s' -> getDistinguished c s = getDistinguished c s'.
Proof.
  destruct s as [x|], s' as [y|]; cbn; intro S; try contradiction; [|reflexivity]. destruct S as (S & N1 & N2). pose proof (states_perm _ _ S N1 N2) as P. destruct S as (Sh & _). rewrite <- Sh.
  assert (K : result (run (dpProvider noHandle) (rightmostDistinguished c (th_size (cs_head x))) (match addRetained (newDataProvider tt) [] (cs_entries x) with Ok d => d | _ => newDataProvider tt end)) =
              result (run (dpProvider noHandle) (rightmostDistinguished c (th_size (cs_head x))) (match addRetained (newDataProvider tt) [] (cs_entries y) with Ok d => d | _ => newDataProvider tt end))).
  { apply run_alike. destruct (addRetained (newDataProvider tt) [] (cs_entries x)) as [d|e|e|] eqn:E.
    - destruct (addRetained_alike tt [] _ _ d P N1 E) as (d' & -> & A). exact A.
    - destruct (addRetained (newDataProvider tt) [] (cs_entries y)) as [d|e'|e'|] eqn:E'; try apply alike_refl.
      destruct (addRetained_alike tt [] _ _ d (Permutation_sym P) N2 E') as (d' & E2 & _). congruence.
    - destruct (addRetained (newDataProvider tt) [] (cs_entries y)) as [d|e'|e'|] eqn:E'; try apply alike_refl.
      destruct (addRetained_alike tt [] _ _ d (Permutation_sym P) N2 E') as (d' & E2 & _). congruence.
    - destruct (addRetained (newDataProvider tt) [] (cs_entries y)) as [d|e'|e'|] eqn:E'; try apply alike_refl.
      destruct (addRetained_alike tt [] _ _ d (Permutation_sym P) N2 E') as (d' & E2 & _). congruence. }
  rewrite K. reflexivity.
Qed.

Theorem same_behaviour : forall H hs c now vrfVerify sigVerify leafVerify audVerify visit s s', sameStates s s' ->
  getLast s = getLast s' /\ getDistinguished c s = getDistinguished c s' /\
  (forall k req resp, clientSearch H hs c now vrfVerify sigVerify leafVerify audVerify visit k s req resp = clientSearch H hs c now vrfVerify sigVerify leafVerify audVerify visit k s' req resp) /\
  (forall k ls req resp, clientOwnerInit H hs c now vrfVerify sigVerify audVerify k s ls req resp = clientOwnerInit H hs c now vrfVerify sigVerify audVerify k s' ls req resp) /\
  (forall k ls req resp, clientContactMonitor H hs c now sigVerify audVerify k s ls req resp = clientContactMonitor H hs c now sigVerify audVerify k s' ls req resp) /\
  (forall k ls req resp, clientOwnerMonitor H hs c now sigVerify audVerify k s ls req resp = clientOwnerMonitor H hs c now sigVerify audVerify k s' ls req resp) /\
  (forall k ls req resp, streamVerify H hs c now vrfVerify sigVerify leafVerify audVerify k {| ss_state := s; ss_label := ls; ss_req := req |} resp =
                               streamVerify H hs c now vrfVerify sigVerify leafVerify audVerify k {| ss_state := s'; ss_label := ls; ss_req := req |} resp).
Proof.
  intros H hs c now vv sv lv av visit s s' S. pose proof (sameStates_sym _ _ S) as S'. split; [now apply getLast_same|]. split; [now apply getDistinguished_same|].
  split; [|split; [|split; [|split]]]; intros; apply follows_eq; auto using search_follows, init_follows, contact_follows, owner_follows, stream_follows.
Qed.

Lemma buildEntries_once l : forall acc m, NoDup (map fst acc) -> buildEntries l acc = Ok m -> NoDup (map fst m).
Proof.
  induction l as [|[p e] t IH]; intros acc m ND E; cbn in E; [injection E as <-; exact ND|]. unfold mhas in E. destruct (mget acc p) eqn:G; [discriminate|].
  eapply IH; [|exact E]. unfold mput. cbn. constructor; [now apply ReloadProofs.mget_none|exact ND].
Qed.
Lemma parsed_once c raw y : parseState c raw = Ok y -> NoDup (map fst (cs_entries y)).
Proof.
  unfold parseState, newClientState. intro E. apply bind_ok in E. destruct E as ([y' rest] & E & E'). assert (y = y') as -> by (destruct rest; [now injection E'|discriminate]).
  clear E'. apply bind_ok in E. destruct E as ([h r1] & _ & E). apply bind_ok in E. destruct E as ([a r2] & _ & E). apply bind_ok in E. destruct E as ([f r3] & _ & E). apply bind_ok in E. destruct E as ([es r4] & _ & E).
  apply bind_ok in E. destruct E as (m & B & E). injection E as <- _. cbn. eapply buildEntries_once; [|exact B]. constructor.
Qed.

Theorem saved_same : forall c x order raw, okClientState c x -> Permutation order (cs_entries x) -> (cs_auditor x = None <-> pc_mode c <> ThirdPartyAuditing) ->
  clientStateMarshal x order = Ok raw -> exists y, parseState c raw = Ok y /\ sameStates (Some x) (Some y).
Proof.
  intros c x order raw O P M E. destruct (clientState_rt c x order raw O P M E) as (y & E1 & E2). exists y. split; [exact E1|]. split; [exact E2|]. split; [apply O|]. eapply parsed_once; exact E1.
Qed.
