(** The client's verification functions end with a result or an error: searches, monitoring, updates and histories. *)
From Verif Require Import Base BaseProofs LogMathModel LogTreeModel LogTreeSpec TransMathModel TransMathSpec TransMathProofs TransMathProofs2 LaddersModel LaddersProofs
  PrefixModel PrefixVerifyProofs3 CodecModel CodecSpec AlgModel AlgSpec AlgProofs AlgProofs2 AlgProofs3 AlgProofs4 HandleModel HandleProofs
  StoreModel StoreProofs CommitModel MutateModel MutateProofs5 AuditorProofs5 ServerModel ClientModel CalmSpec CalmProofs CalmProofs2 CalmProofs3 CodecProofs CodecProofs2 CodecProofs3.
Open Scope N_scope.
Local Open Scope list_scope.

Section Client.
Variable H : bytes -> option bytes.
Variable hs : N.
Variable c : pubConfig.
Variable now : N.
Variable vrfVerify : bytes -> bytes -> option bytes.
Variable sigVerify leafVerify audVerify : bytes -> bytes -> bool.
Variable visit : nat -> list (N * N) -> list N.
Hypothesis Hsized : sized H hs.
Hypothesis Hhs : hs = N.of_nat (pc_hs c).
Hypothesis Hwide : (255 <= 8 * pc_hs c)%nat.

Notation low := (lowProofs hs).
Notation like := (CalmProofs3.like hs).

(** The verifier of a response: its size is that of the tree head received, or else the one the client has. *)
Definition headSize (fth : fullTreeHead) (last : option N) : N :=
  match fth_head fth with Some th => th_size th | None => match last with Some k => k | None => 0 end end.
Definition verifier (state : option clientState) (last : option N) (v : cverifier) : Prop :=
  low (v_d v) /\ v_state v = state /\ v_m v = last /\ v_n v < 2 ^ 64 /\ v_n v = headSize (v_fth v) last.
Lemma verifier_like state last v v' : verifier state last v -> like v v' -> verifier state last v'.
Proof. unfold verifier, CalmProofs3.like. intros (A & B & C & D & E) (A' & B' & C' & D' & E'). rewrite B', E', D', C'. auto. Qed.

Lemma new_verifier state last fth proof : okCombinedProof (pc_hs c) proof -> okFullTreeHead c fth -> (forall k, last = Some k -> k < 2 ^ 64) ->
  nice (verifier state last) (newCVerifier state last fth proof).
Proof.
  intros A B C. eapply nice_mono; [|apply (newCVerifier_nice hs c Hhs Hwide); eauto]. intros v (P1 & P2 & P3 & P4 & P5 & P6).
  unfold verifier, headSize. rewrite P3. auto.
Qed.

Lemma exec_verifier {A} state last (Q : A -> Prop) (p : prog A) v : wq okVersion Q p -> verifier state last v ->
  nice (fun r => Q (fst r) /\ verifier state last (snd r) /\ v_n (snd r) = v_n v) (execV H hs p v).
Proof.
  intros W V. eapply nice_mono; [|apply (execV_nice H hs Q p v W); apply V]. intros [a v'] [Qa L]. cbn [fst snd] in *. split; auto.
  split; [eapply verifier_like; eauto|apply L].
Qed.
Lemma ladder_verifier state last v label ladder vers manual : verifier state last v ->
  nice (fun v' => verifier state last v' /\ v_n v' = v_n v) (processLadder hs vrfVerify v label ladder vers manual).
Proof.
  intro V. eapply nice_mono; [|apply (processLadder_nice hs vrfVerify); apply V]. intros v' L. split; [eapply verifier_like; eauto|apply L].
Qed.
Lemma label_verifier state last v ls : verifier state last v -> nice (fun v' => verifier state last v' /\ v_n v' = v_n v) (addLabelState hs v ls).
Proof.
  intro V. eapply nice_mono; [|apply addLabelState_nice; apply V]. intros v' L. split; [eapply verifier_like; eauto|apply L].
Qed.
(** The view has been updated. *)
Definition updated (state : option clientState) (last : option N) (v : cverifier) : Prop :=
  verifier state last v /\ 1 <= v_n v /\ (forall k, last = Some k -> k <= v_n v).

Lemma finish_updated st v : updated (Some st) (getLast (Some st)) v ->
  nice (fun s => th_size (cs_head s) = v_n v) (finish H hs c sigVerify audVerify v).
Proof.
  intros ((A & B & C & D & E) & F & G). eapply nice_mono; [|eapply (finish_nice H hs c sigVerify audVerify Hsized Hhs Hwide v st); auto; rewrite C; auto].
  intros s ->. rewrite E. unfold headSize, getLast. cbn [option_map]. destruct (fth_head _); reflexivity.
Qed.

(** ** Stores *)

Definition stored (label : bytes) (n : N) (k k' : clientStore) : Prop :=
  exists s raw, clientStateMarshal s (cs_entries s) = Ok raw /\ k_state k' = Some raw /\ th_size (cs_head s) = n /\
    (k_labels k' = k_labels k \/ k_labels k' = bdel (k_labels k) label \/
     exists ls rawl t, labelStateMarshal ls = Ok rawl /\ Forall (finePtr n) (cl_contact ls) /\ k_labels k' = bput (k_labels k) label (rawl, t)).

Lemma putState_stored k s label n : th_size (cs_head s) = n -> nice (stored label n k) (putState k s).
Proof.
  intro E. unfold putState. pose proof (clientState_calm s (cs_entries s)) as C. destruct (clientStateMarshal _ _) as [raw|m|m|] eqn:Er; cbn in C; try contradiction; [|exact I].
  cbn [bind nice]. exists s, raw. cbn. auto.
Qed.
Lemma putLabelState_stored k s label ls t n : th_size (cs_head s) = n -> Forall (finePtr n) (cl_contact ls) -> nice (stored label n k) (putLabelState k s label ls t).
Proof.
  intros E F. unfold putLabelState. pose proof (clientState_calm s (cs_entries s)) as C. destruct (clientStateMarshal _ _) as [raw|m|m|] eqn:Er; cbn in C; try contradiction; [|exact I].
  assert (K : nice (stored label n k) (let* rawLabel := labelStateMarshal ls in Ok {| k_state := Some raw; k_labels := bput (k_labels k) label (rawLabel, t) |})).
  { pose proof (labelState_calm ls) as C2. destruct (labelStateMarshal ls) as [rawl|m|m|] eqn:El; cbn in C2; try contradiction; [|exact I].
    cbn [bind nice]. exists s, raw. cbn. repeat split; auto. right. right. exists ls, rawl, t. auto. }
  cbn [bind]. destruct (cl_contact ls); destruct (cl_owner ls); try exact K. exists s, raw. cbn. repeat split; auto.
Qed.

Lemma finePtr_mono n n' es : n <= n' -> Forall (finePtr n) es -> Forall (finePtr n') es.
Proof. intros L F. eapply Forall_impl; [|exact F]. intros e [A B]. split; auto. lia. Qed.
Lemma fine_usable n ls : cl_owner ls = None -> Forall (finePtr n) (cl_contact ls) -> usableLabel n ls.
Proof. intros E F. split; [exact F|rewrite E; exact I]. Qed.

Lemma stored_usable label n k k' st : usableStore c hs k -> getState c k = Ok (Some st) -> th_size (cs_head st) <= n < two64 ->
  stored label n k k' -> usableStore c hs k'.
Proof.
  intros [_ U] G Hn (s & raw & Em & Ek & En & L). split; [rewrite Ek; discriminate|].
  intros s' Es'. unfold getState in Es'. rewrite Ek in Es'. destruct (parseState c raw) as [x| | |] eqn:Ep; cbn [bind] in Es'; try discriminate. injection Es' as ->.
  assert (Hh : cs_head s' = cs_head s) by (eapply marshal_size; eauto; unfold u64ok; lia).
  destruct (U st G) as [[U1 _] UL]. unfold usableState. rewrite Hh, En. split; [lia|].
  assert (Old : forall l ls, getLabelState hs k l = Ok ls -> usableLabel n ls).
  { intros l ls E. destruct (UL l ls E) as [A B]. split; [|exact B]. eapply Forall_impl; [|exact A]. cbn. intros e [? ?]. split; auto. lia. }
  intros l ls E. destruct L as [L|[L|(ls0 & rawl & t & Eml & F & L)]].
  - apply (Old l). unfold getLabelState in *. rewrite L in E. exact E.
  - unfold getLabelState in E. rewrite L in E. destruct (bget (bdel (k_labels k) label) l) as [[r t]|] eqn:B.
    + apply (Old l). unfold getLabelState. rewrite bget_bdel in B. destruct (bytes_eqb l label); [discriminate|]. rewrite B. exact E.
    + injection E as <-. split; [constructor|exact I].
  - unfold getLabelState in E. rewrite L in E. rewrite bget_bput in E. destruct (bytes_eqb l label).
    + apply fine_usable; [eapply parseLabel_noOwner; eauto|]. rewrite (marshal_contact _ _ _ _ ltac:(eapply Forall_impl; [|exact F]; intros e [A B]; split; unfold u64ok, u32ok, okVersion, two64, two32 in *; lia) Eml E). exact F.
    + apply (Old l). unfold getLabelState. exact E.
Qed.

(** ** Searches *)

Lemma checkSearch_nice state req resp : okSearchResponse c (sq_version req) resp -> (forall k, sq_last req = Some k -> k < 2 ^ 64) ->
  optok smallVersion (sq_version req) -> optok smallVersion (sr_version resp) ->
  nice (fun '(v, target, terminal) => updated state (sq_last req) v /\ okVersion target /\ terminal < v_n v)
    (checkSearch H hs c now vrfVerify leafVerify state req resp).
Proof.
  intros (Of & Ov & _ & _ & _ & Op) Hl S1 S2. unfold checkSearch.
  eapply nice_then; [apply new_verifier; eauto|]. intros v V.
  apply (nice_then okVersion).
  { unfold searchedVersion. destruct (sq_version req) as [a|]; [exact S1|]. destruct (sr_version resp) as [b|]; [exact S2|exact I]. }
  intros target Ht. apply calm_then; [apply verifyUpdateValue_calm|]. intros _. apply calm_then; [apply search_calm; auto|]. intro ladder.
  apply calm_then; [apply commitment_calm|]. intro com.
  eapply nice_then; [apply ladder_verifier; exact V|]. intros v1 [V1 _].
  eapply nice_then; [apply (exec_verifier state (sq_last req)); [apply updateView_wv; apply V1|exact V1]|]. intros [u v2] (U & V2 & N2). cbn [fst snd] in *.
  eapply nice_then.
  { apply (exec_verifier state (sq_last req) (fun t => t < v_n v2)); [|exact V2].
    destruct (sq_version req); [apply fixed_wv|apply greatest_wv]; auto; apply V2. }
  intros [t v3] (T & V3 & N3). cbn [fst snd] in *. cbn [nice]. rewrite N3. repeat split; auto; [apply V3..|lia|].
  intros k Ek. rewrite N3, N2. apply U. destruct V1 as (_ & _ & -> & _). exact Ek.
Qed.

Lemma clientSearch_nice k st req resp : usableState st -> sq_last req = getLast (Some st) -> okSearchResponse c (sq_version req) resp ->
  optok smallVersion (sq_version req) -> optok smallVersion (sr_version resp) ->
  (forall ls, getLabelState hs k (sq_label req) = Ok ls -> usableLabel (th_size (cs_head st)) ls) ->
  nice (fun k' => exists n, th_size (cs_head st) <= n < two64 /\ stored (sq_label req) n k k')
    (clientSearch H hs c now vrfVerify sigVerify leafVerify audVerify visit k (Some st) req resp).
Proof.
  intros [U1 U2] El Or S1 S2 UL. unfold clientSearch.
  eapply nice_then; [apply (checkSearch_nice (Some st)); auto; rewrite El; intros kk [= <-]; exact U2|]. intros [[v target] terminal] (UV & Ht & Htm).
  rewrite El in UV. assert (Hst : th_size (cs_head st) <= v_n v) by (apply UV; reflexivity). assert (H64 : v_n v < 2 ^ 64) by apply UV.
  assert (PS : forall s, th_size (cs_head s) = v_n v -> nice (fun k' => exists n, th_size (cs_head st) <= n < two64 /\ stored (sq_label req) n k k') (putState k s)).
  { intros s Hs. eapply nice_mono; [|apply putState_stored; exact Hs]. intros k' Hk. exists (v_n v). split; [|exact Hk]. unfold two64. change (2 ^ 64) with 18446744073709551616 in H64. lia. }
  eapply nice_then; [apply (finish_updated st); exact UV|]. intros s Hs. destruct (negb _); [apply PS; exact Hs|].
  eapply nice_then; [eapply exec_verifier; [apply rightmost_wv; exact H64|apply UV]|]. intros [dle v'] (_ & V' & N'). cbn [fst snd] in *.
  destruct (match dle with Some d => _ | None => false end); [apply PS; exact Hs|].
  pose proof (getLabelState_calm hs k (sq_label req)) as CL. destruct (getLabelState hs k (sq_label req)) as [ls|m|m|] eqn:Els; cbn in CL; try contradiction; [|exact I].
  cbn [bind]. destruct (UL ls eq_refl) as [UC UO].
  eapply nice_then; [apply label_verifier; exact V'|]. intros v1 [V1 N1].
  assert (Fc : Forall (finePtr (v_n v')) (cl_contact ls)) by (rewrite N'; eapply finePtr_mono; [exact Hst|exact UC]).
  eapply nice_then.
  { apply updateContactState_nice; [|rewrite N'; exact Htm|exact Ht|exact Fc]. rewrite N'. unfold ok64. lia. }
  intros [contact t'] Fc'. cbn [fst] in Fc'. eapply nice_then; [eapply retained_nice; [exact Fc'|exact UO]|].
  intros ls' [Ec Eo]. eapply nice_mono; [|apply putLabelState_stored; [exact Hs|rewrite Ec, <- N'; exact Fc']].
  intros k' Hk. exists (v_n v). split; [|exact Hk]. unfold two64. change (2 ^ 64) with 18446744073709551616 in H64. lia.
Qed.

(** ** Owners and monitoring *)

Lemma two64_of v : v < 2 ^ 64 -> v < two64.
Proof. unfold two64. change (2 ^ 64) with 18446744073709551616. auto. Qed.

Lemma last_size st k : usableState st -> getLast (Some st) = Some k -> k < 2 ^ 64.
Proof. intros [_ U] [= <-]. exact U. Qed.

Lemma view_monitor st v : verifier (Some st) (getLast (Some st)) v ->
  nice (fun r => updated (Some st) (getLast (Some st)) (snd r) /\ mo_size (fst r) = v_n (snd r) /\ mo_contact (fst r) = None /\ mo_owner (fst r) = None /\ v_n (snd r) = v_n v)
    (let* (_, v2) := execV H hs (updateView c now (v_n v) (v_m v)) v in execV H hs (newMonitor (v_n v2)) v2).
Proof.
  intro V. eapply nice_then; [eapply exec_verifier; [apply updateView_wv; apply V|exact V]|]. intros [u v2] (U & V2 & N2). cbn [fst snd] in *.
  eapply nice_mono; [|eapply exec_verifier; [apply newMonitor_wv|exact V2]]. intros [mo v3] ((P1 & P2 & P3 & P4) & V3 & N3). cbn [fst snd] in *.
  unfold updated. rewrite N3. repeat split; auto; try apply V3; try congruence. intros k Ek. rewrite N2. apply U. destruct V as (_ & _ & -> & _). exact Ek.
Qed.

Lemma clientOwnerInit_nice k st ls req resp : usableState st -> iq_last req = getLast (Some st) -> okOwnerInitResponse c resp ->
  Forall smallVersion (ir_versions resp) -> usableLabel (th_size (cs_head st)) ls ->
  nice (fun k' => exists n, th_size (cs_head st) <= n < two64 /\ stored (iq_label req) n k k')
    (clientOwnerInit H hs c now vrfVerify sigVerify audVerify k (Some st) ls req resp).
Proof.
  intros Us El (Of & _ & _ & Op) S [UC _]. unfold clientOwnerInit. rewrite El.
  eapply nice_then; [apply new_verifier; eauto; intros kk; apply last_size; auto|]. intros v V.
  apply calm_then; [apply allLadder_calm; exact S|]. intro ladder.
  eapply nice_then; [apply ladder_verifier; exact V|]. intros v1 [V1 _]. destruct (existsb _ _); [exact I|].
  pose proof (view_monitor st v1 V1) as VM. destruct (execV H hs (updateView c now (v_n v1) (v_m v1)) v1) as [[u v2]|m|m|]; cbn [bind] in *; try exact VM; try exact I.
  eapply nice_then; [exact VM|]. intros [mo v3] (U3 & M1 & M2 & M3 & _). cbn [fst snd] in *.
  assert (Hst : th_size (cs_head st) <= v_n v3) by (apply U3; reflexivity). assert (H64 : v_n v3 < 2 ^ 64) by apply U3.
  assert (O64 : ok64 (mo_size mo)) by (rewrite M1; unfold ok64; destruct U3 as (_ & ? & _); lia).
  eapply nice_then; [eapply exec_verifier; [apply ownerInit_wv; [exact O64|exact S]|apply U3]|]. intros [[ts mo'] v4] ((o & Eo & Fo) & V4 & N4). cbn [fst snd] in *.
  assert (U4 : updated (Some st) (getLast (Some st)) v4) by (unfold updated; rewrite N4; split; [exact V4|apply U3]).
  eapply nice_then; [apply (finish_updated st); exact U4|]. intros s Hs.
  eapply nice_then; [apply label_verifier; exact V4|]. intros v5 [V5 _].
  assert (Fc : Forall (finePtr (v_n v4)) (cl_contact ls)) by (rewrite N4; eapply finePtr_mono; [exact Hst|exact UC]).
  eapply nice_then; [eapply retained_nice; [exact Fc|rewrite Eo; exact Fo]|]. intros ls' [Ec _].
  eapply nice_mono; [|apply putLabelState_stored; [exact Hs|rewrite Ec; exact Fc]]. intros k' Hk. exists (v_n v4). split; [|exact Hk]. rewrite N4. split; [exact Hst|apply two64_of; exact H64].
Qed.

(** Results that satisfy [R], errors, and the one panic of reading a nil contact state. *)
Definition niceBut {A} (R : A -> Prop) (r : res A) : Prop := nice R r \/ r = Panic "nil pointer dereference"%string.
Lemma niceBut_safe {A} (R : A -> Prop) (r : res A) : niceBut R r -> safeButContact r /\ forall a, r = Ok a -> R a.
Proof.
  intros [N| ->]; [|split; [right; reflexivity|discriminate]]. split; [left; apply safe_calm; eapply nice_calm; eauto|]. intros a ->. exact N.
Qed.
Lemma niceBut_then {A B} (Q : A -> Prop) (R : B -> Prop) (x : res A) (f : A -> res B) : nice Q x -> (forall a, Q a -> niceBut R (f a)) -> niceBut R (bind x f).
Proof. intros C K. destruct x; cbn in *; auto; try contradiction. left; exact I. Qed.

Lemma clientContactMonitor_nice k st ls req resp : usableState st -> cq_last req = getLast (Some st) -> okMonitorResponse c resp ->
  usableLabel (th_size (cs_head st)) ls ->
  niceBut (fun k' => exists n, th_size (cs_head st) <= n < two64 /\ stored (cq_label req) n k k')
    (clientContactMonitor H hs c now sigVerify audVerify k (Some st) ls req resp).
Proof.
  intros Us El (Of & Op) [UC UO]. unfold clientContactMonitor. rewrite El.
  eapply niceBut_then; [apply new_verifier; eauto; intros kk; apply last_size; auto|]. intros v V.
  eapply niceBut_then; [apply label_verifier; exact V|]. intros v1 [V1 _].
  pose proof (view_monitor st v1 V1) as VM. destruct (execV H hs (updateView c now (v_n v1) (v_m v1)) v1) as [[u v2]|m|m|]; cbn [bind] in *; try contradiction; [|left; exact I].
  eapply niceBut_then; [exact VM|]. intros [mo v3] (U3 & M1 & M2 & M3 & _). cbn [fst snd] in *.
  assert (Hst : th_size (cs_head st) <= v_n v3) by (apply U3; reflexivity). assert (H64 : v_n v3 < 2 ^ 64) by apply U3.
  set (mo0 := withContact mo (contactPtrs (cl_contact ls))).
  assert (S0 : mo_size mo0 = v_n v3) by exact M1.
  assert (O64 : ok64 (mo_size mo0)) by (rewrite S0; unfold ok64; destruct U3 as (_ & ? & _); lia).
  assert (Fc : Forall (finePtr (mo_size mo0)) (contactPtrs (cl_contact ls))) by (rewrite S0; apply contactPtrs_fine; eapply finePtr_mono; [exact Hst|exact UC]).
  eapply niceBut_then; [eapply exec_verifier; [apply (contact_wv c mo0 _ O64 eq_refl Fc)|apply U3]|]. intros [mo' v4] ((_ & _ & _ & Fp) & V4 & N4). cbn [fst snd] in *.
  assert (U4 : updated (Some st) (getLast (Some st)) v4) by (unfold updated; rewrite N4; split; [exact V4|apply U3]).
  eapply niceBut_then; [apply (finish_updated st); exact U4|]. intros s Hs.
  destruct (mo_contact mo') as [p|]; [|right; reflexivity]. left.
  eapply nice_then; [apply contactStruct_fine; apply (Fp p eq_refl)|]. intros contact Fct. rewrite S0 in Fct.
  eapply nice_then; [eapply retained_nice; [exact Fct|exact UO]|]. intros ls' [Ec _].
  eapply nice_then; [eapply exec_verifier; [apply rightmost_wv; rewrite N4; exact H64|exact V4]|]. intros [t v5] _. destruct t as [t|]; [|exact I].
  eapply nice_mono; [|apply putLabelState_stored; [exact Hs|rewrite Ec, N4; exact Fct]]. intros k' Hk. exists (v_n v4). split; [|exact Hk]. rewrite N4. split; [exact Hst|apply two64_of; exact H64].
Qed.

Lemma clientOwnerMonitor_nice k st ls o req resp : usableState st -> oq_last req = getLast (Some st) -> okMonitorResponse c resp ->
  usableLabel (th_size (cs_head st)) ls -> cl_owner ls = Some o ->
  niceBut (fun k' => exists n, th_size (cs_head st) <= n < two64 /\ stored (oq_label req) n k k')
    (clientOwnerMonitor H hs c now sigVerify audVerify k (Some st) ls req resp).
Proof.
  intros Us El (Of & Op) [UC UO] Eo. unfold clientOwnerMonitor. rewrite El, Eo.
  eapply niceBut_then; [apply new_verifier; eauto; intros kk; apply last_size; auto|]. intros v V.
  eapply niceBut_then; [apply label_verifier; exact V|]. intros v1 [V1 _].
  pose proof (view_monitor st v1 V1) as VM. destruct (execV H hs (updateView c now (v_n v1) (v_m v1)) v1) as [[u v2]|m|m|]; cbn [bind] in *; try contradiction; [|left; exact I].
  eapply niceBut_then; [exact VM|]. intros [mo v3] (U3 & M1 & M2 & M3 & _). cbn [fst snd] in *.
  assert (Hst : th_size (cs_head st) <= v_n v3) by (apply U3; reflexivity). assert (H64 : v_n v3 < 2 ^ 64) by apply U3.
  set (mo0 := withOwner (withContact mo (contactPtrs (cl_contact ls))) o).
  assert (S0 : mo_size mo0 = v_n v3) by exact M1.
  assert (O64 : ok64 (mo_size mo0)) by (rewrite S0; unfold ok64; destruct U3 as (_ & ? & _); lia).
  assert (Fc : Forall (finePtr (mo_size mo0)) (contactPtrs (cl_contact ls))) by (rewrite S0; apply contactPtrs_fine; eapply finePtr_mono; [exact Hst|exact UC]).
  eapply niceBut_then; [eapply exec_verifier; [apply (contact_wv c mo0 _ O64 eq_refl Fc)|apply U3]|]. intros [mo1 v4] ((S1 & Eo1 & _ & Fp) & V4 & N4). cbn [fst snd] in *.
  rewrite Eo in UO. change (smallOwner o) in UO.
  eapply niceBut_then; [eapply exec_verifier; [apply (ownerMonitor_wv c mo1 o); [rewrite S1; exact O64|rewrite Eo1; reflexivity|exact UO]|exact V4]|].
  intros [[out mo2] v5] ((Ec2 & o' & Eo' & Fo') & V5 & N5). cbn [fst snd] in *. destruct out as [e|out]; [left; exact I|].
  assert (N53 : v_n v5 = v_n v3) by congruence.
  assert (U5 : updated (Some st) (getLast (Some st)) v5) by (unfold updated; rewrite N53; split; [exact V5|apply U3]).
  eapply niceBut_then; [apply (finish_updated st); exact U5|]. intros s Hs. rewrite Ec2, Eo'.
  destruct (mo_contact mo1) as [p|]; [|right; reflexivity]. left.
  eapply nice_then; [apply contactStruct_fine; apply (Fp p eq_refl)|]. intros contact Fct. rewrite S0 in Fct.
  eapply nice_then; [eapply retained_nice; [exact Fct|exact Fo']|]. intros ls' [Ec _].
  eapply nice_mono; [|apply putLabelState_stored; [exact Hs|rewrite Ec, N53; exact Fct]]. intros k' Hk. exists (v_n v5). split; [|exact Hk]. rewrite N53. split; [exact Hst|apply two64_of; exact H64].
Qed.


(** ** Updates *)

Lemma noCommitments_calm startVer : forall vers steps, (List.length vers <= List.length steps)%nat -> calm (noCommitments startVer vers steps).
Proof.
  induction vers as [|v vers IH]; intros steps L; [exact I|]. cbn [noCommitments]. destruct steps as [|st steps]; [cbn in L; lia|]. cbn in L.
  destruct (_ <=? _); [destruct (ls_commitment st); [exact I|]|cbn [List.tl]]; apply IH; lia.
Qed.
Lemma valueCommitments_calm label : forall values infos ver, calm (valueCommitments H c leafVerify label ver values infos).
Proof.
  induction values as [|x values IH]; intros [|i infos] ver; try exact I. cbn [valueCommitments]. cbn zeta.
  apply calm_bind'; [apply verifyUpdateValue_calm|]. intros _. apply calm_bind'; [apply commitment_calm|]. intro. apply calm_bind'; [apply IH|]. intro; exact I.
Qed.

Lemma streamVerify_nice k sv st o resp : usableState st -> ss_state sv = Some st -> okUpdateResponse c resp ->
  usableLabel (th_size (cs_head st)) (ss_label sv) -> cl_owner (ss_label sv) = Some o ->
  (greatestVersion o + Z.of_N (lenN (ur_info resp)) < 2147483647)%Z ->
  ladderCovers o (lenN (ur_info resp)) (ur_ladder resp) ->
  nice (fun r => exists n st', th_size (cs_head st) <= n < two64 /\ stored (uq_label (ss_req sv)) n k (fst r) /\
                 ss_state (snd r) = Some st' /\ th_size (cs_head st') = n /\ usableLabel n (ss_label (snd r)) /\ cl_owner (ss_label (snd r)) <> None)
    (streamVerify H hs c now vrfVerify sigVerify leafVerify audVerify k sv resp).
Proof.
  intros Us Est (Of & Opos & _ & _ & Op) [UC UO] Eo Hg Hl. unfold streamVerify. rewrite Est, Eo. rewrite Eo in UO. change (smallOwner o) in UO.
  assert (Fo : fineOwner o) by exact UO. destruct UO as [Uo1 Uo2].
  set (start := match ownerGreatest o with Some g => w32 (g + 1) | None => 0 end).
  assert (Estart : start = match ownerGreatest o with Some g => g + 1 | None => 0 end /\ Z.of_N start = (greatestVersion o + 1)%Z).
  { unfold start, ownerGreatest, greatestVersion in *. destruct (Z.leb_spec 0 (os_verAt o + Z.of_nat (List.length (os_upcoming o)))) as [Hz|Hz].
    - assert (T : Z.of_N (toU32 (os_verAt o + Z.of_nat (List.length (os_upcoming o)))) = (os_verAt o + Z.of_nat (List.length (os_upcoming o)))%Z).
      { unfold toU32. rewrite Z.mod_small by lia. lia. }
      unfold w32, two32. rewrite N.mod_small; lia.
    - lia. }
  destruct Estart as [Es1 Es2].
  set (values := match ur_values resp with [] => uq_values (ss_req sv) | vs => vs end).
  apply (nice_then (fun r => fst r = start /\ 1 <= lenN (ur_info resp))).
  { unfold verifyValues. destruct (N.eqb_spec (lenN (ur_info resp)) 0); cbn [orb]; [exact I|]. destruct (negb _); [exact I|]. fold start.
    apply calm_then; [apply valueCommitments_calm|]. intro coms. cbn. split; [reflexivity|lia]. }
  intros [start' coms] [E1 L1]. cbn [fst] in E1. subst start'.
  assert (Eend : w32 (start + lenN (ur_info resp) - 1) = start + lenN (ur_info resp) - 1) by (unfold w32, two32; apply N.mod_small; lia).
  rewrite Eend. apply (nice_then (fun ladder => (List.length ladder <= List.length (ur_ladder resp))%nat)).
  { unfold ladderCovers in Hl. cbn zeta in Hl. rewrite <- Es1 in Hl.
    destruct (updateLadderVersions start (start + lenN (ur_info resp) - 1)) as [vs|m|m|] eqn:Eu; cbn; auto; exfalso.
    - unfold updateLadderVersions in Eu. pose proof (search_calm (start + lenN (ur_info resp) - 1) (start + lenN (ur_info resp) - 1) [] [] ltac:(unfold okVersion; change (2 ^ 31 - 1) with 2147483647; lia)) as C1.
      destruct (searchBinaryLadder _ _ _ _) as [l|e|e|]; cbn in C1; try contradiction; [cbn [bind] in Eu|discriminate].
      destruct (N.eqb_spec start 0) as [Z0|Z0]; [discriminate|].
      pose proof (search_calm (start - 1) (start - 1) [] [] ltac:(unfold okVersion; change (2 ^ 31 - 1) with 2147483647; lia)) as C2.
      destruct (searchBinaryLadder _ _ _ _) as [l2|e|e|]; cbn in C2; try contradiction; discriminate.
    - unfold updateLadderVersions in Eu. pose proof (search_calm (start + lenN (ur_info resp) - 1) (start + lenN (ur_info resp) - 1) [] [] ltac:(unfold okVersion; change (2 ^ 31 - 1) with 2147483647; lia)) as C1.
      destruct (searchBinaryLadder _ _ _ _) as [l|e|e|]; cbn in C1; try contradiction; [cbn [bind] in Eu|discriminate].
      destruct (N.eqb_spec start 0) as [Z0|Z0]; [discriminate|].
      pose proof (search_calm (start - 1) (start - 1) [] [] ltac:(unfold okVersion; change (2 ^ 31 - 1) with 2147483647; lia)) as C2.
      destruct (searchBinaryLadder _ _ _ _) as [l2|e|e|]; cbn in C2; try contradiction; discriminate. }
  intros ladder Hlen. apply calm_then; [apply noCommitments_calm; exact Hlen|]. intros _.
  eapply nice_then; [apply new_verifier; eauto; intros kk; apply last_size; auto|]. intros v V.
  eapply nice_then; [apply label_verifier; exact V|]. intros v0 [V0 _].
  eapply nice_then; [apply ladder_verifier; exact V0|]. intros v1 [V1 _].
  pose proof (view_monitor st v1 V1) as VM. destruct (execV H hs (updateView c now (v_n v1) (v_m v1)) v1) as [[u v2]|m|m|]; cbn [bind] in *; try contradiction; [|exact I].
  eapply nice_then; [exact VM|]. intros [mo v3] (U3 & M1 & M2 & M3 & _). cbn [fst snd] in *.
  assert (Hst : th_size (cs_head st) <= v_n v3) by (apply U3; reflexivity). assert (H64 : v_n v3 < 2 ^ 64) by apply U3.
  set (mo0 := withOwner (withContact mo (contactPtrs (cl_contact (ss_label sv)))) o).
  assert (S0 : mo_size mo0 = v_n v3) by exact M1.
  assert (O64 : ok64 (mo_size mo0)) by (rewrite S0; unfold ok64; destruct U3 as (_ & ? & _); lia).
  assert (Fc : Forall (finePtr (mo_size mo0)) (contactPtrs (cl_contact (ss_label sv)))) by (rewrite S0; apply contactPtrs_fine; eapply finePtr_mono; [exact Hst|exact UC]).
  eapply nice_then; [eapply exec_verifier; [apply (update_wv c mo0 o _ (ur_position resp) (Z.of_N (lenN (ur_info resp))) O64 eq_refl Fo Hg eq_refl Fc)|apply U3]|].
  intros [mo' v4] (((p & Ec & Fp) & o' & Eo' & Fo') & V4 & N4). cbn [fst snd] in *.
  assert (U4 : updated (Some st) (getLast (Some st)) v4) by (unfold updated; rewrite N4; split; [exact V4|apply U3]).
  eapply nice_then; [apply (finish_updated st); exact U4|]. intros s Hs. rewrite Ec, Eo'.
  eapply nice_then; [apply contactStruct_fine; exact Fp|]. intros contact Fct. rewrite S0 in Fct.
  eapply nice_then; [eapply retained_nice; [exact Fct|exact Fo']|]. intros ls' [Ecc Eoo].
  eapply nice_then; [apply putLabelState_stored; [exact Hs|rewrite Ecc, N4; exact Fct]|]. intros k' Hk. cbn [nice fst snd ss_state ss_label].
  exists (v_n v4), s. rewrite N4 in *. split; [split; [exact Hst|apply two64_of; exact H64]|]. split; [exact Hk|]. split; [reflexivity|]. split; [exact Hs|].
  split; [|rewrite Eoo; discriminate]. split; [rewrite Ecc; exact Fct|rewrite Eoo; exact Fo'].
Qed.

(** ** Histories *)

Lemma getState_calm k : calm (getState c k).
Proof. unfold getState. destruct (k_state k); [|exact I]. apply calm_bind'; [apply parseState_calm|]. intro; exact I. Qed.
Lemma getLabel_owner k label ls : getLabelState hs k label = Ok ls -> cl_owner ls = None.
Proof. unfold getLabelState. destruct (bget _ _) as [[raw t]|]; [apply parseLabel_noOwner|]. intros [= <-]. reflexivity. Qed.

Lemma exchanged_nice k x : usableStore c hs k -> admissible c x ->
  niceBut (usableStore c hs) (exchanged H hs c now vrfVerify sigVerify leafVerify audVerify visit k x).
Proof.
  intros U A. unfold exchanged. pose proof (getState_calm k) as CS. destruct (getState c k) as [state|m|m|] eqn:Es; cbn in CS; try contradiction; [|left; exact I].
  cbn [bind]. destruct state as [st|].
  2:{ unfold getState in Es. destruct U as [U _]. destruct (k_state k) as [raw|]; [|congruence]. destruct (parseState c raw); discriminate. }
  destruct (proj2 U st Es) as [Us UL].
  assert (Done : forall label k', (exists n, th_size (cs_head st) <= n < two64 /\ stored label n k k') -> usableStore c hs k').
  { intros label k' (n & Hn & Sn). eapply stored_usable; eauto. }
  destruct x as [label version resp|label start resp|label resp|label values resp].
  - left. destruct A as (A1 & A2 & A3). eapply nice_mono; [|apply clientSearch_nice; auto; intros; eapply UL; eauto]. cbn [sq_label]. intro k'. apply Done.
  - left. destruct A as (A1 & A2). pose proof (getLabelState_calm hs k label) as CL. destruct (getLabelState hs k label) as [ls|m|m|] eqn:El; cbn in CL; try contradiction; [|exact I].
    cbn [bind]. eapply nice_mono; [|apply clientOwnerInit_nice; auto; eapply UL; eauto]. cbn [iq_label]. intro k'. apply Done.
  - pose proof (getLabelState_calm hs k label) as CL. destruct (getLabelState hs k label) as [ls|m|m|] eqn:El; cbn in CL; try contradiction; [|left; exact I].
    cbn [bind]. rewrite (getLabel_owner k label ls El). destruct (clientContactMonitor_nice k st ls {| cq_last := getLast (Some st); cq_label := label; cq_entries := cl_contact ls |} resp) as [B|B]; auto; [eapply UL; eauto|left|right; exact B].
    eapply nice_mono; [|exact B]. cbn [cq_label]. intro k'. apply Done.
  - left. unfold updateRequestFor. rewrite Es. cbn [bind]. pose proof (getLabelState_calm hs k label) as CL.
    destruct (getLabelState hs k label) as [ls|m|m|] eqn:El; cbn in CL; try contradiction; [|exact I]. cbn [bind]. rewrite (getLabel_owner k label ls El). exact I.
Qed.
End Client.

(** ** An owner that monitors no version found by a search: nothing it is given is accepted *)

Fixpoint may {A} (Q : A -> Prop) (p : prog A) : Prop :=
  match p with
  | Ret a => Q a
  | Err _ | Crash _ | Diverge => True
  | GetTs x k e => (forall t, may Q (k t)) /\ (forall m, may Q (e m))
  | GetLadder x v o k e => (forall t, may Q (k t)) /\ (forall m, may Q (e m))
  | GetMonitoring x v k e | GetIncl x v k e => may Q k /\ (forall m, may Q (e m))
  | StopCond x v k => forall b, may Q (k b)
  | TrackLadder x o g l k => may Q k
  end.
Lemma may_run {A S} (P : provider S) (Q : A -> Prop) (p : prog A) : forall s a, may Q p -> result (run P p s) = Ok a -> Q a.
Proof.
  unfold result. induction p as [b|m|m| |x k IHk e IHe|x v o k IHk e IHe|x v k IHk e IHe|x v k IHk e IHe|x v k IHk|x o g l k IHk]; cbn [may run]; intros s a M E; try (cbn in E; congruence).
  - destruct (pTs P s x) as [[t|m|m|] s']; try discriminate.
    + specialize (IHk t s' a (proj1 M t)). destruct (run P (k t) s') as [[? ?] ?]. auto.
    + specialize (IHe m s' a (proj2 M m)). destruct (run P (e m) s') as [[? ?] ?]. auto.
  - destruct (pLadder P s x v o) as [[t|m|m|] s']; try discriminate.
    + specialize (IHk t s' a (proj1 M t)). destruct (run P (k t) s') as [[? ?] ?]. auto.
    + specialize (IHe m s' a (proj2 M m)). destruct (run P (e m) s') as [[? ?] ?]. auto.
  - destruct (pMon P s x v) as [[t|m|m|] s']; try discriminate.
    + specialize (IHk s' a (proj1 M)). destruct (run P k s') as [[? ?] ?]. auto.
    + specialize (IHe m s' a (proj2 M m)). destruct (run P (e m) s') as [[? ?] ?]. auto.
  - destruct (pIncl P s x v) as [[t|m|m|] s']; try discriminate.
    + specialize (IHk s' a (proj1 M)). destruct (run P k s') as [[? ?] ?]. auto.
    + specialize (IHe m s' a (proj2 M m)). destruct (run P (e m) s') as [[? ?] ?]. auto.
  - specialize (IHk (pStop P s x v) s a (M _)). destruct (run P (k _) s) as [[? ?] ?]. auto.
  - specialize (IHk (pTrack P s x o g l) a M). destruct (run P k _) as [[? ?] ?]. auto.
Qed.
Lemma may_bind {A B} (Q : B -> Prop) (p : prog A) (f : A -> prog B) : (forall a, may Q (f a)) -> may Q (pbind p f).
Proof. intro K. induction p; cbn; auto. Qed.
Lemma may_catch {A} (Q : A -> Prop) (p : prog A) h : may Q p -> (forall m, may Q (h m)) -> may Q (pcatch p h).
Proof. intros M K. induction p; cbn in *; intuition. Qed.

Lemma ownerMonitor_noContact H hs c now sigVerify audVerify k state ls req resp k' : cl_contact ls = [] ->
  clientOwnerMonitor H hs c now sigVerify audVerify k state ls req resp <> Ok k'.
Proof.
  intros E0 E. unfold clientOwnerMonitor in E.
  apply bind_ok in E as (v & _ & E). apply bind_ok in E as (v1 & _ & E). apply bind_ok in E as ([u v2] & _ & E). apply bind_ok in E as ([mo v3] & _ & E).
  destruct (cl_owner ls) as [o|]; [|discriminate]. rewrite E0 in E.
  apply bind_ok in E as ([mo1 v4] & E1 & E). apply bind_ok in E as ([[out mo2] v5] & E2 & E). cbn [fst snd] in E. destruct out as [e|out]; [discriminate|].
  apply bind_ok in E as (s & _ & E).
  assert (M1 : mo_contact mo1 = None).
  { unfold execV in E1. apply bind_ok in E1 as (a & E1 & Ea). injection Ea as -> _. cbn in E1. injection E1 as <-. reflexivity. }
  assert (M2 : mo_contact mo2 = mo_contact mo1).
  { unfold execV in E2. apply bind_ok in E2 as (a & E2 & Ea). injection Ea as -> _.
    refine (may_run _ (fun r => mo_contact (snd r) = mo_contact mo1) _ _ _ _ E2). unfold ownerMonitor. destruct (mo_owner mo1); [|reflexivity].
    apply may_catch; [apply may_bind; intro; reflexivity|intro; reflexivity]. }
  rewrite M2, M1 in E. discriminate.
Qed.

(** ** Statements *)

Ltac fill := first [exact (fun _ _ => []) | exact (fun _ _ => None) | exact (fun _ _ => false)].
Section Statements.
Variable f : bytes -> bytes.
Variable hs : N.
Variable c : pubConfig.
Hypothesis Hsized : forall x, lenN (f x) = hs.
Hypothesis Hhs : hs = N.of_nat (pc_hs c).
Hypothesis Hwide : (32 <= pc_hs c)%nat.
Let Hs : sized (full f) hs.
Proof. intros x h [= <-]. apply Hsized. Qed.
Let Hw : (255 <= 8 * pc_hs c)%nat.
Proof. lia. Qed.

Lemma exchange_total now vrfVerify sigVerify leafVerify audVerify visit k x : usableStore c hs k -> admissible c x ->
  safeButContact (exchanged (full f) hs c now vrfVerify sigVerify leafVerify audVerify visit k x) /\
  forall k', exchanged (full f) hs c now vrfVerify sigVerify leafVerify audVerify visit k x = Ok k' -> usableStore c hs k'.
Proof. intros U A. apply niceBut_safe. apply exchanged_nice; auto. Qed.

Lemma search_total now vrfVerify sigVerify leafVerify audVerify visit k st req resp : usableState st -> sq_last req = getLast (Some st) ->
  okSearchResponse c (sq_version req) resp -> optok smallVersion (sq_version req) -> optok smallVersion (sr_version resp) ->
  (forall ls, getLabelState hs k (sq_label req) = Ok ls -> usableLabel (th_size (cs_head st)) ls) ->
  safe (clientSearch (full f) hs c now vrfVerify sigVerify leafVerify audVerify visit k (Some st) req resp).
Proof. intros. apply safe_calm. eapply nice_calm. apply clientSearch_nice; auto. Qed.

Lemma search_checks_total now vrfVerify sigVerify leafVerify audVerify state req resp : optok u64ok (sq_last req) ->
  okSearchResponse c (sq_version req) resp -> optok smallVersion (sq_version req) -> optok smallVersion (sr_version resp) ->
  safe (checkSearch (full f) hs c now vrfVerify leafVerify state req resp) /\
  forall v target terminal, checkSearch (full f) hs c now vrfVerify leafVerify state req resp = Ok (v, target, terminal) ->
    safe (checkFinish (full f) hs c sigVerify audVerify v).
Proof.
  intros Hl O S1 S2. assert (N : nice (fun '(v, target, terminal) => updated hs state (sq_last req) v /\ okVersion target /\ terminal < v_n v)
    (checkSearch (full f) hs c now vrfVerify leafVerify state req resp)).
  { apply checkSearch_nice; auto. intros k Ek. rewrite Ek in Hl. exact Hl. }
  split; [apply safe_calm; eapply nice_calm; exact N|]. intros v target terminal E. rewrite E in N. cbn [nice] in N. destruct N as (U & _ & _).
  apply safe_calm. destruct U as ((A & B & C & D & E') & F & G). apply checkFinish_calm; auto. rewrite C. exact G.
Qed.

Lemma ownerInit_total now vrfVerify sigVerify audVerify k st ls req resp : usableState st -> iq_last req = getLast (Some st) -> okOwnerInitResponse c resp ->
  Forall smallVersion (ir_versions resp) -> usableLabel (th_size (cs_head st)) ls ->
  safe (clientOwnerInit (full f) hs c now vrfVerify sigVerify audVerify k (Some st) ls req resp).
Proof. intros. apply safe_calm. eapply nice_calm. apply clientOwnerInit_nice; auto; fill. Qed.

Lemma monitor_total now sigVerify audVerify k st ls resp : usableState st -> okMonitorResponse c resp -> usableLabel (th_size (cs_head st)) ls ->
  (forall req, cq_last req = getLast (Some st) -> safeButContact (clientContactMonitor (full f) hs c now sigVerify audVerify k (Some st) ls req resp)) /\
  (forall req, oq_last req = getLast (Some st) -> cl_owner ls <> None -> safeButContact (clientOwnerMonitor (full f) hs c now sigVerify audVerify k (Some st) ls req resp)).
Proof.
  intros U O L. split; intros req El.
  - refine (proj1 (niceBut_safe _ _ _)). apply clientContactMonitor_nice; auto; fill.
  - intro Eo. destruct (cl_owner ls) as [o|] eqn:E; [|congruence]. refine (proj1 (niceBut_safe _ _ _)). eapply clientOwnerMonitor_nice; eauto; fill.
Qed.

Lemma update_total now vrfVerify sigVerify leafVerify audVerify k sv st o resp : usableState st -> ss_state sv = Some st -> okUpdateResponse c resp ->
  usableLabel (th_size (cs_head st)) (ss_label sv) -> cl_owner (ss_label sv) = Some o ->
  (os_verAt o + Z.of_nat (List.length (os_upcoming o)) + Z.of_N (lenN (ur_info resp)) < 2147483647)%Z ->
  ladderCovers o (lenN (ur_info resp)) (ur_ladder resp) ->
  safe (streamVerify (full f) hs c now vrfVerify sigVerify leafVerify audVerify k sv resp) /\
  forall k' sv', streamVerify (full f) hs c now vrfVerify sigVerify leafVerify audVerify k sv resp = Ok (k', sv') ->
    exists st', ss_state sv' = Some st' /\ usableState st' /\ usableLabel (th_size (cs_head st')) (ss_label sv') /\ cl_owner (ss_label sv') <> None.
Proof.
  intros U Es O L Eo Hg Hl. pose proof (streamVerify_nice (full f) hs c now vrfVerify sigVerify leafVerify audVerify (fun _ _ => []) Hs Hhs Hw k sv st o resp U Es O L Eo Hg Hl) as N.
  split; [apply safe_calm; eapply nice_calm; exact N|]. intros k' sv' E. rewrite E in N. cbn [nice fst snd] in N. destruct N as (n & st' & Hn & _ & S1 & S2 & S3 & S4).
  exists st'. split; [exact S1|]. unfold usableState in *. rewrite S2. split; [lia|]. split; assumption.
Qed.
End Statements.
