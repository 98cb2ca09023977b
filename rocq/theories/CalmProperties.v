(** C48: what remains of it.  Statements only; the proofs are in CalmProofs4.v, the specification in CalmSpec.v. *)
From Verif Require Import Base LogTreeSpec PrefixModel PrefixExamples CodecModel CodecSpec AlgModel StoreModel CommitModel MutateModel MutateSpec MutateExamples ServerModel ClientModel ClientSpec ClientExamples
  CalmSpec CalmProofs4 CalmExamples.
Open Scope N_scope.
Local Open Scope list_scope.

(** Whatever the server answers, with whatever verification functions, an exchange made from a usable store ends with a result
    or an error, except for the nil contact state shown below, and leaves a usable store; so do all exchanges after it. *)
Theorem C48_exchange_partial : forall f hs c, (forall x, lenN (f x) = hs) -> hs = N.of_nat (pc_hs c) -> (32 <= pc_hs c)%nat ->
  forall now vrfVerify sigVerify leafVerify audVerify visit k x, usableStore c hs k -> admissible c x ->
  safeButContact (exchanged (full f) hs c now vrfVerify sigVerify leafVerify audVerify visit k x) /\
  forall k', exchanged (full f) hs c now vrfVerify sigVerify leafVerify audVerify visit k x = Ok k' -> usableStore c hs k'.
Proof. exact exchange_total. Qed.
Print Assumptions C48_exchange_partial.

Example C48_exchange_example : (forall x, lenN (toy32 x) = 32) /\ usableStore xc 32 store3 /\ admissible xc (SearchFor la None r3to3).
Proof. exact (conj toy32_size (conj store3_usable search3_admissible)). Qed.

(** A search by a client with a tree head never crashes. *)
Theorem C48_search_partial : forall f hs c, (forall x, lenN (f x) = hs) -> hs = N.of_nat (pc_hs c) -> (32 <= pc_hs c)%nat ->
  forall now vrfVerify sigVerify leafVerify audVerify visit k st req resp, usableState st -> sq_last req = getLast (Some st) ->
  okSearchResponse c (sq_version req) resp -> optok smallVersion (sq_version req) -> optok smallVersion (sr_version resp) ->
  (forall ls, getLabelState hs k (sq_label req) = Ok ls -> usableLabel (th_size (cs_head st)) ls) ->
  safe (clientSearch (full f) hs c now vrfVerify sigVerify leafVerify audVerify visit k (Some st) req resp).
Proof. exact search_total. Qed.
Print Assumptions C48_search_partial.

(** For a client in any state, also without a tree head, the checks of a search response end with a result or an error (it is
    the storing of the new state that crashes in C48_refuted). *)
Theorem C48_search_checks_partial : forall f hs c, (forall x, lenN (f x) = hs) -> hs = N.of_nat (pc_hs c) -> (32 <= pc_hs c)%nat ->
  forall now vrfVerify sigVerify leafVerify audVerify state req resp, optok u64ok (sq_last req) ->
  okSearchResponse c (sq_version req) resp -> optok smallVersion (sq_version req) -> optok smallVersion (sr_version resp) ->
  safe (checkSearch (full f) hs c now vrfVerify leafVerify state req resp) /\
  forall v target terminal, checkSearch (full f) hs c now vrfVerify leafVerify state req resp = Ok (v, target, terminal) ->
    safe (checkFinish (full f) hs c sigVerify audVerify v).
Proof. exact search_checks_total. Qed.
Print Assumptions C48_search_checks_partial.

Theorem C48_owner_init_partial : forall f hs c, (forall x, lenN (f x) = hs) -> hs = N.of_nat (pc_hs c) -> (32 <= pc_hs c)%nat ->
  forall now vrfVerify sigVerify audVerify k st ls req resp, usableState st -> iq_last req = getLast (Some st) -> okOwnerInitResponse c resp ->
  Forall smallVersion (ir_versions resp) -> usableLabel (th_size (cs_head st)) ls ->
  safe (clientOwnerInit (full f) hs c now vrfVerify sigVerify audVerify k (Some st) ls req resp).
Proof. exact ownerInit_total. Qed.
Print Assumptions C48_owner_init_partial.

Theorem C48_monitor_partial : forall f hs c, (forall x, lenN (f x) = hs) -> hs = N.of_nat (pc_hs c) -> (32 <= pc_hs c)%nat ->
  forall now sigVerify audVerify k st ls resp, usableState st -> okMonitorResponse c resp -> usableLabel (th_size (cs_head st)) ls ->
  (forall req, cq_last req = getLast (Some st) -> safeButContact (clientContactMonitor (full f) hs c now sigVerify audVerify k (Some st) ls req resp)) /\
  (forall req, oq_last req = getLast (Some st) -> cl_owner ls <> None -> safeButContact (clientOwnerMonitor (full f) hs c now sigVerify audVerify k (Some st) ls req resp)).
Proof. exact monitor_total. Qed.
Print Assumptions C48_monitor_partial.

Example C48_monitor_example : usableState st3 /\ okMonitorResponse xc emptyAnswer /\ usableLabel 3 ownedLabel /\ usableLabel 3 contactLabel /\ th_size (cs_head st3) = 3.
Proof. repeat split; first [exact (proj1 st3_usable)|exact (proj2 st3_usable)|apply (emptyAnswer_ok xc)|exact (proj1 ownedLabel_usable)|exact (proj2 ownedLabel_usable)|exact (proj1 contactLabel_usable)|exact (proj2 contactLabel_usable)|reflexivity]. Qed.

(** An update ends with a result or an error if the response's binary ladder has as many steps as are read. *)
Theorem C48_update_partial : forall f hs c, (forall x, lenN (f x) = hs) -> hs = N.of_nat (pc_hs c) -> (32 <= pc_hs c)%nat ->
  forall now vrfVerify sigVerify leafVerify audVerify k sv st o resp, usableState st -> ss_state sv = Some st -> okUpdateResponse c resp ->
  usableLabel (th_size (cs_head st)) (ss_label sv) -> cl_owner (ss_label sv) = Some o ->
  (os_verAt o + Z.of_nat (List.length (os_upcoming o)) + Z.of_N (lenN (ur_info resp)) < 2147483647)%Z ->
  ladderCovers o (lenN (ur_info resp)) (ur_ladder resp) ->
  safe (streamVerify (full f) hs c now vrfVerify sigVerify leafVerify audVerify k sv resp) /\
  forall k' sv', streamVerify (full f) hs c now vrfVerify sigVerify leafVerify audVerify k sv resp = Ok (k', sv') ->
    exists st', ss_state sv' = Some st' /\ usableState st' /\ usableLabel (th_size (cs_head st')) (ss_label sv') /\ cl_owner (ss_label sv') <> None.
Proof. exact update_total. Qed.
Print Assumptions C48_update_partial.

Example C48_update_example : ladderCovers {| os_starting := 2; os_verAt := 2; os_upcoming := [] |} 1 [step0; step0; step0] /\
  ~ ladderCovers {| os_starting := 2; os_verAt := 2; os_upcoming := [] |} 1 [step0; step0].
Proof. exact update_covered. Qed.

(** C48 is also false of monitoring: a client that owns a label, has nothing to monitor as a contact and makes no mistake crashes
    on a response that passes every check, so that no response at all is accepted ... *)
Theorem C48_owner_monitor_refuted :
  (forall H hs c now sigVerify audVerify k state ls req resp k', cl_contact ls = [] -> clientOwnerMonitor H hs c now sigVerify audVerify k state ls req resp <> Ok k') /\
  exists f hs c now sigVerify audVerify k st ls req resp, (forall x, lenN (f x) = hs) /\
    usableState st /\ usableLabel (th_size (cs_head st)) ls /\ cl_owner ls <> None /\ cl_contact ls = [] /\ okMonitorResponse c resp /\
    oq_last req = getLast (Some st) /\
    clientOwnerMonitor (full f) hs c now sigVerify audVerify k (Some st) ls req resp = Panic "nil pointer dereference"%string.
Proof.
  exact (conj ownerMonitor_noContact
    (ex_intro _ toy32 (ex_intro _ 32 (ex_intro _ xc (ex_intro _ 3000 (ex_intro _ xsv (ex_intro _ xsv (ex_intro _ emptyClient (ex_intro _ st3 (ex_intro _ ownedLabel (ex_intro _ ownerQuery
      (ex_intro _ emptyAnswer ownerQuery_case)))))))))))).
Qed.
Print Assumptions C48_owner_monitor_refuted.

(** ... and a client that monitors a label as a contact crashes as soon as nothing is left to monitor. *)
Theorem C48_contact_monitor_refuted : exists f hs c now sigVerify audVerify k st ls req resp, (forall x, lenN (f x) = hs) /\
    usableState st /\ usableLabel (th_size (cs_head st)) ls /\ cl_contact ls <> [] /\ cq_entries req = cl_contact ls /\ okMonitorResponse c resp /\
    cq_last req = getLast (Some st) /\
    clientContactMonitor (full f) hs c now sigVerify audVerify k (Some st) ls req resp = Panic "nil pointer dereference"%string.
Proof.
  exact (ex_intro _ toy32 (ex_intro _ 32 (ex_intro _ xc (ex_intro _ 3000 (ex_intro _ xsv (ex_intro _ xsv (ex_intro _ emptyClient (ex_intro _ st3 (ex_intro _ contactLabel (ex_intro _ contactQuery
      (ex_intro _ emptyAnswer contactQuery_case))))))))))).
Qed.
Print Assumptions C48_contact_monitor_refuted.
