(** The properties of the auditor. *)
From Verif Require Import Base LogMathSpec LogTreeModel LogTreeSpec PrefixModel PrefixSpec CodecModel TransMathSpec AlgModel AlgSpec HandleModel HandleSpec
  MutateModel MutateSpec AuditorModel AuditorSpec AuditorProofs AuditorProofs2 AuditorProofs3 AuditorProofs4 AuditorProofs5 PrefixExamples MutateExamples AuditorExamples AuditorExamples2.
Open Scope N_scope.
Local Open Scope list_scope.

(** C53: an update that is not accepted (whatever the result: an error, or even a panic) leaves the auditor as it was. *)
Theorem C53_rejected_update_changes_nothing : forall f hs c a u r a',
  Process (full f) hs c a u = (r, a') -> r <> Ok tt -> a' = a.
Proof. exact c53. Qed.
Print Assumptions C53_rejected_update_changes_nothing.

Example C53_example : fst (adoP a5 (fst v5')) = Fail "prefix tree leaf is not eligible for removal"%string /\ snd (adoP a5 (fst v5')) = a5.
Proof. split; vm_compute; reflexivity. Qed.

(** C54: whatever updates, commits, failures and restarts the auditor went through, its state is about the log made of
    exactly the updates it accepted. *)
Theorem C54_state_covers_accepted_updates : forall f hs,
  (forall x, lenN (f x) = hs) -> 0 < hs ->
  forall c sign key us ps a, audited (full f) hs c sign key us ps a ->
  exists b L, follows (full f) hs b us L /\
    match a_state a with
    | Some s => summarizes (full f) s L
    | None => us = []
    end /\ (forall i j, i <= j < lenN us -> tsIn L i <= tsIn L j).
Proof. exact c54. Qed.
Print Assumptions C54_state_covers_accepted_updates.

(** ... and the tree head it signs is that of this log; the commit is durable, so that a restarted auditor is the same. *)
Theorem C54_signed_head_covers_accepted_updates : forall f hs,
  (forall x, lenN (f x) = hs) -> 0 < hs ->
  forall c sign key us ps a put th a', audited (full f) hs c sign key us ps a ->
  Commit (full f) hs c sign put a = (Ok th, a') ->
  (forall s, a_state a = Some s -> as_sig s = None) ->
  exists b L leaves root tbs,
    follows (full f) hs b us L /\ Forall2 (fun e h => logEntryHash (full f) e = Ok h) L leaves /\ Mth (full f) leaves root /\
    auditorTreeHeadTBS c (ath_ts th) (lenN us) root = Ok tbs /\ sign tbs = Ok (ath_sig th) /\ ath_size th = lenN us /\
    a_stored a' <> None /\ NewAuditor hs c key (a_stored a') = (let* _ := NewAuditor hs c key None in Ok a').
Proof. exact c54_signed. Qed.
Print Assumptions C54_signed_head_covers_accepted_updates.

(** An auditor that commits, goes on, is restarted, and goes on differently. *)
Example C54_example : auditedX [fst v0; fst w1] [fst v0] a2w /\ exists s, a_state a2w = Some s /\ as_size s = 2 /\ as_ts s = 12000.
Proof. exact c54_example. Qed.

(** C55 is false: the auditor forgets what earlier updates added, so that an entry added after the last preceding
    distinguished entry can be removed. *)
Theorem C55_refuted : exists f hs c sign key us ps a u k a',
  audited (full f) hs c sign key us ps a /\ okUpdate hs u /\ removesRecent c us u k /\ Process (full f) hs c a u = (Ok tt, a').
Proof. exact c55_refuted. Qed.
Print Assumptions C55_refuted.

(** What remains: nothing is removed while there is no distinguished entry at all, and the entries added by the very last
    update are not removed unless it precedes (or is) a distinguished entry.  Missing: entries of updates before the last. *)
Theorem C55_last_update_partial : forall f hs,
  (forall x, lenN (f x) = hs) -> 0 < hs ->
  forall c sign key us ps a u k, audited (full f) hs c sign key us ps a -> okUpdate hs u -> lenN us + 1 < 2 ^ 63 ->
  In k (map fst (au_removed u)) ->
  (forall y, ~ precedingDistinguished c us (au_ts u) y) \/
  (exists prev v, us = prev ++ [v] /\ In k (map fst (au_added v)) /\ forall y, precedingDistinguished c us (au_ts u) y -> y < lenN prev) ->
  exists m, Process (full f) hs c a u = (Fail m, a).
Proof. exact c55_partial. Qed.
Print Assumptions C55_last_update_partial.

Example C55_example : auditedX [fst v0; fst v1; fst v2; fst v3; fst v4] [] a5 /\ okUpdate 32 (fst v5') /\ In (akey x00) (map fst (au_removed (fst v5'))) /\
  fst (adoP a5 (fst v5')) = Fail "prefix tree leaf is not eligible for removal"%string.
Proof. exact c55_example. Qed.

(** C56 is false: a new auditor accepts, as its first update, one for a prefix tree that already has entries. *)
Theorem C56_refuted : exists f hs c sign key a u a' s k com proof,
  audited (full f) hs c sign key [] [] a /\ okUpdate hs u /\ Process (full f) hs c a u = (Ok tt, a') /\ a_state a' = Some s /\
  ~ In k (map fst (au_added u)) /\ Forall (fun r => rincl r = true) (p_results proof) /\
  Evaluate (full f) (N.to_nat hs) [(k, com)] proof = Ok (as_prefix s).
Proof. exact c56_refuted. Qed.
Print Assumptions C56_refuted.

(** What remains: every later update starts from the prefix tree the previous one left, and the first one removes nothing. *)
Theorem C56_chain_partial : forall f hs,
  (forall x, lenN (f x) = hs) -> 0 < hs ->
  forall c sign key us ps a u a', audited (full f) hs c sign key us ps a -> okUpdate hs u -> lenN us + 1 < 2 ^ 63 ->
  Process (full f) hs c a u = (Ok tt, a') ->
  match a_state a with
  | Some s => exists new, EvaluateBeforeAfter (full f) (N.to_nat hs) (au_added u) (au_removed u) (au_proof u) = Ok (as_prefix s, new) /\
                exists s', a_state a' = Some s' /\ as_prefix s' = new
  | None => au_removed u = []
  end.
Proof. exact c56_partial. Qed.
Print Assumptions C56_chain_partial.

Example C56_example : auditedX [fst v0] [] a1 /\ okUpdate 32 (fst v1) /\ fst (adoP a1 (fst v1)) = Ok tt.
Proof. split; [exact a1_audited|]. split; [okUpd|vm_compute; reflexivity]. Qed.

(** C69 is false: after the store has failed once, the next commit succeeds without storing anything. *)
Theorem C69_refuted : exists f hs c sign key us ps a m a1 a2 th,
  audited (full f) hs c sign key us ps a /\ Commit (full f) hs c sign (Fail m) a = (Fail m, a1) /\
  Commit (full f) hs c sign (Ok tt) a1 = (Ok th, a2) /\ a_stored a2 = None.
Proof. exact c69_refuted. Qed.
Print Assumptions C69_refuted.

(** What remains: a commit that signs afresh is durable when it succeeds ([C54_signed_head_covers_accepted_updates] says more). *)
Theorem C69_fresh_commit_partial : forall f hs,
  (forall x, lenN (f x) = hs) -> 0 < hs ->
  forall c sign key us ps a put th a', audited (full f) hs c sign key us ps a ->
  Commit (full f) hs c sign put a = (Ok th, a') -> (forall s, a_state a = Some s -> as_sig s = None) ->
  a_stored a' <> None /\ NewAuditor hs c key (a_stored a') = (let* _ := NewAuditor hs c key None in Ok a').
Proof. exact c69_fresh. Qed.
Print Assumptions C69_fresh_commit_partial.

Example C69_example : exists th a2, auditedX [fst v0] [] a1 /\ adoC (Ok tt) a1 = (Ok th, a2) /\ (forall s, a_state a1 = Some s -> as_sig s = None).
Proof. exact c69_example. Qed.

(** C70: at any time, an auditor that is restarted from its store starts, and goes on from its last stored commit. *)
Theorem C70_restart_resumes_last_commit : forall f hs,
  (forall x, lenN (f x) = hs) -> 0 < hs ->
  forall c sign key us ps a, audited (full f) hs c sign key us ps a ->
  exists a', NewAuditor hs c key (a_stored a) = Ok a' /\ a_stored a' = a_stored a /\
    exists b L, follows (full f) hs b ps L /\
      match a_state a' with
      | Some s => summarizes (full f) s L
      | None => ps = []
      end.
Proof. exact c70_restart. Qed.
Print Assumptions C70_restart_resumes_last_commit.

Example C70_example : auditedX [fst v0; fst v1] [fst v0] a2c /\ exists a', NewAuditor 32 ac [x07] (a_stored a2c) = Ok a' /\ a' <> a2c.
Proof. split; [exact a2c_audited|]. eexists. split; [vm_compute; reflexivity|]. intro Q. apply (f_equal (fun a => match a_state a with Some s => as_size s | None => 0 end)) in Q. vm_compute in Q. discriminate. Qed.

(** C71: an auditor that follows a server from the beginning accepts each of its updates.  Missing: updates that remove labels. *)
Theorem C71_honest_updates_accepted_partial : forall f hs,
  (forall x, lenN (f x) = hs) -> 0 < hs <= 32 ->
  forall c vrf Ls, vrfGood hs vrf Ls ->
  forall sign asign (valid : bytes -> bytes -> Prop), (forall tbs sig, sign tbs = Ok sig -> valid tbs sig) ->
  forall key t rs a r u t', tracked (full f) hs c vrf sign asign key Ls t rs a ->
  moderate Ls (lenN rs) (labelsNow rs) r -> rq_add r <> [] -> rq_remove r = [] ->
  Mutate (full f) hs c vrf sign (rq_opening r) (rq_order r) (rq_now r) t (rq_add r) (rq_remove r) = (Ok u, t') ->
  exists a' s, Process (full f) hs c a u = (Ok tt, a') /\ a_state a' = Some s /\ as_sig s = None /\ as_size s = lenN rs + 1 /\ as_ts s = rq_now r.
Proof. exact c71_accepts. Qed.
Print Assumptions C71_honest_updates_accepted_partial.

(** ... and signs the same root of the log as the server. *)
Theorem C71_same_root_signed_partial : forall f hs,
  (forall x, lenN (f x) = hs) -> 0 < hs <= 32 ->
  forall c vrf Ls, vrfGood hs vrf Ls ->
  forall sign asign (valid : bytes -> bytes -> Prop), (forall tbs sig, sign tbs = Ok sig -> valid tbs sig) ->
  forall key t rs a put th a', tracked (full f) hs c vrf sign asign key Ls t rs a ->
  Commit (full f) hs c asign put a = (Ok th, a') -> (forall s, a_state a = Some s -> as_sig s = None) ->
  exists head root tbs tbs', t_head t = Some head /\ th_size head = lenN rs /\ ath_size th = lenN rs /\
    treeHeadTBS c (lenN rs) root = Ok tbs /\ valid tbs (th_sig head) /\
    auditorTreeHeadTBS c (ath_ts th) (lenN rs) root = Ok tbs' /\ asign tbs' = Ok (ath_sig th).
Proof. exact c71_same. Qed.
Print Assumptions C71_same_root_signed_partial.

Example C71_example : trackedX (snd m2r) [q1; q2] b2 /\
  (forall s, a_state b2 = Some s -> as_sig s = None) /\ exists th a', adoC (Ok tt) b2 = (Ok th, a').
Proof. exact c71_example. Qed.

(** With removals it is false: an honest mutation that removes a label is accepted, but it leaves the auditor with a root of the
    prefix tree other than the one the server put into its log, and the next honest update is refused. *)
Theorem C71_refuted : exists f hs c vrf sign asign key Ls t rs a r u t' a' s raw e r2 u2 t2 m,
  (forall x, lenN (f x) = hs) /\ 0 < hs <= 32 /\ vrfGood hs vrf Ls /\
  tracked (full f) hs c vrf sign asign key Ls t rs a /\
  moderate Ls (lenN rs) (labelsNow rs) r /\ rq_add r <> [] /\
  Mutate (full f) hs c vrf sign (rq_opening r) (rq_order r) (rq_now r) t (rq_add r) (rq_remove r) = (Ok u, t') /\
  Process (full f) hs c a u = (Ok tt, a') /\
  a_state a' = Some s /\ logEntryMarshal e = Ok raw /\ mget (x_entries (durable (t_tx t'))) (lenN rs) = Some raw /\ as_prefix s <> le_root e /\
  moderate Ls (lenN rs + 1) (labelsNow (rs ++ [r])) r2 /\ rq_add r2 <> [] /\ rq_remove r2 = [] /\
  Mutate (full f) hs c vrf sign (rq_opening r2) (rq_order r2) (rq_now r2) t' (rq_add r2) (rq_remove r2) = (Ok u2, t2) /\
  Process (full f) hs c a' u2 = (Fail m, a').
Proof. exact c71_refuted. Qed.
Print Assumptions C71_refuted.

(** C72: an entry that is distinguished stays distinguished as the log grows. *)
Theorem C72_distinguished_stays : forall n n' ts w y,
  1 <= n <= n' -> (forall i j, i <= j < n' -> ts i <= ts j) ->
  distinguished n ts w y -> distinguished n' ts w y.
Proof. exact distinguished_stays. Qed.
Print Assumptions C72_distinguished_stays.

Example C72_example : precedingDistinguished ac us6 10000 3.
Proof. exact a6_distinguished. Qed.

(** C73 is false: loading a stored state for a tree of size zero panics instead of returning an error. *)
Theorem C73_refuted : exists raw m, newAuditorState 32 raw = Panic m.
Proof. exact c73_refuted. Qed.
Print Assumptions C73_refuted.

(** What remains: the states an auditor stores itself are read back without a panic (C70). *)
Theorem C73_own_states_partial : forall f hs,
  (forall x, lenN (f x) = hs) -> 0 < hs ->
  forall c sign key us ps a raw, audited (full f) hs c sign key us ps a -> a_stored a = Some raw ->
  exists s, newAuditorState (N.to_nat hs) raw = Ok (s, []).
Proof. exact c73_own. Qed.
Print Assumptions C73_own_states_partial.

Example C73_example : exists raw, auditedX [fst v0] [fst v0] a1c /\ a_stored a1c = Some raw.
Proof. eexists. split; [exact a1c_audited|reflexivity]. Qed.

(** C74 is false: a mutation can return an update that can not be marshalled. *)
Theorem C74_refuted : exists f hs c vrf sign Ls t r u t' m,
  runs (full f) hs c vrf sign Ls t [] /\ moderate Ls 0 noLabels r /\
  Mutate (full f) hs c vrf sign (rq_opening r) (rq_order r) (rq_now r) t (rq_add r) (rq_remove r) = (Ok u, t') /\
  auditorUpdateMarshal u = Fail m.
Proof. exact c74_refuted. Qed.
Print Assumptions C74_refuted.

(** This is so for every mutation that adds more than 255 versions (and removes nothing), at any time. *)
Theorem C74_large_updates_refuted : forall f hs,
  (forall x, lenN (f x) = hs) -> 0 < hs <= 32 ->
  forall c vrf Ls, vrfGood hs vrf Ls -> forall sign t rs r u t',
  runs (full f) hs c vrf sign Ls t rs -> moderate Ls (lenN rs) (labelsNow rs) r -> rq_remove r = [] ->
  Mutate (full f) hs c vrf sign (rq_opening r) (rq_order r) (rq_now r) t (rq_add r) (rq_remove r) = (Ok u, t') ->
  255 < lenN (rq_add r) -> exists m, auditorUpdateMarshal u = Fail m.
Proof. exact c74_large_any. Qed.
Print Assumptions C74_large_updates_refuted.

(** With at most 255 versions (and nothing removed, and a proof of less than 2^16 hashes) marshalling succeeds. *)
Theorem C74_small_updates_partial : forall f hs,
  (forall x, lenN (f x) = hs) -> 0 < hs <= 32 ->
  forall c vrf Ls, vrfGood hs vrf Ls -> forall sign t rs r u t',
  runs (full f) hs c vrf sign Ls t rs -> moderate Ls (lenN rs) (labelsNow rs) r -> rq_add r <> [] -> rq_remove r = [] ->
  Mutate (full f) hs c vrf sign (rq_opening r) (rq_order r) (rq_now r) t (rq_add r) (rq_remove r) = (Ok u, t') ->
  lenN (rq_add r) <= 255 -> lenN (p_elements (au_proof u)) < 65536 -> exists raw, auditorUpdateMarshal u = Ok raw.
Proof. exact c74_small_any. Qed.
Print Assumptions C74_small_updates_partial.

Example C74_example : runs (full toy32) 32 xc xvrf xsign xLs t1 [q1] /\ moderate xLs 1 (labelsNow [q1]) q2 /\
  lenN (rq_add q2) <= 255 /\ exists u t', xdo t1 q2 = (Ok u, t') /\ lenN (p_elements (au_proof u)) < 65536.
Proof. split; [exact x_runs1|]. split; [moderately|]. split; [discriminate|]. do 2 eexists. split; [vm_compute; reflexivity|reflexivity]. Qed.
