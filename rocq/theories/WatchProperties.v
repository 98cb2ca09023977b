(** What monitoring by the owner of a label establishes: C58 (owner monitoring), C60 (clock tolerance), C81 (initialization),
    C82 (updates). *)
From Coq Require Import Sorted.
From Verif Require Import Base TransMathModel TransMathSpec LaddersModel CodecModel AlgModel AlgSpec AlgProofs AlgExamples WatchSpec WatchProofs WatchProofs2 WatchProofs3 WatchProofs4 WatchProofs5.

(** C58, soundness.  [L] is the log as it is; [P] any provider whose successful answers in this run are true of [L].  If owner
    monitoring reports success, then at every distinguished entry between the old and the new starting point the log shows exactly
    the versions of the owner's history; and if a distinguished entry right of the new starting point exists, the proof was used up. *)
Theorem C58_owner_monitor_sound : forall S (P : provider S) c L, okTimes L ->
  forall finished, exhaustible P finished ->
  forall hist, StronglySorted N.le hist -> (Z.of_nat (List.length hist) < 4294967296)%Z ->
  forall m os s m' s' l, watches m L -> mo_owner m = Some os -> tracks hist os ->
  run P (ownerMonitor c m) s = (Ok (inr tt, m'), s', l) -> Forall (trueEvent L) l ->
  exists os', m' = {| mo_rightmost := mo_rightmost m; mo_size := mo_size m; mo_contact := mo_contact m; mo_owner := Some os' |} /\
  tracks hist os' /\ os_starting os <= os_starting os' /\
  (os_starting os' = os_starting os \/ distinguished (h_n L) (h_ts L) (pc_rmw c) (os_starting os')) /\
  (forall d, distinguished (h_n L) (h_ts L) (pc_rmw c) d -> os_starting os < d <= os_starting os' -> h_g L d = expected hist d) /\
  (forall d, distinguished (h_n L) (h_ts L) (pc_rmw c) d -> os_starting os' < d -> finished s' = true).
Proof. exact (fun S P => ownerMonitor_true P). Qed.
Print Assumptions C58_owner_monitor_sound.

(** C58, completeness: monitoring an honest log that agrees with the owner's history at the distinguished entries succeeds. *)
Theorem C58_owner_monitor_complete : forall c L, okLog L ->
  forall hist, StronglySorted N.le hist ->
  forall m os s, watches m L -> mo_owner m = Some os -> tracks hist os ->
  (forall d, distinguished (h_n L) (h_ts L) (pc_rmw c) d -> os_starting os < d -> h_g L d = expected hist d) ->
  exists m', result (run (honest L) (ownerMonitor c m) s) = Ok (inr tt, m').
Proof. exact ownerMonitor_honest. Qed.
Print Assumptions C58_owner_monitor_complete.

(** The four entries of [flatLog] are all distinguished for a window of 0; versions 0 and 1 were published at entry 0, version 2 at
    entry 3. *)
Example C58_sound_nonvacuous :
  let os := {| os_starting := 0; os_verAt := 1; os_upcoming := [3] |} in
  let m := {| mo_rightmost := 5; mo_size := 4; mo_contact := None; mo_owner := Some os |} in
  watches m flatLog /\ tracks [0; 0; 3] os /\ distinguished 4 (h_ts flatLog) 0 3 /\ expected [0; 0; 3] 3 = 2%Z /\
  exists m' s' l, run (honest flatLog) (ownerMonitor (exConfig 0 0 0 0) m) 0 = (Ok (inr tt, m'), s', l) /\ Forall (trueEvent flatLog) l.
Proof.
  cbn zeta. split; [split; reflexivity|]. split; [split; reflexivity|]. split.
  { apply (DI_here _ _ 0 4). discriminate. }
  split; [reflexivity|]. do 3 eexists. split; [vm_compute; reflexivity|].
  repeat (constructor; [first [exact I|intros _; reflexivity]|]). constructor.
Qed.

(** C60: an honest provider's answer is accepted if and only if the newest timestamp is within the tolerance. *)
Theorem C60_clock_exact : forall c L now m s, okLog L -> now < two64 -> (forall k, m = Some k -> 1 <= k <= h_n L) ->
  (result (run (honest L) (updateView c now (h_n L) m) s) = Ok tt <->
   h_ts L (h_n L - 1) <= now + pc_maxAhead c /\ now <= h_ts L (h_n L - 1) + pc_maxBehind c).
Proof. exact view_iff. Qed.
Print Assumptions C60_clock_exact.

Example C60_exact_nonvacuous :
  result (run (honest lateLog) (updateView (exConfig 100 100 0 0) 1200 3 (Some 1)) 0) = Ok tt /\
  result (run (honest lateLog) (updateView (exConfig 100 100 0 0) 1000 3 None) 0) = Ok tt.
Proof. vm_compute. split; reflexivity. Qed.

(** C81, soundness.  If initialization with a starting entry and the claimed greatest versions [vers] succeeds, and the answers were
    true of [L], then the starting entry is distinguished and unexpired; the entries reported are it and its unexpired ancestors to
    the left; the claimed versions are the greatest versions at those entries; and the new state says so. *)
Theorem C81_owner_init_sound : forall c L, okTimes L -> forall S (P : provider S) m starting vers s xs m' s' l, watches m L ->
  run P (ownerInit c m starting vers) s = (Ok (xs, m'), s', l) -> Forall (trueEvent L) l ->
  mo_owner m = None /\ distinguished (h_n L) (h_ts L) (pc_rmw c) starting /\ unexpired c L starting /\ initialEntries c L starting xs /\
  (List.length vers <= List.length xs)%nat /\ (forall i x, nth_error xs i = Some x -> h_g L x = claimed vers i) /\
  m' = {| mo_rightmost := mo_rightmost m; mo_size := mo_size m; mo_contact := mo_contact m;
          mo_owner := Some {| os_starting := starting; os_verAt := h_g L starting; os_upcoming := [] |} |}.
Proof. exact (fun c L HL S P => ownerInit_true c L HL P). Qed.
Print Assumptions C81_owner_init_sound.

(** C81, completeness: with an honest log, every distinguished unexpired starting entry and the right versions are accepted. *)
Theorem C81_owner_init_complete : forall c L, okLog L -> forall m starting vers s, watches m L -> mo_owner m = None ->
  distinguished (h_n L) (h_ts L) (pc_rmw c) starting -> unexpired c L starting ->
  exists xs, initialEntries c L starting xs /\
  ((List.length vers <= List.length xs)%nat -> (forall i x, nth_error xs i = Some x -> h_g L x = claimed vers i) ->
   exists m', result (run (honest L) (ownerInit c m starting vers) s) = Ok (xs, m')).
Proof. exact (fun c L HL => ownerInit_honest c L (okLog_times L HL) HL). Qed.
Print Assumptions C81_owner_init_complete.

(** Starting at the last entry of [lateLog], whose ancestor 1 precedes the first version. *)
Example C81_nonvacuous :
  let m := {| mo_rightmost := 1100; mo_size := 3; mo_contact := None; mo_owner := None |} in
  watches m lateLog /\ distinguished 3 (h_ts lateLog) 100 2 /\
  exists m' s' l, run (honest lateLog) (ownerInit (exConfig 0 0 100 0) m 2 [1]) 0 = (Ok ([2; 1], m'), s', l) /\ Forall (trueEvent lateLog) l /\
  mo_owner m' = Some {| os_starting := 2; os_verAt := 1; os_upcoming := [] |} /\
  exists e, result (run (honest lateLog) (ownerInit (exConfig 0 0 100 0) m 2 [1; 0]) 0) = Fail e.
Proof.
  cbn zeta. split; [split; reflexivity|]. split.
  { apply DI_right; [discriminate|reflexivity|]. apply (DI_here _ _ 2 1). discriminate. }
  do 3 eexists. split; [vm_compute; reflexivity|]. split; [repeat (constructor; [first [exact I|intros _; reflexivity]|]); constructor|].
  split; [reflexivity|]. eexists. vm_compute. reflexivity.
Qed.

(** C82, soundness.  If an update announcing [versions] new versions at [pos] succeeds and the answers were true of [L], then [pos] is
    an entry right of all previous versions; unless the entry just before is distinguished (and so left to monitoring) or published the
    last version, the log shows the old greatest version there; unless [pos] is distinguished the log shows the new greatest version
    at [pos]; every new version that the search ladder of the greatest does not mention exists at [pos]; and the new state records the
    versions, with a contact pointer exactly when [pos] is not distinguished. *)
Theorem C82_update_sound : forall c L, okLog L -> forall S (P : provider S) m os pos versions s m' s' l,
  watches m L -> mo_owner m = Some os -> (-1 <= greatestVersion os)%Z ->
  run P (update c m pos versions) s = (Ok m', s', l) -> Forall (trueEvent L) l ->
  lastUpdate os < pos < h_n L /\ (1 <= versions)%Z /\ (greatestVersion os + versions < 4294967295)%Z /\
  (~ distinguished (h_n L) (h_ts L) (pc_rmw c) (pos - 1) -> lastUpdate os < pos - 1 -> h_g L (pos - 1) = greatestVersion os) /\
  (~ distinguished (h_n L) (h_ts L) (pc_rmw c) pos -> h_g L pos = (greatestVersion os + versions)%Z) /\
  (exists ladder, searchBinaryLadder (Z.to_N (greatestVersion os + versions)) (Z.to_N (greatestVersion os + versions)) [] [] = Ok ladder /\
    forall v, (greatestVersion os < Z.of_N v <= greatestVersion os + versions)%Z -> ~ In v ladder -> (Z.of_N v <= h_g L pos)%Z) /\
  (distinguished (h_n L) (h_ts L) (pc_rmw c) pos -> mo_contact m' = mo_contact m) /\
  (~ distinguished (h_n L) (h_ts L) (pc_rmw c) pos -> exists ptrs, mo_contact m' = Some ptrs /\ mget ptrs pos = Some (Z.to_N (greatestVersion os + versions)) /\
     forall x, x <> pos -> mget ptrs x = mget (match mo_contact m with Some p => p | None => [] end) x) /\
  mo_owner m' = Some (newState os pos versions) /\ mo_size m' = mo_size m /\ mo_rightmost m' = mo_rightmost m.
Proof. exact (fun c L HL S P => update_true c L HL P). Qed.
Print Assumptions C82_update_sound.

(** C82, completeness: on an honest log whose label has not changed since the owner's last version, and has [versions] more at [pos],
    the update succeeds. *)
Theorem C82_update_complete : forall c L, okLog L -> forall m os pos versions s, watches m L -> mo_owner m = Some os -> (-1 <= greatestVersion os)%Z ->
  lastUpdate os < pos < h_n L -> (1 <= versions)%Z ->
  (forall x, lastUpdate os < x < pos -> h_g L x = greatestVersion os) -> h_g L pos = (greatestVersion os + versions)%Z ->
  exists m', result (run (honest L) (update c m pos versions) s) = Ok m'.
Proof. exact update_honest. Qed.
Print Assumptions C82_update_complete.

Example C82_nonvacuous :
  let os := {| os_starting := 0; os_verAt := 1; os_upcoming := [] |} in
  let m := {| mo_rightmost := 5; mo_size := 4; mo_contact := None; mo_owner := Some os |} in
  watches m flatLog /\ (forall x, lastUpdate os < x < 3 -> h_g flatLog x = greatestVersion os) /\ h_g flatLog 3 = (greatestVersion os + 1)%Z /\
  ~ distinguished 4 (h_ts flatLog) 10 3 /\
  exists m' s' l, run (honest flatLog) (update (exConfig 0 0 10 0) m 3 1) 0 = (Ok m', s', l) /\ Forall (trueEvent flatLog) l /\
  m' = {| mo_rightmost := 5; mo_size := 4; mo_contact := Some [(3, 2)]; mo_owner := Some {| os_starting := 0; os_verAt := 1; os_upcoming := [3] |} |} /\
  exists e, result (run (honest flatLog) (update (exConfig 0 0 10 0) m 3 2) 0) = Fail e.
Proof.
  cbn zeta. split; [split; reflexivity|]. split. { cbn. intros x Hx. destruct (N.ltb_spec x 3); [reflexivity|destruct Hx; lia]. }
  split; [reflexivity|]. split; [apply nothing_distinguished|].
  do 3 eexists. split; [vm_compute; reflexivity|]. split; [repeat (constructor; [first [exact I|intros _; reflexivity|intros _; repeat constructor]|]); constructor|].
  split; [reflexivity|]. eexists. vm_compute. reflexivity.
Qed.
