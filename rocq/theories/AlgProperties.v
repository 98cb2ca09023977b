(** C16, C17, C19-C22, C57-C60, C65: search and monitoring algorithms (tree/transparency/algorithms). *)
From Coq Require Import Sorted.
From Verif Require Import Base LogMathModel TransMathModel TransMathSpec LaddersModel CodecModel AlgModel AlgSpec AlgProofs AlgProofs2 AlgProofs3 AlgProofs4 AlgProofs5 AlgProofs6 AlgExamples.

(** C16. *)
Theorem C16_rightmost_distinguished : forall c L s, okLog L ->
  exists o, result (run (honest L) (rightmostDistinguished c (h_n L)) s) = Ok o /\
    greatestOf (distinguished (h_n L) (h_ts L) (pc_rmw c)) o.
Proof. exact c16_rightmost. Qed.
Print Assumptions C16_rightmost_distinguished.

Theorem C16_empty_log : forall c S (P : provider S) s,
  run P (rightmostDistinguished c 0) s = (Ok None, s, []).
Proof. exact (fun c S P s => eq_refl). Qed.
Print Assumptions C16_empty_log.

Example C16_nonvacuous : okLog lateLog /\
  result (run (honest lateLog) (rightmostDistinguished (exConfig 0 0 10 0) 3) 0) = Ok (Some 2) /\
  result (run (honest lateLog) (rightmostDistinguished (exConfig 0 0 500 0) 3) 0) = Ok (Some 1) /\
  result (run (honest lateLog) (rightmostDistinguished (exConfig 0 0 5000 0) 3) 0) = Ok None.
Proof. split; [exact lateLog_ok|]. vm_compute. repeat split. Qed.

(** C17.  The timestamps asked for are those of the newest entry and of entries on the frontier of the log without
    its newest entry. *)
Theorem C17_previous_rightmost : forall c L s, okLog L ->
  exists o, result (run (honest L) (previousRightmost c (h_n L)) s) = Ok o /\
    greatestOf (fun y => distinguished (h_n L) (h_ts L) (pc_rmw c) y /\ y < h_n L - 1) o /\
    Forall (fun e => exists x r, e = EvTs x r /\
      (x = h_n L - 1 \/ exists f, SFront 0 (h_n L - 1) f /\ In x f)) (events (run (honest L) (previousRightmost c (h_n L)) s)).
Proof. exact c17_previous. Qed.
Print Assumptions C17_previous_rightmost.

Example C17_nonvacuous : okLog lateLog /\
  result (run (honest lateLog) (previousRightmost (exConfig 0 0 10 0) 3) 0) = Ok (Some 1).
Proof. split; [exact lateLog_ok|]. vm_compute. reflexivity. Qed.

(** C19 (refuted).  Against a provider that has no timestamps at all, the search reports success for version 5
    although nothing was looked up. *)
Theorem C19_greatest_search_refuted : exists c n ver S (P : provider S) s s' l,
  run P (greatestVersionSearch c ver n) s = (Ok 0, s', l) /\ Forall (fun e => exists x m, e = EvTs x (Fail m)) l /\ 0 < ver.
Proof. exact c19_refuted. Qed.
Print Assumptions C19_greatest_search_refuted.

(** C19, what holds for every provider: success means that the last question asked was for a ladder at the newest
    entry, which showed the version to be the greatest, and no other inspected entry showed a greater one - or else
    that a timestamp could not be obtained.  (Missing: the latter case should be an error, and is not.) *)
Theorem C19_greatest_search_partial : forall c n ver S (P : provider S) s t s' l, n < 2 ^ 64 ->
  run P (greatestVersionSearch c ver n) s = (Ok t, s', l) ->
  (exists x m, In (EvTs x (Fail m)) l) \/
  ((exists l0, l = l0 ++ [EvLadder (sub64 n 1) ver true (Ok 0%Z)]) /\
   (forall x v o r, In (EvLadder x v o r) l -> v = ver /\ exists z, r = Ok z /\ z <> 1%Z)).
Proof. exact c19_partial. Qed.
Print Assumptions C19_greatest_search_partial.

Example C19_nonvacuous :
  run (honest flatLog) (greatestVersionSearch (exConfig 0 0 10 0) 2 4) 0 =
    (Ok 3, 1, [EvTs 3 (Ok 5); EvLadder 3 2 true (Ok 0%Z)]).
Proof. vm_compute. reflexivity. Qed.

(** C20.  [path] is the part of the frontier from the rightmost distinguished entry (the root, if there is none) to
    the newest entry. *)
Theorem C20_greatest_search_correct : forall c L ver s, okLog L ->
  exists pre path o,
    greatestOf (distinguished (h_n L) (h_ts L) (pc_rmw c)) o /\
    SFront 0 (h_n L) (pre ++ path) /\
    hd_error path = Some (match o with Some d => d | None => sroot 0 (h_n L) end) /\
    let r := result (run (honest L) (greatestVersionSearch c ver (h_n L)) s) in
    (h_g L (h_n L - 1) = Z.of_N ver ->
       exists p t q, path = p ++ t :: q /\ r = Ok t /\ h_g L t = Z.of_N ver /\ Forall (fun y => (h_g L y < Z.of_N ver)%Z) p) /\
    (h_g L (h_n L - 1) <> Z.of_N ver ->
       exists msg, r = Fail msg /\ (h_g L (h_n L - 1) = (-1)%Z -> ver = 0 -> msg = ErrLabelNotFound)).
Proof. exact c20_greatest. Qed.
Print Assumptions C20_greatest_search_correct.

Example C20_nonvacuous : okLog lateLog /\
  result (run (honest lateLog) (greatestVersionSearch (exConfig 0 0 500 0) 1 3) 0) = Ok 2 /\
  (exists m, result (run (honest lateLog) (greatestVersionSearch (exConfig 0 0 500 0) 0 3) 0) = Fail m) /\
  (exists m, result (run (honest lateLog) (greatestVersionSearch (exConfig 0 0 500 0) 2 3) 0) = Fail m).
Proof. split; [exact lateLog_ok|]. vm_compute. split; [reflexivity|]. split; eexists; reflexivity. Qed.

(** C21. *)
Theorem C21_fixed_search : forall c L ver s, okLog L ->
  (forall x, x < h_n L -> isExpired (pc_maxLife c) (h_ts L x) (h_ts L (h_n L - 1)) = false) ->
  let r := result (run (honest L) (fixedVersionSearch c ver (h_n L)) s) in
  ((Z.of_N ver <= h_g L (h_n L - 1))%Z ->
     exists x, r = Ok x /\ x < h_n L /\
       (h_g L x = Z.of_N ver \/ (Z.of_N ver <= h_g L x)%Z /\ forall y, y < x -> (h_g L y < Z.of_N ver)%Z)) /\
  ((h_g L (h_n L - 1) < Z.of_N ver)%Z -> r = Fail ErrLabelNotFound).
Proof. exact c21_fixed. Qed.
Print Assumptions C21_fixed_search.

Example C21_nonvacuous : okLog lateLog /\ okLog flatLog /\
  result (run (honest lateLog) (fixedVersionSearch (exConfig 0 0 10 0) 0 3) 0) = Ok 2 /\
  result (run (honest flatLog) (fixedVersionSearch (exConfig 0 0 10 0) 1 4) 0) = Ok 1 /\
  result (run (honest flatLog) (fixedVersionSearch (exConfig 0 0 10 0) 3 4) 0) = Fail ErrLabelNotFound.
Proof. split; [exact lateLog_ok|]. split; [exact flatLog_ok|]. vm_compute. repeat split. Qed.

(** C22 (refuted).  [t] is the first unexpired entry that contains the version, and it is distinguished; the search
    nevertheless reports the version as expired. *)
Theorem C22_expiry_boundary_refuted : exists c L ver t,
  okLog L /\ (Z.of_N ver <= h_g L t)%Z /\ t < h_n L /\
  isExpired (pc_maxLife c) (h_ts L t) (h_ts L (h_n L - 1)) = false /\
  distinguished (h_n L) (h_ts L) (pc_rmw c) t /\
  (forall y, y < t -> isExpired (pc_maxLife c) (h_ts L y) (h_ts L (h_n L - 1)) = true \/ (h_g L y < Z.of_N ver)%Z) /\
  result (run (honest L) (fixedVersionSearch c ver (h_n L)) 0) = Fail ErrLabelExpired.
Proof. exact c22_refuted. Qed.
Print Assumptions C22_expiry_boundary_refuted.

(** C22, what holds: the outcome of a search in the presence of expired entries.  If no unexpired entry contains the
    version, it is not found.  Otherwise, let [t] be the first one: the search either succeeds, at an unexpired entry
    at which the version is the greatest or at [t]; or it reports expiry, and then some entry is expired and no
    unexpired distinguished entry is strictly left of [t].  (Missing: success if [t] itself is distinguished.) *)
Theorem C22_expiry_partial : forall c L ver s, okLog L ->
  let expired x := isExpired (pc_maxLife c) (h_ts L x) (h_ts L (h_n L - 1)) = true in
  let r := result (run (honest L) (fixedVersionSearch c ver (h_n L)) s) in
  ((forall x, x < h_n L -> expired x \/ (h_g L x < Z.of_N ver)%Z) -> r = Fail ErrLabelNotFound) /\
  (forall t, t < h_n L -> ~ expired t -> (Z.of_N ver <= h_g L t)%Z ->
     (forall y, y < t -> expired y \/ (h_g L y < Z.of_N ver)%Z) ->
     (exists x, r = Ok x /\ t <= x < h_n L /\ ~ expired x /\ (h_g L x = Z.of_N ver \/ x = t)) \/
     (r = Fail ErrLabelExpired /\ (exists y, y < h_n L /\ expired y) /\
      forall d, distinguished (h_n L) (h_ts L) (pc_rmw c) d -> ~ expired d -> t <= d)).
Proof. exact c22_partial. Qed.
Print Assumptions C22_expiry_partial.

(** C57.  The history of a label is the list of the positions at which its versions were published.  An owner state
    that summarizes it answers how many versions exist at every entry from its starting point on, moving the starting
    point keeps this, and so does the publication of further versions. *)
Theorem C57_owner_state : forall hist os, StronglySorted N.le hist -> tracks hist os ->
  (forall x, os_starting os <= x < two64 - 1 -> greatestVersionAt os x = Ok (Z.of_nat (countLe x hist) - 1)%Z) /\
  greatestVersion os = (Z.of_nat (List.length hist) - 1)%Z /\
  lastUpdate os = N.max (os_starting os) (List.last hist 0) /\
  (forall x, os_starting os <= x < two64 - 1 -> exists os', setStarting os x = Ok os' /\ os_starting os' = x /\ tracks hist os') /\
  (forall pos k, os_starting os < pos ->
     tracks (hist ++ repeat pos k) {| os_starting := os_starting os; os_verAt := os_verAt os; os_upcoming := os_upcoming os ++ repeat pos k |}).
Proof. exact owner_state. Qed.
Print Assumptions C57_owner_state.

Example C57_nonvacuous :
  StronglySorted N.le [2; 5; 5; 9] /\ tracks [2; 5; 5; 9] {| os_starting := 4; os_verAt := 0; os_upcoming := [5; 5; 9] |} /\
  setStarting {| os_starting := 4; os_verAt := 0; os_upcoming := [5; 5; 9] |} 7 =
    Ok {| os_starting := 7; os_verAt := 2; os_upcoming := [9] |}.
Proof.
  split; [repeat (constructor; [|repeat constructor; discriminate]); constructor|]. split; [split; reflexivity|]. vm_compute. reflexivity.
Qed.

(** C58.  Whatever the provider does (as long as it does not itself crash), owner monitoring ends; after an error the
    state is as before, after success only the owner state has changed and its starting point has not moved left. *)
Theorem C58_owner_monitor : forall c m S (P : provider S) s, tame P -> 1 <= mo_size m < 2 ^ 64 ->
  exists r m', result (run P (ownerMonitor c m) s) = Ok (r, m') /\
  match r with
  | inl _ => m' = m
  | inr _ => exists os os', mo_owner m = Some os /\ mo_owner m' = Some os' /\ os_starting os <= os_starting os' /\
      (os_starting os' = os_starting os \/ os_starting os' < mo_size m) /\
      mo_rightmost m' = mo_rightmost m /\ mo_size m' = mo_size m /\ mo_contact m' = mo_contact m
  end.
Proof. exact c58_owner. Qed.
Print Assumptions C58_owner_monitor.

Example C58_nonvacuous : tame (honest flatLog) /\
  let m := {| mo_rightmost := 5; mo_size := 4; mo_contact := None; mo_owner := Some {| os_starting := 0; os_verAt := 1; os_upcoming := [3] |} |} in
  result (run (honest flatLog) (ownerMonitor (exConfig 0 0 0 0) m) 0) =
    Ok (inr tt, {| mo_rightmost := 5; mo_size := 4; mo_contact := None; mo_owner := Some {| os_starting := 3; os_verAt := 2; os_upcoming := [] |} |}) /\
  let m2 := {| mo_rightmost := 5; mo_size := 4; mo_contact := None; mo_owner := Some {| os_starting := 0; os_verAt := 1; os_upcoming := [3; 3] |} |} in
  (exists e, result (run (honest flatLog) (ownerMonitor (exConfig 0 0 0 0) m2) 0) = Ok (inl e, m2)).
Proof. split; [exact (honest_tame flatLog)|]. split; [vm_compute; reflexivity|]. eexists. vm_compute. reflexivity. Qed.

(** C59 (refuted).  A contact state whose pointers are all correct loses one: the pointer (3, version 2) of a log of
    four entries is replaced by the one coming from entry 0, although nothing is distinguished and no version greater
    than 2 (not even 2 itself) was checked. *)
Theorem C59_contact_pointer_refuted : exists c L ptrs0 x v m' s' l,
  okLog L /\ mget ptrs0 x = Some v /\ (forall y v, mget ptrs0 y = Some v -> y < h_n L /\ h_g L y = Z.of_N v) /\
  run (honest L) (contactMonitor c {| mo_rightmost := h_ts L (h_n L - 1); mo_size := h_n L; mo_contact := Some ptrs0; mo_owner := None |}) 0 = (Ok m', s', l) /\
  (forall ptrs y, mo_contact m' = Some ptrs -> mget ptrs y <> Some v) /\
  (forall d, ~ distinguished (h_n L) (h_ts L) (pc_rmw c) d) /\
  (forall y v', In (EvMon y v' (Ok tt)) l -> v' < v).
Proof. exact c59_refuted. Qed.
Print Assumptions C59_contact_pointer_refuted.

(** C59, what holds for every provider with fixed, ordered timestamps.  Every pointer after a successful run comes
    from one with the same version, at the same entry or at an ancestor to the right where the version was checked.
    Every pointer before the run is kept in this way or dropped for one of the two reasons - except (this is what is
    missing) a pointer at an entry without ancestors to its right that is itself such an ancestor of another pointer. *)
Theorem C59_contact_monitor_partial : forall S (P : provider S) c n ts, 1 <= n < 2 ^ 64 -> timestampsOf P n ts ->
  forall m ptrs0 s m' s' l, mo_size m = n -> mo_rightmost m = ts (n - 1) -> mo_contact m = Some ptrs0 ->
  (forall x, mget ptrs0 x <> None -> x < n) ->
  run P (contactMonitor c m) s = (Ok m', s', l) ->
  let new := match mo_contact m' with Some p => p | None => [] end in
  (mo_size m' = mo_size m /\ mo_rightmost m' = mo_rightmost m /\ mo_owner m' = mo_owner m) /\
  (forall y v, mget new y = Some v -> exists x, mget ptrs0 x = Some v /\ (y = x \/ sanc n x y /\ x < y /\ In (EvMon y v (Ok tt)) l)) /\
  (forall x v, mget ptrs0 x = Some v ->
     ((forall y, sanc n x y -> y <= x) -> forall x', mget ptrs0 x' <> None -> ~ (sanc n x' x /\ x' < x)) ->
     (exists y, mget new y = Some v /\ (y = x \/ sanc n x y /\ x < y)) \/
     (exists d, distinguished n ts (pc_rmw c) d /\ x <= d) \/
     (exists y v', sanc n x y /\ x < y /\ v < v' /\ In (EvMon y v' (Ok tt)) l)).
Proof. exact (fun S P c n ts Hn HT => contact_ok P c n ts Hn HT). Qed.
Print Assumptions C59_contact_monitor_partial.

Example C59_nonvacuous : timestampsOf (honest flatLog) 4 (h_ts flatLog) /\
  exists l, run (honest flatLog) (contactMonitor (exConfig 0 0 10 0) (flatMonitor [(0, 1)])) 0 = (Ok (flatMonitor [(3, 1)]), 2, l) /\
    In (EvMon 1 1 (Ok tt)) l /\ In (EvMon 3 1 (Ok tt)) l.
Proof. split; [exact flatLog_ts|]. eexists. split; [vm_compute; reflexivity|]. cbn. auto 6. Qed.

(** C60.  All quantities are 64-bit numbers of milliseconds. *)
Theorem C60_clock_bounds : forall c S (P : provider S) now n m s s' l, now < two64 ->
  run P (updateView c now n m) s = (Ok tt, s', l) ->
  (forall m0, m = Some m0 -> m0 <= n) /\
  (n = 0 \/ exists ts l0, l = l0 ++ [EvTs (sub64 n 1) (Ok ts)] /\ (ts < two64 -> ts <= now + pc_maxAhead c /\ now <= ts + pc_maxBehind c)).
Proof. exact (fun c S P => updateView_clock c P). Qed.
Print Assumptions C60_clock_bounds.

Example C60_nonvacuous :
  result (run (honest lateLog) (updateView (exConfig 100 100 0 0) 1150 3 (Some 1)) 0) = Ok tt /\
  (exists m, result (run (honest lateLog) (updateView (exConfig 100 100 0 0) 1201 3 (Some 1)) 0) = Fail m) /\
  (exists m, result (run (honest lateLog) (updateView (exConfig 100 100 0 0) 999 3 (Some 1)) 0) = Fail m).
Proof. vm_compute. split; [reflexivity|]. split; eexists; reflexivity. Qed.

(** C65.  Whatever a provider answers, the algorithms end with a result or an error: they neither panic nor loop. *)
Theorem C65_algorithms_total : forall c S (P : provider S) s, tame P ->
  let fine {A} (p : prog A) := match result (run P p s) with Ok _ | Fail _ => True | _ => False end in
  (forall n, n < 2 ^ 64 -> fine (rightmostDistinguished c n) /\ fine (previousRightmost c n) /\
     (forall now m, fine (updateView c now n m)) /\
     (forall ver, fine (greatestVersionSearch c ver n) /\ fine (fixedVersionSearch c ver n))) /\
  (forall m, 1 <= mo_size m < 2 ^ 64 ->
     ((forall ptrs x v, mo_contact m = Some ptrs -> In (x, v) ptrs -> x < mo_size m) -> fine (contactMonitor c m)) /\
     (forall starting vers, fine (ownerInit c m starting vers)) /\
     fine (ownerMonitor c m) /\
     (forall pos versions, (forall os, mo_owner m = Some os -> (greatestVersion os + versions < 2147483647)%Z) ->
        fine (update c m pos versions))).
Proof. exact c65_total. Qed.
Print Assumptions C65_algorithms_total.

Example C65_nonvacuous : tame noTimestamps /\ tame (honest flatLog) /\
  (exists m, result (run noTimestamps (fixedVersionSearch (exConfig 0 0 0 0) 1 9) tt) = Fail m).
Proof. split; [repeat split|]. split; [exact (honest_tame flatLog)|]. eexists. vm_compute. reflexivity. Qed.
