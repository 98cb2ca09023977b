(** C14, C18, C61, C66: the data provider and the two proof handles
    (tree/transparency/algorithms/data_provider.go, proof_handle.go).

    [world], [faithful] and [observed] (HandleSpec.v) describe what an honest server has stored; [serverSide] and
    [clientSide] are the two ends of a request; [convincing] says that the client accepts the honest answer. *)
From Verif Require Import Base TransMathModel LogTreeModel LogTreeSpec LogChunkModel PrefixModel PrefixSpec LaddersModel CodecModel AlgModel AlgSpec AlgProofs AlgExamples HandleModel HandleSpec HandleProofs HandleProofs4 HandleProofs7 PrefixExamples HandleExamples HandleExamples2 HandleExamples3.
Open Scope N_scope.

(** C14. In a search for the version [t], which inspects the entries [xs] in this order (turning left where the greatest
    version is above [t], and right elsewhere), server and client, each with its own record of what was already shown,
    agree at every entry: the versions looked up by the server are the beginning of what the client expects, there is at
    least one, and the client's interpretation of the answers is the true comparison. *)
Theorem C14_same_omissions : forall L, okLog L -> forall t, t < 2 ^ 31 - 1 -> forall xs,
  Forall (fun x => x < h_n L) xs -> directed (h_g L) t xs -> agree (h_g L) t tracker0 tracker0 xs.
Proof. exact c14. Qed.
Print Assumptions C14_same_omissions.

(** At entry 3 the versions 0, 1 and 3 are looked up; at entry 5, for which 0 and 1 are known to exist, only 3, 7 and
    so on. *)
Example C14_nonvacuous :
  directed (h_g (observed exWorld)) 4 [3; 5] /\
  serverLadder (h_g (observed exWorld)) 4 tracker0 3 = Ok [0; 1; 3] /\
  clientLadder 4 tracker0 3 = Ok [0; 1; 3; 7; 5; 4] /\
  let tr := addLadder tracker0 3 true 1 [0; 1; 3] in
  serverLadder (h_g (observed exWorld)) 4 tr 5 = Ok [3; 7] /\ clientLadder 4 tr 5 = Ok [3; 7; 5; 4].
Proof.
  split.
  - intros i j y x Hij Hi Hj. destruct i as [|[|i]]; destruct j as [|[|j]]; cbn in Hi, Hj; try lia; try (destruct i; discriminate); try (destruct j; discriminate).
    injection Hi as <-. injection Hj as <-. vm_compute. split; [intros _ E|intros E]; discriminate.
  - vm_compute. repeat split.
Qed.

(** C18. Whatever the handle answers, to whatever program: the timestamps known at the end are ordered like the entries
    they belong to; what the client had retained is known unchanged; and every timestamp handed out is the one known in
    the end. *)
Theorem C18_timestamps_ordered : forall (S : Type) (hd : handleIf S) (A : Type) (p : prog A) (h : S) subtrees entries d,
  addRetained (newDataProvider h) subtrees entries = Ok d ->
  let out := run (dpProvider hd) p d in
  ordered (d_ts (final out)) /\
  (forall x e, In (x, e) entries -> mget (d_ts (final out)) x = Some (le_ts e) /\ mget (d_roots (final out)) x = Some (le_root e)) /\
  (forall x t, In (EvTs x (Ok t)) (events out) -> mget (d_ts (final out)) x = Some t).
Proof. intros S hd A. exact (@c18_all S hd A). Qed.
Print Assumptions C18_timestamps_ordered.

(** Neither timestamps nor prefix tree roots change once they are known. *)
Theorem C18_known_is_final : forall (S : Type) (hd : handleIf S) (A : Type) (p : prog A) d, ordered (d_ts d) ->
  let d' := final (run (dpProvider hd) p d) in grows (d_ts d) (d_ts d') /\ grows (d_roots d) (d_roots d').
Proof. intros S hd A. exact (@c18_stable S hd A). Qed.
Print Assumptions C18_known_is_final.

(** A proof with decreasing timestamps is refused; the timestamps known stay ordered. *)
Example C18_nonvacuous :
  let h := {| r_ts := [40; 60; 50]; r_proofs := []; r_roots := []; r_incl := []; r_versions := []; r_tracker := tracker0 |} in
  let d := newDataProvider h in
  let out := run (dpProvider (receivedHandle (full toy32) 32)) (getAllTs [3; 5; 6]) d in
  addRetained (newDataProvider h) [] [] = Ok d /\ d_ts (final out) = [(5, 60); (3, 40)] /\
  match result out with Fail _ => True | _ => False end.
Proof. vm_compute. repeat split. Qed.

(** C61 is false: there is a server with honest data for which an update of five versions is correct, and the proof made
    by the server for it is refused, whatever else the client knows. *)
Theorem C61_several_versions_refuted : exists f hs W c mo os known pos k later mo' cp vers,
  faithful f hs W /\ mo_size mo = lenN (w_entries W) /\ mo_owner mo = Some os /\ tracks known os /\
  w_index W = known ++ repeat pos k ++ later /\
  honestAnswer W (update c mo pos (Z.of_nat k)) = Ok mo' /\
  serverSide f hs W (update c mo pos (Z.of_nat k)) [] None None = Ok (Ok mo', cp, vers) /\
  forall vm mo'' old ret n nP m pr, clientSide (full f) hs cp vm (update c mo pos (Z.of_nat k)) old ret n nP m <> Ok (Ok mo'', pr).
Proof. exact c61_refuted. Qed.
Print Assumptions C61_several_versions_refuted.

(** Indeed no proof at all is accepted when two or more versions have to be proved in addition to the ladder. *)
Theorem C61_several_versions_never_accepted : forall H hs c m os pos versions d m',
  mo_owner m = Some os -> (2 <= List.length (additionalOf os versions))%nat ->
  result (run (dpProvider (receivedHandle H hs)) (update c m pos versions) d) <> Ok m'.
Proof. exact @c61_never. Qed.
Print Assumptions C61_several_versions_never_accepted.

(** C61 for at most one additional version: the proof is accepted.  Missing: two or more (refuted above). *)
Theorem C61_one_version_partial : forall f hs W,
  faithful f hs W -> (forall x, List.length (f x) = N.to_nat hs) -> (N.to_nat hs <= 32)%nat -> 0 < hs ->
  forall c now mo os known k later pos ret m nP,
  let n := lenN (w_entries W) in
  mo_size mo = n -> mo_owner mo = Some os -> w_index W = known ++ repeat pos k ++ later -> Forall (fun p => pos < p) later -> tracks known os ->
  (List.length (additionalOf os (Z.of_nat k)) <= 1)%nat ->
  keeps W (option_map fst m) ret -> advances n (option_map fst m) ->
  let p := pbind (updateView c now n (option_map fst m)) (fun _ => update c mo pos (Z.of_nat k)) in
  convincing f hs W p (honestAnswer W p) ret m nP.
Proof. exact c66_update. Qed.
Print Assumptions C61_one_version_partial.

(** One version at entry 4, and two of them at entry 1, need at most one additional proof; five at entry 5 need three. *)
Example C61_nonvacuous :
  let os := {| os_starting := 1; os_verAt := 1; os_upcoming := [] |} in
  let mo := {| mo_rightmost := 70; mo_size := 7; mo_contact := None; mo_owner := Some os |} in
  faithful toy32 32 exWorld /\ tracks [1; 1] os /\ w_index exWorld = [1; 1] ++ repeat 4 1 ++ repeat 5 5 /\ additionalOf os 1 = [] /\
  additionalOf {| os_starting := 0; os_verAt := -1; os_upcoming := [] |} 2 = [] /\
  additionalOf {| os_starting := 0; os_verAt := -1; os_upcoming := [] |} 3 = [] /\
  additionalOf {| os_starting := 0; os_verAt := -1; os_upcoming := [] |} 4 = [2] /\
  additionalOf exOwner 5 = [4; 5; 6] /\
  keeps exWorld None [] /\
  match honestAnswer exWorld (exAsk (update exCfg mo 4 1) None) with Ok m' => mo_contact m' = Some [(4, 2)] | _ => False end.
Proof. split; [exact exWorld_ok|]. split; [split; reflexivity|]. do 6 (split; [vm_compute; reflexivity|]). split; [exact keeps_none|]. vm_compute. reflexivity. Qed.

(** C66 is false in general: for a client which last saw four entries, and now asks a server with seven for a version which
    is found at entry 3, the honest answer does not convince: entry 5, on the new frontier, is missing. *)
Theorem C66_honest_answer_refuted : exists f hs W c now ver m old ret a,
  faithful f hs W /\ (forall x, List.length (f x) = N.to_nat hs) /\ (N.to_nat hs <= 32)%nat /\ 0 < hs /\ ver < 2 ^ 31 - 1 /\ keeps W (Some m) ret /\
  let n := lenN (w_entries W) in
  let p := pbind (updateView c now n (Some m)) (fun _ => fixedVersionSearch c ver n) in
  honestAnswer W p = Ok a /\ ~ convincing f hs W p (Ok a) ret (Some (m, old)) None.
Proof. exact c66_refuted. Qed.
Print Assumptions C66_honest_answer_refuted.

(** C66 for successful searches for the greatest version: no restriction. *)
Theorem C66_greatest_search : forall f hs W,
  faithful f hs W -> (forall x, List.length (f x) = N.to_nat hs) -> (N.to_nat hs <= 32)%nat -> 0 < hs ->
  forall c now ver ret m nP,
  let n := lenN (w_entries W) in
  ver < 2 ^ 31 - 1 -> keeps W (option_map fst m) ret ->
  let p := pbind (updateView c now n (option_map fst m)) (fun _ => greatestVersionSearch c ver n) in
  advances n (option_map fst m) \/ (exists a, honestAnswer W p = Ok a) ->
  convincing f hs W p (honestAnswer W p) ret m nP.
Proof. exact c66_greatest. Qed.
Print Assumptions C66_greatest_search.

(** C66 for the other requests, for clients which are new, already up to date, or whose previous size [m] is such that
    entry [m - 1] is not on the new frontier.  Missing: the other previous sizes, for which it is false. *)
Theorem C66_fixed_search_partial : forall f hs W,
  faithful f hs W -> (forall x, List.length (f x) = N.to_nat hs) -> (N.to_nat hs <= 32)%nat -> 0 < hs ->
  forall c now ver ret m nP,
  let n := lenN (w_entries W) in
  ver < 2 ^ 31 - 1 -> keeps W (option_map fst m) ret -> advances n (option_map fst m) ->
  let p := pbind (updateView c now n (option_map fst m)) (fun _ => fixedVersionSearch c ver n) in
  convincing f hs W p (honestAnswer W p) ret m nP.
Proof. exact c66_fixed. Qed.
Print Assumptions C66_fixed_search_partial.

Theorem C66_contact_monitoring_partial : forall f hs W,
  faithful f hs W -> (forall x, List.length (f x) = N.to_nat hs) -> (N.to_nat hs <= 32)%nat -> 0 < hs ->
  forall c now mo ret m nP,
  let n := lenN (w_entries W) in
  mo_size mo = n ->
  (forall ptrs x v, mo_contact mo = Some ptrs -> mget ptrs x = Some v -> x < n /\ (Z.of_N v <= h_g (observed W) x)%Z) ->
  keeps W (option_map fst m) ret -> advances n (option_map fst m) ->
  let p := pbind (updateView c now n (option_map fst m)) (fun _ => contactMonitor c mo) in
  convincing f hs W p (honestAnswer W p) ret m nP.
Proof. exact c66_contact. Qed.
Print Assumptions C66_contact_monitoring_partial.

Theorem C66_owner_init_partial : forall f hs W,
  faithful f hs W -> (forall x, List.length (f x) = N.to_nat hs) -> (N.to_nat hs <= 32)%nat -> 0 < hs ->
  forall c now mo starting vers ret m nP,
  let n := lenN (w_entries W) in
  mo_size mo = n -> Forall (fun v => v < 2 ^ 31 - 1) vers -> keeps W (option_map fst m) ret -> advances n (option_map fst m) ->
  let p := pbind (updateView c now n (option_map fst m)) (fun _ => ownerInit c mo starting vers) in
  convincing f hs W p (honestAnswer W p) ret m nP.
Proof. exact c66_init. Qed.
Print Assumptions C66_owner_init_partial.

(** The owner knows the first versions of the label; more may have been published since. *)
Theorem C66_owner_monitoring_partial : forall f hs W,
  faithful f hs W -> (forall x, List.length (f x) = N.to_nat hs) -> (N.to_nat hs <= 32)%nat -> 0 < hs ->
  forall c now mo os known later ret m nP,
  let n := lenN (w_entries W) in
  mo_size mo = n -> mo_owner mo = Some os -> w_index W = known ++ later -> tracks known os ->
  keeps W (option_map fst m) ret -> advances n (option_map fst m) ->
  let p := pbind (updateView c now n (option_map fst m)) (fun _ => ownerMonitor c mo) in
  convincing f hs W p (honestAnswer W p) ret m nP.
Proof. exact c66_owner. Qed.
Print Assumptions C66_owner_monitoring_partial.

(** The server of the examples; the answers to the requests; and what a proof looks like. *)
Example C66_nonvacuous :
  let cfg := exConfig 1000 1000 20 1000 in
  faithful toy32 32 exWorld /\ (forall x, List.length (toy32 x) = N.to_nat 32) /\ keeps exWorld None [] /\ keeps exWorld (Some 4) exRet /\
  lenN (w_entries exWorld) = 7 /\ FullValues (full toy32) exLeaves 4 exOld /\
  honestAnswer exWorld (exAsk (greatestVersionSearch exCfg 7 7) (Some 4)) = Ok 5 /\
  honestAnswer exWorld (exAsk (fixedVersionSearch exCfg 1 7) None) = Ok 3 /\
  honestAnswer exWorld (exAsk (fixedVersionSearch exCfg 4 7) None) = Ok 5 /\
  (forall ptrs x v, mo_contact exMonitor = Some ptrs -> mget ptrs x = Some v -> x < 7 /\ (Z.of_N v <= h_g (observed exWorld) x)%Z) /\
  match honestAnswer exWorld (exAsk (contactMonitor cfg exMonitor) None) with Ok mo' => mo_contact mo' = None | _ => False end /\
  w_index exWorld = [1; 1; 4] ++ [5; 5; 5; 5; 5] /\ tracks [1; 1; 4] exOwner /\
  match honestAnswer exWorld (exAsk (ownerMonitor cfg exMonitor) None) with Ok (inr _, mo') => mo_owner mo' = Some exOwner | _ => False end /\
  match honestAnswer exWorld (exAsk (ownerInit (exConfig 1000 1000 20 30) {| mo_rightmost := 70; mo_size := 7; mo_contact := None; mo_owner := None |} 4 [2]) None) with
  | Ok (_, mo') => mo_owner mo' = Some exOwner | _ => False end /\
  match serverSide toy32 32 exWorld (exAsk (greatestVersionSearch exCfg 7 7) (Some 4)) exRet None (Some 4) with
  | Ok (r, cp, vers) => r = Ok 5 /\ cp_ts cp = [70; 60] /\ List.length (cp_proofs cp) = 3%nat /\ map fst vers = [0; 1; 3; 7; 15; 11; 9; 8]
  | _ => False
  end.
Proof.
  split; [exact exWorld_ok|]. split; [exact toy32_len|]. split; [exact keeps_none|]. split; [exact keeps_four|]. split; [reflexivity|]. split; [exact exOld_ok|].
  do 3 (split; [vm_compute; reflexivity|]). split; [exact exContact_ok|]. split; [vm_compute; reflexivity|]. split; [reflexivity|]. split; [exact exOwner_tracks|].
  split; [vm_compute; reflexivity|]. split; [vm_compute; reflexivity|]. vm_compute. repeat split.
Qed.
