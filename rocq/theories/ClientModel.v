(** Model of the client: tree/transparency/client.go and client_crypto.go.

    The client's store is a record.  The hash function, the clock, the verification of VRF proofs and the three signature
    keys of the configuration are parameters.  A call that fails leaves the store as it was: each verification function
    writes once, at its end. *)
From Verif Require Import Base LogMathModel LogTreeModel LogChunkModel TransMathModel LaddersModel PrefixModel CodecModel AlgModel HandleModel
  StoreModel CommitModel ServerModel.
Local Open Scope string_scope.
Open Scope N_scope.

(** db/db.go:66-90 [ClientStore]: the client's state, and the state and terminal position of each label. *)
Record clientStore := { k_state : option bytes; k_labels : list (bytes * (bytes * N)) }.
Definition emptyClient : clientStore := {| k_state := None; k_labels := [] |}.

(** client.go:25-46.  Keys are given by their encoding, which is empty for an absent key. *)
Definition newClientOk (c : pubConfig) : bool :=
  let leaf := match pc_leafKey c with [] => false | _ => true end in
  let aud := match pc_auditorKey c with [] => false | _ => true end in
  (if pc_mode c =? ContactMonitoring then negb leaf && negb aud
   else if pc_mode c =? ThirdPartyManagement then leaf && negb aud
   else if pc_mode c =? ThirdPartyAuditing then negb leaf && aud else false)
  && negb ((0 <? pc_maxLife c) && (pc_maxLife c <=? pc_rmw c)).

(** client_crypto.go:245-250 *)
Definition getLast (state : option clientState) : option N := option_map (fun s => th_size (cs_head s)) state.

(** client_crypto.go:269-276 *)
Definition ownerGreatest (o : ownerState) : option N :=
  let g := (os_verAt o + Z.of_nat (List.length (os_upcoming o)))%Z in
  if (0 <=? g)%Z then Some (toU32 g) else None.

(** algorithms/monitor.go:19-25: later entries replace earlier ones *)
Definition contactPtrs (es : list mapEntry) : list (N * N) := fold_left (fun m e => mput m (fst e) (snd e)) es [].

(** algorithms/monitor.go:27-41.  [None] is a nil [*ContactState], whose field is read. *)
Definition contactStruct (ptrs : option (list (N * N))) : res (list mapEntry) :=
  match ptrs with
  | None => Panic "nil pointer dereference"
  | Some m => Ok (flat_map (fun x => match mget m x with Some v => [(x, v)] | None => [] end) (nsort (nodup N.eq_dec (map fst m))))
  end.

(** client_crypto.go:345-364.  [visit i ptrs] is the order in which Go's [range] visits the positions of the map in the
    i-th round (it may be any order); a position deleted before it is reached is not visited. *)
Definition mdel (m : list (N * N)) (x : N) : list (N * N) := filter (fun e => negb (fst e =? x)) m.
Fixpoint simplifyRound (n : N) (xs : list N) (ptrs : list (N * N)) (modified : bool) : res (list (N * N) * bool) :=
  match xs with
  | [] => Ok (ptrs, modified)
  | x :: t =>
      match mget ptrs x with
      | None => simplifyRound n t ptrs modified
      | Some ver =>
          let* path := rightDirectPath x n in
          match path with
          | [] => simplifyRound n t ptrs modified
          | p :: _ =>
              match mget ptrs p with
              | Some parent => if parent <? ver then simplifyRound n t ptrs modified else simplifyRound n t (mdel ptrs x) true
              | None => simplifyRound n t ptrs modified
              end
          end
      end
  end.
Fixpoint simplifyLoop (fuel : nat) (visit : nat -> list (N * N) -> list N) (i : nat) (n : N) (ptrs : list (N * N)) : res (list (N * N)) :=
  match fuel with
  | O => Fuel
  | S f =>
      let* (ptrs', modified) := simplifyRound n (visit i ptrs) ptrs false in
      if modified then simplifyLoop f visit (S i) n ptrs' else Ok ptrs'
  end.
(** Every round but the last deletes a position. *)
Definition simplifyMonitoringMap (visit : nat -> list (N * N) -> list N) (n : N) (ptrs : list (N * N)) : res (list (N * N)) :=
  simplifyLoop (S (List.length ptrs)) visit 0 n ptrs.

(** client_crypto.go:377-384 *)
Fixpoint setPath (path : list N) (ver : N) (ptrs : list (N * N)) (x : N) : list (N * N) * N :=
  match path with
  | [] => (ptrs, x)
  | pos :: t =>
      if (match mget ptrs pos with Some v => ver <? v | None => false end) then (ptrs, x)
      else setPath t ver (mput ptrs pos ver) pos
  end.

(** client_crypto.go:369-389 *)
Definition updateContactState (visit : nat -> list (N * N) -> list N) (es : list mapEntry) (x n ver : N) : res (list mapEntry * N) :=
  let* path := rightDirectPath x n in
  let (ptrs, x') := setPath (x :: path) ver (contactPtrs es) x in
  let* ptrs' := simplifyMonitoringMap visit n ptrs in
  let* es' := contactStruct (Some ptrs') in
  Ok (es', x').

(** client_crypto.go:410-417 *)
Definition ownedVersions (o : ownerState) : list N :=
  ((if (0 <=? os_verAt o)%Z then [toU32 (os_verAt o)] else []) ++
   map (fun i => toU32 (os_verAt o + Z.of_nat i + 1)%Z) (seq 0 (List.length (os_upcoming o))))%list.

(** client_crypto.go:393-440.  Go visits the required versions in arbitrary order, here they are sorted. *)
Definition updateRetainedVersions (contact : list mapEntry) (owner : option ownerState) (versions : verMap) : res labelState :=
  let* mons := mapM (fun e => monitoringBinaryLadder (snd e)) contact in
  let* own := match owner with None => Ok [] | Some o => allLadderVersions (ownedVersions o) end in
  let required := nsort (nodup N.eq_dec (List.concat mons ++ own)%list) in
  let* retained := mapM (fun v =>
    match mget versions v with
    | None => Fail "required version not found"
    | Some (out, com) => Ok {| rv_version := v; rv_vrf := out; rv_commitment := com |}
    end) required in
  Ok {| cl_contact := contact; cl_owner := owner; cl_versions := retained |}.

(** client_crypto.go:252-267.  The data provider has no handle: to ask it for a timestamp that was not retained is a nil
    pointer dereference.  Line 258 drops the error of [AddRetained]. *)
Definition noHandle : handleIf unit := {|
  hTs h _ := (Panic "nil pointer dereference", h);
  hLadder h _ _ _ := (Panic "nil pointer dereference", h);
  hMon h _ _ := (Panic "nil pointer dereference", h);
  hIncl h _ _ := (Panic "nil pointer dereference", h);
  hRoots h _ := (Panic "nil pointer dereference", h);
  hStop _ _ _ := false;
  hTrack h _ _ _ _ := h |}.
Definition getDistinguished (c : pubConfig) (state : option clientState) : res N :=
  match state with
  | None => Fail "unable to make request with no state"
  | Some s =>
      let d := match addRetained (newDataProvider tt) [] (cs_entries s) with Ok d => d | _ => newDataProvider tt end in
      let* r := result (run (dpProvider noHandle) (rightmostDistinguished c (th_size (cs_head s))) d) in
      match r with
      | None => Fail "unable to make request if no distinguished log entries exist"
      | Some x => Ok x
      end
  end.

Section Client.
Variable H : bytes -> option bytes.
Variable hs : N.
Variable c : pubConfig.
(** [time.Now()] in milliseconds *)
Variable now : N.
(** [VrfKey.Verify input proof]: the output, or an error *)
Variable vrfVerify : bytes -> bytes -> option bytes.
(** [Verify message signature] of SignatureKey, LeafPublicKey and AuditorPublicKey *)
Variable sigVerify leafVerify audVerify : bytes -> bytes -> bool.
(** the order in which Go visits the monitoring map, see [simplifyMonitoringMap] *)
Variable visit : nat -> list (N * N) -> list N.

(** client.go:48-65 *)
Definition getState (k : clientStore) : res (option clientState) :=
  match k_state k with
  | None => Ok None
  | Some raw => let* s := parseState c raw in Ok (Some s)
  end.

Definition noLabelState : labelState := {| cl_contact := []; cl_owner := None; cl_versions := [] |}.

(** client.go:67-73 and client_crypto.go:278-292 *)
Definition getLabelState (k : clientStore) (label : bytes) : res labelState :=
  match bget (k_labels k) label with
  | None => Ok noLabelState
  | Some (raw, _) => parseLabelState (N.to_nat hs) raw
  end.

(** client.go:89-95; [cs_entries] is written in the order in which it is listed *)
Definition putState (k : clientStore) (s : clientState) : res clientStore :=
  let* raw := clientStateMarshal s (cs_entries s) in
  Ok {| k_state := Some raw; k_labels := k_labels k |}.

(** client.go:97-115; a label state with neither part is deleted (db/db.go:83-89) *)
Definition putLabelState (k : clientStore) (s : clientState) (label : bytes) (ls : labelState) (terminal : N) : res clientStore :=
  let* raw := clientStateMarshal s (cs_entries s) in
  match cl_contact ls, cl_owner ls with
  | [], None => Ok {| k_state := Some raw; k_labels := bdel (k_labels k) label |}
  | _, _ => let* rawLabel := labelStateMarshal ls in
            Ok {| k_state := Some raw; k_labels := bput (k_labels k) label (rawLabel, terminal) |}
  end.

(** client_crypto.go:16-27 *)
Record cverifier := {
  v_state : option clientState; v_fth : fullTreeHead; v_d : dataProvider received;
  v_n : N; v_nP : option N; v_m : option N }.

Definition setProvider (v : cverifier) (d : dataProvider received) : cverifier :=
  {| v_state := v_state v; v_fth := v_fth v; v_d := d; v_n := v_n v; v_nP := v_nP v; v_m := v_m v |}.

(** client_crypto.go:29-62 *)
Definition newCVerifier (state : option clientState) (last : option N) (fth : fullTreeHead) (proof : combinedProof) : res cverifier :=
  let d0 := newDataProvider (newReceived proof) in
  let* d := match state with
            | None => Ok d0
            | Some s => addRetained d0 (cs_subtrees s) (cs_entries s)
            end in
  let* n := match fth_head fth, last with
            | Some th, _ => Ok (th_size th)
            | None, Some k => Ok k
            | None, None => Fail "no tree head was provided when required"
            end in
  Ok {| v_state := state; v_fth := fth; v_d := d; v_n := n; v_nP := option_map ath_size (fth_auditor fth); v_m := last |}.

(** client_crypto.go:64-82: an algorithm is run on the provider *)
Definition execV {A} (p : prog A) (v : cverifier) : res (A * cverifier) :=
  let r := run (dpProvider (receivedHandle H hs)) p (v_d v) in
  let* a := result r in Ok (a, setProvider v (final r)).

(** proof_handle.go:101-104 *)
Definition vAddVersion (v : cverifier) (ver : N) (out : bytes) (com : option bytes) : res cverifier :=
  let r := d_handle (v_d v) in
  let* vm := addVersion hs (r_versions r) ver out com in
  Ok (setProvider v (withHandle (v_d v)
        {| r_ts := r_ts r; r_proofs := r_proofs r; r_roots := r_roots r; r_incl := r_incl r; r_versions := vm; r_tracker := r_tracker r |})).

(** client_crypto.go:88-96 *)
Definition addLabelState (v : cverifier) (ls : labelState) : res cverifier :=
  foldM (fun v e => vAddVersion v (rv_version e) (rv_vrf e) (rv_commitment e)) (cl_versions ls) v.

(** client_crypto.go:111-131 *)
Fixpoint ladderSteps (label : bytes) (v : cverifier) (vers : list N) (ladder : list ladderStep) (manual : list (N * bytes)) : res cverifier :=
  match vers, ladder with
  | ver :: vers', st :: ladder' =>
      let* input := vrfInput label ver in
      match vrfVerify input (ls_proof st) with
      | None => Fail "vrf verification failed"
      | Some out =>
          match mget manual ver, ls_commitment st with
          | Some _, Some _ => Fail "commitment provided when not expected"
          | m, given =>
              let* v' := vAddVersion v ver out (match m with Some com => Some com | None => given end) in
              ladderSteps label v' vers' ladder' manual
          end
      end
  | _, _ => Ok v
  end.
(** client_crypto.go:101-134 *)
Definition processLadder (v : cverifier) (label : bytes) (ladder : list ladderStep) (vers : list N) (manual : list (N * bytes)) : res cverifier :=
  if negb (List.length ladder =? List.length vers)%nat then Fail "incorrect number of binary ladder steps provided" else
  ladderSteps label v vers ladder manual.

(** client_crypto.go:165-200, after the check of the tree head's signature.  (The provider asked for the timestamp is the one
    before [Finish], which has the same timestamps and, if [Finish] succeeded, has consumed all those received.) *)
Definition verifyAuditorHead (v : cverifier) (rootP : bytes) (ath : auditorTreeHead) : res unit :=
  let* _ := match v_state v with
            | None => Ok tt
            | Some s => match cs_auditor s with
                        | None => Fail "missing previous auditor tree head"
                        | Some a => if ath_size a <? pc_auditorStart c
                                    then Fail "previous auditor tree size does not cover new auditor start position" else Ok tt
                        end
            end in
  let* rightmost := fst (dpTs (receivedHandle H hs) (v_d v) (sub64 (v_n v) 1)) in
  if rightmost <? ath_ts ath then Fail "auditor timestamp is greater than rightmost log entry timestamp" else
  if pc_maxAuditorLag c <? rightmost - ath_ts ath then Fail "auditor timestamp is too far behind rightmost log entry timestamp" else
  if v_n v <? ath_size ath then Fail "auditor tree size is greater than transparency log tree size" else
  let* tbs := auditorTreeHeadTBS c (ath_ts ath) (ath_size ath) rootP in
  if audVerify tbs (ath_sig ath) then Ok tt else Fail "failed to verify auditor signature".

(** client_crypto.go:136-201 *)
Definition verifyTreeHead (v : cverifier) (root rootP : bytes) : res unit :=
  match fth_head (v_fth v) with
  | None => match v_state v with
            | None => Fail "same tree head not allowed when client has no state"
            | Some _ => Ok tt
            end
  | Some th =>
      if (match v_state v with Some s => th_size (cs_head s) <=? v_n v | None => false end)
      then Fail "provided tree size is not greater than advertised" else
      let* tbs := treeHeadTBS c (v_n v) root in
      if negb (sigVerify tbs (th_sig th)) then Fail "failed to verify tree head signature" else
      match fth_auditor (v_fth v) with
      | None => Ok tt
      | Some ath => verifyAuditorHead v rootP ath
      end
  end.

(** client_crypto.go:205-224: the checks at the end *)
Definition checkFinish (v : cverifier) : res proofResult :=
  let* result := dpFinish H hs (v_d v) (v_n v) (v_nP v) (v_m v) in
  let* root := logRoot H hs (v_n v) (pr_subtrees result) in
  let* rootP := match v_nP v with
                | None => Ok []
                | Some k => logRoot H hs k (pr_additional result)
                end in
  let* _ := verifyTreeHead v root rootP in
  Ok result.

(** client_crypto.go:205-243 *)
Definition finish (v : cverifier) : res clientState :=
  let* result := checkFinish v in
  match v_state v with
  | None => Panic "nil pointer dereference"
  | Some s => Ok (finishState s (v_fth v) (pr_subtrees result) (pr_entries result))
  end.

(** client_crypto.go:296-324; an absent signature is [nil] *)
Definition verifyUpdateValue (label : bytes) (ver : N) (val : updateValue) : res unit :=
  if negb (pc_mode c =? ThirdPartyManagement) then
    match uv_sig val with Some _ => Fail "leaf signature provided when not expected" | None => Ok tt end
  else
    let* tbs := updateTBS c label ver (uv_value val) in
    if leafVerify tbs (match uv_sig val with Some s => s | None => [] end) then Ok tt else Fail "leaf signature verification failed".

(** client.go:117-145: the request *)
Definition searchRequestFor (k : clientStore) (label : bytes) (version : option N) : res (option clientState * searchRequest) :=
  let* state := getState k in
  Ok (state, {| sq_last := getLast state; sq_label := label; sq_version := version |}).

(** client.go:158-167 *)
Definition searchedVersion (req : searchRequest) (resp : searchResponse) : res N :=
  match sq_version req, sr_version resp with
  | Some v, _ => Ok v
  | None, Some v => Ok v
  | None, None => Fail "unexpected error occurred"
  end.

(** client.go:151-197: everything up to [Finish]; the version searched for and the terminal position are returned too *)
Definition checkSearch (state : option clientState) (req : searchRequest) (resp : searchResponse) : res (cverifier * N * N) :=
  let* v := newCVerifier state (sq_last req) (sr_head resp) (sr_search resp) in
  let* target := searchedVersion req resp in
  let* _ := verifyUpdateValue (sq_label req) target (sr_value resp) in
  let* ladder := searchBinaryLadder target target [] [] in
  let* com := labelCommitment H (sr_opening resp) (sq_label req) target (sr_value resp) in
  let* v1 := processLadder v (sq_label req) (sr_ladder resp) ladder [(target, com)] in
  let* (_, v2) := execV (updateView c now (v_n v1) (v_m v1)) v1 in
  let* (terminal, v3) := execV (match sq_version req with
                                | None => greatestVersionSearch c target (v_n v2)
                                | Some _ => fixedVersionSearch c target (v_n v2)
                                end) v2 in
  Ok (v3, target, terminal).

(** client.go:147-233.  (The provider asked for the rightmost distinguished log entry is the one before [Finish], see
    [verifyAuditorHead].) *)
Definition clientSearch (k : clientStore) (state : option clientState) (req : searchRequest) (resp : searchResponse) : res clientStore :=
  let* (v, target, terminal) := checkSearch state req resp in
  let* updated := finish v in
  if negb (pc_mode c =? ContactMonitoring) then putState k updated else
  let* (rightmostDLE, v) := execV (rightmostDistinguished c (v_n v)) v in
  if (match rightmostDLE with Some d => terminal <=? d | None => false end) then putState k updated else
  let* ls := getLabelState k (sq_label req) in
  let* v1 := addLabelState v ls in
  let* (contact, terminal') := updateContactState visit (cl_contact ls) terminal (v_n v) target in
  let* ls' := updateRetainedVersions contact (cl_owner ls) (r_versions (d_handle (v_d v1))) in
  putLabelState k updated (sq_label req) ls' terminal'.

(** client.go:237-259 *)
Definition ownerInitRequestFor (k : clientStore) (label : bytes) : res (option clientState * labelState * ownerInitRequest) :=
  let* state := getState k in
  let* ls := getLabelState k label in
  match cl_owner ls with
  | Some _ => Fail "label is already owned"
  | None =>
      let* start := getDistinguished c state in
      Ok (state, ls, {| iq_last := getLast state; iq_label := label; iq_start := start |})
  end.

(** client.go:261-317.  [BinaryLadder[i]] is in range: [processLadder] compares the lengths. *)
Definition clientOwnerInit (k : clientStore) (state : option clientState) (ls : labelState) (req : ownerInitRequest) (resp : ownerInitResponse) : res clientStore :=
  let* v := newCVerifier state (iq_last req) (ir_head resp) (ir_init resp) in
  let* ladder := allLadderVersions (ir_versions resp) in
  let* v1 := processLadder v (iq_label req) (ir_ladder resp) ladder [] in
  if existsb (fun '(ver, st) => existsb (N.eqb ver) (ir_versions resp) && match ls_commitment st with None => true | Some _ => false end)
       (combine ladder (ir_ladder resp))
  then Fail "commitment not provided when expected" else
  let* (_, v2) := execV (updateView c now (v_n v1) (v_m v1)) v1 in
  let* (mo, v3) := execV (newMonitor (v_n v2)) v2 in
  let* ((_, mo'), v4) := execV (ownerInit c mo (iq_start req) (ir_versions resp)) v3 in
  let* updated := finish v4 in
  let* v5 := addLabelState v4 ls in
  let* ls' := updateRetainedVersions (cl_contact ls) (mo_owner mo') (r_versions (d_handle (v_d v5))) in
  putLabelState k updated (iq_label req) ls' (iq_start req).

(** client.go:325-365: the request for a label, which [GetStaleLabel] picks (db/db.go:75-78) *)
Definition monitorRequestFor (k : clientStore) (label : bytes)
  : res (option clientState * labelState * (contactRequest + ownerMonitorRequest)) :=
  let* state := getState k in
  let* cutoff := getDistinguished c state in
  let* ls := getLabelState k label in
  match cl_contact ls, cl_owner ls with
  | [], None => Fail "unexpected error occurred"
  | _, None => Ok (state, ls, inl {| cq_last := getLast state; cq_label := label; cq_entries := cl_contact ls |})
  | _, Some o => Ok (state, ls, inr {| oq_last := getLast state; oq_label := label; oq_entries := cl_contact ls;
                                       oq_start := os_starting o; oq_greatest := ownerGreatest o |})
  end.

(** client.go:367-415 *)
Definition clientContactMonitor (k : clientStore) (state : option clientState) (ls : labelState) (req : contactRequest) (resp : monitorResponse) : res clientStore :=
  let* v := newCVerifier state (cq_last req) (mr_head resp) (mr_monitor resp) in
  let* v1 := addLabelState v ls in
  let* (_, v2) := execV (updateView c now (v_n v1) (v_m v1)) v1 in
  let* (mo, v3) := execV (newMonitor (v_n v2)) v2 in
  let* (mo', v4) := execV (contactMonitor c (withContact mo (contactPtrs (cl_contact ls)))) v3 in
  let* updated := finish v4 in
  let* contact := contactStruct (mo_contact mo') in
  let* ls' := updateRetainedVersions contact (cl_owner ls) (r_versions (d_handle (v_d v4))) in
  let* (terminal, _) := execV (rightmostDistinguished c (v_n v4)) v4 in
  match terminal with
  | None => Fail "unable to compute rightmost distinguished log entry"
  | Some t => putLabelState k updated (cq_label req) ls' t
  end.

(** client.go:417-461.  The caller has checked that there is an owner state. *)
Definition clientOwnerMonitor (k : clientStore) (state : option clientState) (ls : labelState) (req : ownerMonitorRequest) (resp : monitorResponse) : res clientStore :=
  let* v := newCVerifier state (oq_last req) (mr_head resp) (mr_monitor resp) in
  let* v1 := addLabelState v ls in
  let* (_, v2) := execV (updateView c now (v_n v1) (v_m v1)) v1 in
  let* (mo, v3) := execV (newMonitor (v_n v2)) v2 in
  match cl_owner ls with
  | None => Panic "nil pointer dereference"
  | Some o =>
      let* (mo1, v4) := execV (contactMonitor c (withOwner (withContact mo (contactPtrs (cl_contact ls))) o)) v3 in
      let* (out, v5) := execV (ownerMonitor c mo1) v4 in
      match fst out with
      | inl e => Fail e
      | inr _ =>
          let* updated := finish v5 in
          let* contact := contactStruct (mo_contact (snd out)) in
          match mo_owner (snd out) with
          | None => Panic "nil pointer dereference"
          | Some o' =>
              let* ls' := updateRetainedVersions contact (Some o') (r_versions (d_handle (v_d v5))) in
              putLabelState k updated (oq_label req) ls' (os_starting o')
          end
      end
  end.

(** client.go:504-509 *)
Record streamVerifier := { ss_state : option clientState; ss_label : labelState; ss_req : updateRequest }.

(** client.go:466-500 *)
Definition updateRequestFor (k : clientStore) (label : bytes) (values : list bytes) : res streamVerifier :=
  let* state := getState k in
  let* ls := getLabelState k label in
  match cl_owner ls with
  | None => Fail "label must be owned to be updated"
  | Some o => Ok {| ss_state := state; ss_label := ls;
                    ss_req := {| uq_last := getLast state; uq_label := label; uq_greatest := ownerGreatest o; uq_values := values |} |}
  end.

(** client.go:525-542: the commitment of each new version *)
Fixpoint valueCommitments (label : bytes) (ver : N) (values : list bytes) (infos : list updateInfo) : res (list (N * bytes)) :=
  match values, infos with
  | val :: values', info :: infos' =>
      let u := {| uv_value := val; uv_sig := ui_sig info |} in
      let* _ := verifyUpdateValue label ver u in
      let* com := labelCommitment H (ui_opening info) label ver u in
      let* rest := valueCommitments label (w32 (ver + 1)) values' infos' in
      Ok ((ver, com) :: rest)
  | _, _ => Ok []
  end.
(** client.go:511-545 *)
Definition verifyValues (sv : streamVerifier) (o : ownerState) (values : list bytes) (resp : updateResponse) : res (N * list (N * bytes)) :=
  if (lenN (ur_info resp) =? 0) || negb (lenN (ur_info resp) =? lenN values) then Fail "unable to process update response" else
  let startVer := match ownerGreatest o with Some g => w32 (g + 1) | None => 0 end in
  let* coms := valueCommitments (uq_label (ss_req sv)) startVer values (ur_info resp) in
  Ok (startVer, coms).

(** client.go:567-571: [BinaryLadder[i]] is read before the number of steps is compared *)
Fixpoint noCommitments (startVer : N) (vers : list N) (steps : list ladderStep) : res unit :=
  match vers with
  | [] => Ok tt
  | ver :: vers' =>
      if startVer <=? ver then
        match steps with
        | [] => Panic "index out of range"
        | st :: steps' =>
            match ls_commitment st with
            | Some _ => Fail "commitment provided when not expected"
            | None => noCommitments startVer vers' steps'
            end
        end
      else noCommitments startVer vers' (List.tl steps)
  end.

(** client.go:549-612: the store and the verifier for the next response *)
Definition streamVerify (k : clientStore) (sv : streamVerifier) (resp : updateResponse) : res (clientStore * streamVerifier) :=
  match cl_owner (ss_label sv) with
  | None => Panic "nil pointer dereference"
  | Some o =>
      let* (startVer, coms) :=
        verifyValues sv o (match ur_values resp with [] => uq_values (ss_req sv) | vs => vs end) resp in
      let* ladder := updateLadderVersions startVer (w32 (startVer + lenN (ur_info resp) - 1)) in
      let* _ := noCommitments startVer ladder (ur_ladder resp) in
      let* v := newCVerifier (ss_state sv) (getLast (ss_state sv)) (ur_head resp) (ur_update resp) in
      let* v0 := addLabelState v (ss_label sv) in
      let* v1 := processLadder v0 (uq_label (ss_req sv)) (ur_ladder resp) ladder coms in
      let* (_, v2) := execV (updateView c now (v_n v1) (v_m v1)) v1 in
      let* (mo, v3) := execV (newMonitor (v_n v2)) v2 in
      let* (mo', v4) := execV (update c (withOwner (withContact mo (contactPtrs (cl_contact (ss_label sv)))) o)
                                 (ur_position resp) (Z.of_N (lenN (ur_info resp)))) v3 in
      let* updated := finish v4 in
      let* contact := contactStruct (mo_contact mo') in
      match mo_owner mo' with
      | None => Panic "nil pointer dereference"
      | Some o' =>
          let* ls' := updateRetainedVersions contact (Some o') (r_versions (d_handle (v_d v4))) in
          let* k' := putLabelState k updated (uq_label (ss_req sv)) ls' (os_starting o') in
          Ok (k', {| ss_state := Some updated; ss_label := ls'; ss_req := ss_req sv |})
      end
  end.

End Client.
