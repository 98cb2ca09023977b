(** Model of the requests a transparency log answers: NewTree with the auditor's tree head and Search
    (tree/transparency/transparency.go), ContactMonitor, OwnerInit and OwnerMonitor (monitor.go), and the stream of
    responses to Update (update.go).

    The transaction is the table of its contents, as in MutateModel.v.  The clock, the VRF and the verification of the
    service operator's signatures are parameters. *)
From Verif Require Import Base LogMathModel LogTreeModel LogChunkModel TransMathModel LaddersModel PrefixModel CodecModel AlgModel HandleModel
  StoreModel CommitModel MutateModel.
Local Open Scope string_scope.
Open Scope N_scope.

(** transparency.go:51-59 [Tree]: the store it reads from and the tree heads kept in memory.  ([config] is a parameter below,
    [updater] is an argument of [process].) *)
Record server := { sv_db : contents; sv_head : option treeHead; sv_auditor : option auditorTreeHead }.

Section Server.
Variable H : bytes -> option bytes.
Variable hs : N.
Variable c : pubConfig.
Variable vrf : bytes -> bytes * bytes.
(** [time.Now()] in milliseconds *)
Variable now : N.

(** transparency.go:66-106 *)
Definition openServer (s : contents) : res server :=
  let* th := match x_head s with
             | None => Ok None
             | Some raw => let* (th, rest) := newTreeHead raw in
                           match rest with [] => Ok (Some th) | _ => Fail "unexpected data appended to tree head" end
             end in
  let* ath := (if pc_mode c =? ThirdPartyAuditing then
                 match x_auditor s with
                 | None => Ok None
                 | Some raw => let* (a, rest) := newAuditorTreeHead raw in
                               match rest with [] => Ok (Some a) | _ => Fail "unexpected data appended to auditor tree head" end
                 end
               else Ok None) in
  Ok {| sv_db := s; sv_head := th; sv_auditor := ath |}.

(** transparency.go:110-130: the tree head to send, [n], [nP] and [m] *)
Definition serverHead (t : server) (last : option N) : res (fullTreeHead * N * option N * option N) :=
  match sv_head t with
  | None => Fail "can not operate on an empty tree"
  | Some th =>
      let full := Ok ({| fth_head := Some th; fth_auditor := sv_auditor t |}, th_size th, option_map ath_size (sv_auditor t), last) in
      match last with
      | Some k =>
          if k =? th_size th then Ok ({| fth_head := None; fth_auditor := None |}, th_size th, None, None) else
          if th_size th <? k then Fail "tree size advertised by user is greater than current tree size" else full
      | None => full
      end
  end.

(** The store of the produced proof handle *)
Definition serverHandle (t : server) : handleIf produced := producedHandle hs (fun x => mget (x_entries (sv_db t)) x).

(** What is left of a run of an algorithm: its result and the data provider. *)
Definition exec {A} (hd : handleIf produced) (p : prog A) (d : dataProvider produced) : res (A * dataProvider produced) :=
  let r := run (dpProvider hd) p d in
  let* a := result r in Ok (a, final r).

(** transparency.go:137-157: the log entries of the frontier of the user's tree *)
Definition frontierEntries (t : server) (k : N) : res (list (N * logEntry)) :=
  let* front := frontier k in
  mapM (fun pos =>
    match mget (x_entries (sv_db t)) pos with
    | None => Fail "expected frontier log entry not found"
    | Some raw =>
        let* (e, rest) := newLogEntry (N.to_nat hs) raw in
        match rest with [] => Ok (pos, e) | _ => Fail "unexpected data appended to log entry" end
    end) front.

(** transparency.go:132-161.  Line 157 drops the error of [AddRetained]; Go keeps the entries added before it, here none of
    them is kept. *)
Definition serverView (t : server) (last : option N) (n : N) (d : dataProvider produced) : res (dataProvider produced) :=
  let* d1 := match last with
             | None => Ok d
             | Some k => let* es := frontierEntries t k in
                         Ok (match addRetained d [] es with Ok d' => d' | _ => d end)
             end in
  let* (_, d2) := exec (serverHandle t) (updateView c now n last) d1 in
  Ok d2.

(** crypto.go:18-48, for one label *)
Definition serverIndex (t : server) (label : bytes) : res (list N) := decodeIndex (bget (x_index (sv_db t)) label).

(** transparency.go:203-215 and monitor.go:142-149: the VRF output of each version is given to the handle; the VRF proofs *)
Fixpoint addLadderVersions (label : bytes) (q : produced) (vers : list N) : res (produced * list bytes) :=
  match vers with
  | [] => Ok (q, [])
  | v :: t =>
      let* (out, proof) := computeVrfOutput vrf label v in
      let* q1 := qAddVersion hs q v out in
      let* (q2, proofs) := addLadderVersions label q1 t in
      Ok (q2, proof :: proofs)
  end.

(** transparency.go:185-201: the target version, and the versions in the search binary ladder *)
Definition searchTarget (version : option N) (greatest : Z) : N :=
  match version with Some v => v | None => if (greatest <? 0)%Z then 0 else toU32 greatest end.
Definition searchLadderFor (version : option N) (greatest : Z) : res (list N) :=
  match version with
  | None => if (greatest <? 0)%Z then Ok [0] else searchBinaryLadder (toU32 greatest) (toU32 greatest) [] []
  | Some v => searchBinaryLadder v v [] []
  end.

(** transparency.go:236-243: the commitment of every version but the target, if it is known *)
Definition searchSteps (version : option N) (greatest : Z) (q : produced) (ladder : list N) (proofs : list bytes) : list ladderStep :=
  map (fun '(v, proof) =>
    let populate := match version with
                    | None => negb (Z.of_N v =? greatest)%Z
                    | Some w => negb (v =? w)
                    end in
    {| ls_proof := proof; ls_commitment := if populate then qCommitment q v else None |}) (combine ladder proofs).

(** transparency.go:163-269 *)
Definition serverSearch (t : server) (req : searchRequest) : res searchResponse :=
  let* (fth, n, nP, m) := serverHead t (sq_last req) in
  let* index := serverIndex t (sq_label req) in
  let greatest := (Z.of_nat (List.length index) - 1)%Z in
  let target := searchTarget (sq_version req) greatest in
  let* ladder := searchLadderFor (sq_version req) greatest in
  let* ov := getVersion c (sv_db t) (sq_label req) target in
  let* (q, proofs) := addLadderVersions (sq_label req) (newProduced index) ladder in
  let* d1 := serverView t (sq_last req) n (newDataProvider q) in
  let r := run (dpProvider (serverHandle t))
             (match sq_version req with
              | None => greatestVersionSearch c target n
              | Some v => fixedVersionSearch c v n
              end) d1 in
  let* _ := match result r with
            | Fail e => if String.eqb e ErrLabelNotFound then Ok 0 else Fail e
            | x => x
            end in
  let* (proof, q') := dpOutput H hs (fun x => mget (x_entries (sv_db t)) x) (x_log (sv_db t)) (x_prefix (sv_db t)) (final r) n nP m in
  Ok {| sr_head := fth;
        sr_version := match sq_version req with None => Some target | Some _ => None end;
        sr_opening := ov_opening ov; sr_value := ov_value ov;
        sr_ladder := searchSteps (sq_version req) greatest q' ladder proofs;
        sr_search := proof |}.

(** ** monitor.go *)

(** monitor.go:19-25 *)
Fixpoint entriesSorted (es : list mapEntry) : res unit :=
  match es with
  | a :: ((b :: _) as t) =>
      if fst b <=? fst a then Fail "monitoring map is not sorted by position" else
      if snd b <=? snd a then Fail "monitoring map is not sorted by version" else entriesSorted t
  | _ => Ok tt
  end.

(** monitor.go:16-45 *)
Definition verifyEntries (es : list mapEntry) (index : list N) (n : N) : res (list (N * N)) :=
  let* _ := entriesSorted es in
  foldM (fun ptrs e =>
    if lenN index <=? snd e then Fail "unexpected version found in monitoring map" else
    let first := nth (N.to_nat (snd e)) index 0 in
    let* path := rightDirectPath first n in
    if negb (fst e =? first) && negb (existsb (N.eqb (fst e)) path) then Fail "unexpected position found in monitoring map" else
    Ok (mput ptrs (fst e) (snd e))) es [].

(** monitor.go:49-65 *)
Definition allLadderVersions (versions : list N) : res (list N) :=
  let* ladders := mapM (fun v => searchBinaryLadder v v [] []) versions in
  Ok (nsort (nodup N.eq_dec (0 :: List.concat ladders))).

(** monitor.go:101-103: the commitments are stored by position in the answer *)
Fixpoint setCommitments (steps : list ladderStep) (coms : list (option bytes)) : res (list ladderStep) :=
  match coms with
  | [] => Ok steps
  | com :: coms' =>
      match steps with
      | [] => Panic "index out of range"
      | st :: steps' => let* rest := setCommitments steps' coms' in Ok ({| ls_proof := ls_proof st; ls_commitment := com |} :: rest)
      end
  end.

(** monitor.go:71-106 *)
Definition getBinaryLadder (t : server) (label : bytes) (versions : list N) (greatest : Z) (n : N) : res (list ladderStep) :=
  let* outs := mapM (computeVrfOutput vrf label) versions in
  let keys := map (fun x => fst (snd x)) (filter (fun x => (Z.of_N (fst x) <=? greatest)%Z) (combine versions outs)) in
  let* (_, coms) := search H (N.to_nat hs) (x_prefix (sv_db t)) n keys in
  setCommitments (map (fun o => {| ls_proof := snd o; ls_commitment := None |}) outs) coms.

(** monitor.go:108-113.  The closure [finish] is [finishMonitor] below. *)
Record monitorOp := {
  op_n : N; op_index : list N; op_monitor : monitor; op_d : dataProvider produced;
  op_fth : fullTreeHead; op_nP : option N; op_m : option N }.

(** monitor.go:115-140 *)
Definition startMonitor (t : server) (last : option N) (label : bytes) : res monitorOp :=
  let* (fth, n, nP, m) := serverHead t last in
  let* index := serverIndex t label in
  let* d := serverView t last n (newDataProvider (newProduced index)) in
  let* (mo, d') := exec (serverHandle t) (newMonitor n) d in
  Ok {| op_n := n; op_index := index; op_monitor := mo; op_d := d'; op_fth := fth; op_nP := nP; op_m := m |}.

(** monitor.go:141-156.  Go visits the required versions in arbitrary order. *)
Definition finishMonitor (t : server) (label : bytes) (op : monitorOp) (d : dataProvider produced) : res combinedProof :=
  let* (q, _) := addLadderVersions label (d_handle d) (requiredVersions (d_handle d)) in
  let* (proof, _) := dpOutput H hs (fun x => mget (x_entries (sv_db t)) x) (x_log (sv_db t)) (x_prefix (sv_db t))
                       (withHandle d q) (op_n op) (op_nP op) (op_m op) in
  Ok proof.

Definition withContact (m : monitor) (ptrs : list (N * N)) : monitor :=
  {| mo_rightmost := mo_rightmost m; mo_size := mo_size m; mo_contact := Some ptrs; mo_owner := mo_owner m |}.
Definition withOwner (m : monitor) (os : ownerState) : monitor :=
  {| mo_rightmost := mo_rightmost m; mo_size := mo_size m; mo_contact := mo_contact m; mo_owner := Some os |}.

(** monitor.go:160-186 *)
Definition serverContactMonitor (t : server) (req : contactRequest) : res monitorResponse :=
  let* op := startMonitor t (cq_last req) (cq_label req) in
  let* ptrs := verifyEntries (cq_entries req) (op_index op) (op_n op) in
  let* (_, d) := exec (serverHandle t) (contactMonitor c (withContact (op_monitor op) ptrs)) (op_d op) in
  let* proof := finishMonitor t (cq_label req) op d in
  Ok {| mr_head := op_fth op; mr_monitor := proof |}.

(** monitor.go:203-211: the greatest version at each entry, until one at which the label does not exist *)
Fixpoint versionsAt (os : ownerState) (entries : list N) : res (list N) :=
  match entries with
  | [] => Ok []
  | x :: t =>
      let* v := greatestVersionAt os x in
      if (v =? -1)%Z then Ok [] else
      let* rest := versionsAt os t in Ok (toU32 v :: rest)
  end.

(** monitor.go:188-240 *)
Definition serverOwnerInit (t : server) (req : ownerInitRequest) : res ownerInitResponse :=
  let* op := startMonitor t (iq_last req) (iq_label req) in
  let* (entries, d1) := exec (serverHandle t) (initEntries c (op_monitor op) (iq_start req)) (op_d op) in
  let os := {| os_starting := 0; os_verAt := (-1)%Z; os_upcoming := op_index op |} in
  let* versions := versionsAt os entries in
  let* ladder := allLadderVersions versions in
  let* greatest := greatestVersionAt os (iq_start req) in
  let* steps := getBinaryLadder t (iq_label req) ladder greatest (op_n op) in
  let* (_, d2) := exec (serverHandle t) (ownerInit c (op_monitor op) (iq_start req) versions) d1 in
  let* proof := finishMonitor t (iq_label req) op d2 in
  Ok {| ir_head := op_fth op; ir_versions := versions; ir_ladder := steps; ir_init := proof |}.

(** monitor.go:242-300.  [UpcomingVers[:end]] panics if [end] is out of range. *)
Definition serverOwnerMonitor (t : server) (req : ownerMonitorRequest) : res monitorResponse :=
  let* op := startMonitor t (oq_last req) (oq_label req) in
  let* ptrs := verifyEntries (oq_entries req) (op_index op) (op_n op) in
  if (match sv_head t with Some th => th_size th <=? oq_start req | None => true end)
  then Fail "advertised starting position is greater than tree size" else
  if (match oq_greatest req with Some g => lenN (op_index op) <=? g | None => false end)
  then Fail "version advertised is greater than known greatest version" else
  let* os := setStarting {| os_starting := 0; os_verAt := (-1)%Z; os_upcoming := op_index op |} (oq_start req) in
  if (-1 <? os_verAt os)%Z && (match oq_greatest req with None => true | Some g => (Z.of_N g <? os_verAt os)%Z end)
  then Fail "version advertised is less than version at starting position" else
  let endAt := match oq_greatest req with Some g => (Z.of_N g - os_verAt os)%Z | None => 0%Z end in
  if (endAt <? 0)%Z || (Z.of_nat (List.length (os_upcoming os)) <? endAt)%Z then Panic "slice bounds out of range" else
  let os' := {| os_starting := os_starting os; os_verAt := os_verAt os; os_upcoming := firstn (Z.to_nat endAt) (os_upcoming os) |} in
  let* (mo, d1) := exec (serverHandle t) (contactMonitor c (withOwner (withContact (op_monitor op) ptrs) os')) (op_d op) in
  let* (out, d2) := exec (serverHandle t) (ownerMonitor c mo) d1 in
  match fst out with
  | inl e => Fail e
  | inr _ =>
      let* proof := finishMonitor t (oq_label req) op d2 in
      Ok {| mr_head := op_fth op; mr_monitor := proof |}
  end.

(** ** update.go *)

(** update.go:51-76.  [versions] of the range; nothing if [endVer <= startVer]. *)
Definition updateLadderVersions (startVer endVer : N) : res (list N) :=
  let* ladder := searchBinaryLadder endVer endVer [] [] in
  let all := (ladder ++ nseq startVer (N.to_nat (endVer - startVer)))%list in
  let* known := (if startVer =? 0 then Ok [0] else searchBinaryLadder (startVer - 1) (startVer - 1) [] []) in
  Ok (nsort (nodup N.eq_dec (filter (fun v => negb (mem32 v known)) all))).

(** update.go:78-90 *)
Record updater := {
  up_tree : server; up_last : option N; up_label : bytes; up_signed : option N; up_values : list updateValue;
  up_index : list N; up_ver : N }.

(** update.go:110-113 and 146-149 *)
Definition nextVersion (greatest : option N) : N := match greatest with Some g => g + 1 | None => 0 end.

(** update.go:96-115 *)
Definition setRequest (t : server) (req : updateRequest) : res updater :=
  let* index := serverIndex t (uq_label req) in
  Ok {| up_tree := t; up_last := uq_last req; up_label := uq_label req; up_signed := None;
        up_values := map (fun v => {| uv_value := v; uv_sig := None |}) (uq_values req);
        up_index := index; up_ver := nextVersion (uq_greatest req) |}.

(** update.go:119-133: the service operator's signature on every value; [leafVerify] is [LeafPublicKey.Verify] (an absent
    signature is [nil]) *)
Fixpoint operatorSignatures (leafVerify : bytes -> bytes -> bool) (label : bytes) (ver : N) (values : list updateValue) : res unit :=
  match values with
  | [] => Ok tt
  | v :: t =>
      let* tbs := updateTBS c label ver (uv_value v) in
      if leafVerify tbs (match uv_sig v with Some s => s | None => [] end)
      then operatorSignatures leafVerify label (w32 (ver + 1)) t
      else Fail "leaf signature verification failed"
  end.

(** update.go:117-151 *)
Definition setManagerRequest (leafVerify : bytes -> bytes -> bool) (t : server) (req : managerUpdateRequest) : res updater :=
  let* _ := operatorSignatures leafVerify (mq_label req) (mq_signed req) (mq_values req) in
  let* index := serverIndex t (mq_label req) in
  Ok {| up_tree := t; up_last := mq_last req; up_label := mq_label req; up_signed := Some (mq_signed req);
        up_values := mq_values req; up_index := index; up_ver := nextVersion (mq_greatest req) |}.

(** update.go:287-308: the versions created at [pos] from [ver] on; [rest] are the positions of the index from [ver] on *)
Fixpoint updateInfos (t : server) (label : bytes) (pos : N) (ver : N) (rest : list N) : res (list (bytes * updateInfo)) :=
  match rest with
  | [] => Ok []
  | x :: rest' =>
      if negb (x =? pos) then Ok [] else
      let* ov := getVersion c (sv_db t) label (w32 ver) in
      let* more := updateInfos t label pos (ver + 1) rest' in
      Ok ((uv_value (ov_value ov), {| ui_opening := ov_opening ov; ui_sig := uv_sig (ov_value ov) |}) :: more)
  end.

(** update.go:238-282.  [u.ver] has advanced by the number of infos when [next] returns. *)
Definition updaterNext (u : updater) (withValues : bool) : res (updateResponse * updater) :=
  let t := up_tree u in
  match nth_error (up_index u) (N.to_nat (up_ver u)) with
  | None => Panic "index out of range"
  | Some pos =>
      let* infos := updateInfos t (up_label u) pos (up_ver u) (skipn (N.to_nat (up_ver u)) (up_index u)) in
      let k := lenN infos in
      let* vers := updateLadderVersions (w32 (up_ver u)) (w32 (up_ver u + k - 1)) in
      let* steps := getBinaryLadder t (up_label u) vers (Z.of_N (up_ver u) - 1) (match sv_head t with Some th => th_size th | None => 0 end) in
      let* (fth, n, nP, m) := serverHead t (up_last u) in
      let* d := serverView t (up_last u) n (newDataProvider (newProduced (up_index u))) in
      let* (mo, d1) := exec (serverHandle t) (newMonitor n) d in
      let* (_, d2) := exec (serverHandle t) (update c mo pos (Z.of_N k)) d1 in
      let* (proof, _) := dpOutput H hs (fun x => mget (x_entries (sv_db t)) x) (x_log (sv_db t)) (x_prefix (sv_db t)) d2 n nP m in
      Ok ({| ur_head := fth; ur_position := pos; ur_values := if withValues then map fst infos else [];
             ur_info := map snd infos; ur_ladder := steps; ur_update := proof |},
          {| up_tree := t; up_last := up_last u; up_label := up_label u; up_signed := up_signed u; up_values := up_values u;
             up_index := up_index u; up_ver := up_ver u + k |})
  end.

(** update.go:321-341; [s] are the contents of the store when it is read again *)
Definition reloadTree (u : updater) (s : contents) (pos : N) : res updater :=
  let* t := openServer s in
  match sv_head t with
  | None => Panic "nil pointer dereference"
  | Some th =>
      if th_size th <=? pos then Fail "reloaded tree does not contain new versions of label" else
      let* index := serverIndex t (up_label u) in
      if (lenN index =? 0) || (List.last index 0 <? pos) then Fail "reloaded index does not contain new versions of label" else
      Ok {| up_tree := t; up_last := up_last u; up_label := up_label u; up_signed := up_signed u; up_values := up_values u;
            up_index := index; up_ver := up_ver u |}
  end.

(** update.go:168-178 and 225-235: one response after the other, until the user knows every version or an error was sent.
    [at] is the position of the requested new versions, which need no values.  ([next] always advances [u.ver], so the index
    has as many positions as there are iterations.) *)
Fixpoint sendVersions (fuel : nat) (u : updater) (posOwn : option N) : list (res updateResponse) * option updater :=
  match fuel with
  | O => ([], Some u)
  | S f =>
      match nth_error (up_index u) (N.to_nat (up_ver u)) with
      | None => ([], Some u)
      | Some x =>
          match updaterNext u (match posOwn with Some p => negb (x =? p) | None => true end) with
          | Ok (resp, u1) =>
              let u2 := {| up_tree := up_tree u1; up_last := option_map th_size (sv_head (up_tree u1)); up_label := up_label u1;
                           up_signed := up_signed u1; up_values := up_values u1; up_index := up_index u1; up_ver := up_ver u1 |} in
              let (rest, out) := sendVersions f u2 posOwn in (Ok resp :: rest, out)
          | Fail e => ([Fail e], None)
          | Panic e => ([Panic e], None)
          | Fuel => ([Fuel], None)
          end
      end
  end.

(** update.go:162-236: the messages sent on the channel.  [sequencer] is what the process behind [t.updater] does with the
    request: [None] if there is none, else the contents of the store afterwards with the position of the new versions, or no
    position if it closed the channel.  (The context is not cancelled.) *)
Definition process (sequencer : option (contents * option N)) (u : updater) : list (res updateResponse) :=
  match sendVersions (S (List.length (up_index u))) u None with
  | (out, None) => out
  | (out, Some u1) =>
      match up_values u1 with
      | [] => out
      | _ =>
          match sequencer with
          | None => (out ++ [Fail "transparency tree does not support user-submitted label updates"])%list
          | Some (s, None) => (out ++ [Fail "failed to sequence requested new versions of label"])%list
          | Some (s, Some pos) =>
              match reloadTree u1 s pos with
              | Ok u2 => (out ++ fst (sendVersions (S (List.length (up_index u2))) u2 (Some pos)))%list
              | Fail e => (out ++ [Fail e])%list
              | Panic e => (out ++ [Panic e])%list
              | Fuel => (out ++ [Fuel])%list
              end
          end
      end
  end.

End Server.
