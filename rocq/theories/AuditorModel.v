(** Model of tree/transparency/auditor (auditor.go, state.go): the third-party auditor.

    The auditor's store is a single value; whether [PutState] succeeds is a parameter of [Commit].  The signature
    function is a parameter.  [config] is the public configuration; the checks of auditor.go:35-39 on its mode and key
    are part of [NewAuditor]. *)
From Verif Require Import Base LogMathModel LogTreeModel PrefixModel CodecModel TransMathModel AlgModel HandleModel.
Local Open Scope string_scope.
Open Scope N_scope.

(** state.go:17-33.  [as_sig = None] is Go's [nil]; the tree head's timestamp and size are [as_ts] and [as_size];
    an element of [as_inserted] is a position and a VRF output. *)
Record auditorState := {
  as_ts : N; as_size : N; as_sig : option bytes;
  as_subtrees : list bytes;
  as_timestamps : list N;
  as_prefix : bytes;
  as_inserted : list (N * bytes) }.

(** [bits.OnesCount64] *)
Fixpoint onesCountP (p : positive) : nat :=
  match p with xH => 1%nat | xO q => onesCountP q | xI q => S (onesCountP q) end.
Definition onesCount (n : N) : nat := match n with N0 => 0%nat | Npos p => onesCountP p end.

(** state.go:35-89.  The signature read is never [nil].  Arguments are the cipher suite's hash size. *)
Definition newAuditorState (hs : nat) : getter auditorState := fun buf =>
  let* (th, r1) := newAuditorTreeHead buf in
  let* (subtrees, r2) := getMany (readFull hs) (onesCount (ath_size th)) r1 in
  let* front := frontier (ath_size th) in
  let* (timestamps, r3) := getMany (readNum 8) (List.length front) r2 in
  let* (prefixTree, r4) := readFull hs r3 in
  let* (inserted, r5) := readSlice 2 (fun b => let* (pos, b1) := readNum 8 b in
                                              let* (v, b2) := readFull hs b1 in Ok ((pos, v), b2)) r4 in
  Ok ({| as_ts := ath_ts th; as_size := ath_size th; as_sig := Some (ath_sig th); as_subtrees := subtrees;
         as_timestamps := timestamps; as_prefix := prefixTree; as_inserted := inserted |}, r5).

(** auditor.go:247, 256-265, 278: the signature as a byte string *)
Definition sigBytes (s : option bytes) : bytes := match s with Some b => b | None => [] end.
Definition stateHead (s : auditorState) : auditorTreeHead :=
  {| ath_ts := as_ts s; ath_size := as_size s; ath_sig := sigBytes (as_sig s) |}.

(** state.go:91-115 *)
Definition auditorStateMarshal (s : auditorState) : put :=
  let* h := auditorTreeHeadMarshal (stateHead s) in
  if 65536 <=? lenN (as_inserted s) then Fail "inserted vrf outputs is too long to marshal" else
  Ok ((h ++ List.concat (as_subtrees s) ++ List.concat (map (writeNum 8) (as_timestamps s)) ++ as_prefix s ++
       writeNum 2 (lenN (as_inserted s)) ++ List.concat (map (fun e => writeNum 8 (fst e) ++ snd e) (as_inserted s)))%list).

(** state.go:124, 131-137 with the loop of [slices.BinarySearchFunc]: [i, j] is the current range *)
Fixpoint searchInserted (fuel : nat) (l : list (N * bytes)) (target : bytes) (i j : nat) : res nat :=
  match fuel with
  | O => Fuel
  | S f =>
      if Nat.ltb i j then
        let h := Nat.div2 (i + j) in
        match nth_error l h with
        | None => Panic "index out of range"
        | Some e => match bytes_cmp (snd e) target with
                    | Lt => searchInserted f l target (S h) j
                    | _ => searchInserted f l target i h
                    end
        end
      else Ok i
  end.

(** state.go:117-129.  [None] is the nil state. *)
Definition addedSince (st : option auditorState) (x : N) (vrfOutput : bytes) : res bool :=
  match st with
  | None => Ok true
  | Some s =>
      let* i := searchInserted (S (List.length (as_inserted s))) (as_inserted s) vrfOutput 0 (List.length (as_inserted s)) in
      match nth_error (as_inserted s) i with
      | Some e => match bytes_cmp (snd e) vrfOutput with Eq => Ok (x <? fst e) | _ => Ok false end
      | None => Ok false
      end
  end.

(** state.go:142-183.  [keep] is the test on the position in lines 148-156, 172 and 177. *)
Definition keep (rightmost : option N) (e : N * bytes) : bool :=
  match rightmost with None => true | Some r => r <? fst e end.
Fixpoint mergeInserted (existing added : list (N * bytes)) (rightmost : option N) : list (N * bytes) :=
  let fix inner (added : list (N * bytes)) : list (N * bytes) :=
    match existing, added with
    | e :: existing', a :: added' =>
        if negb (keep rightmost e) then mergeInserted existing' added rightmost else
        if negb (keep rightmost a) then inner added' else
        match bytes_cmp (snd e) (snd a) with
        | Lt => e :: mergeInserted existing' added rightmost
        | Eq => a :: mergeInserted existing' added' rightmost
        | Gt => a :: inner added'
        end
    | _, [] => filter (keep rightmost) existing
    | [], _ => filter (keep rightmost) added
    end in
  inner added.

(** The data provider of auditor.go:87 has no handle: every call of it would be a nil pointer dereference. *)
Definition nilHandle : handleIf unit := {|
  hTs s _ := (Panic "nil pointer dereference", s);
  hLadder s _ _ _ := (Panic "nil pointer dereference", s);
  hMon s _ _ := (Panic "nil pointer dereference", s);
  hIncl s _ _ := (Panic "nil pointer dereference", s);
  hRoots s _ := (Panic "nil pointer dereference", s);
  hStop _ _ _ := false;
  hTrack s _ _ _ _ := s |}.

(** auditor.go:170-179: sorted, without duplicates *)
Fixpoint sortedEntries (l : list (bytes * bytes)) : bool :=
  match l with
  | e :: (e' :: _) as t => match bytes_cmp (fst e) (fst e') with Lt => sortedEntries t | _ => false end
  | _ => true
  end.

Fixpoint anyM {A} (f : A -> res bool) (l : list A) : res bool :=
  match l with
  | [] => Ok false
  | a :: t => let* b := f a in if b then Ok true else anyM f t
  end.

Section Auditor.
Variable H : bytes -> option bytes.
Variable hs : N.
Variable c : pubConfig.
Variable sign : bytes -> res bytes.

(** auditor.go:68, 104: the size of the audited tree *)
Definition auditedSize (st : option auditorState) : N := match st with Some s => as_size s | None => 0 end.

(** auditor.go:65-95.  The error of [AddRetained] is dropped (line 88), in which case some of the timestamps would be
    missing from the provider: none of them is kept here.  (The theorems show that it does not fail.) *)
Definition auditPrevious (st : option auditorState) (added : N) : res (option N * dataProvider unit) :=
  let n := auditedSize st in
  let* old := match st with
              | None => Ok []
              | Some s =>
                  let* front := frontier n in
                  if negb (Nat.eqb (List.length front) (List.length (as_timestamps s)))
                  then Fail "unexpected number of timestamps in auditor state" else
                  Ok (map (fun p => (fst p, {| le_ts := snd p; le_root := [] |})) (combine front (as_timestamps s)))
              end in
  let d0 := newDataProvider tt in
  let d1 := match addRetained d0 [] (old ++ [(n, {| le_ts := added; le_root := [] |})])%list with Ok d => d | _ => d0 end in
  match run (dpProvider nilHandle) (previousRightmost c (add64 n 1)) d1 with
  | (Ok prev, d2, _) => Ok (prev, d2)
  | (Fail m, _, _) => Fail m | (Panic m, _, _) => Panic m | (Fuel, _, _) => Fuel
  end.

(** auditor.go:97-156.  [inserted] is nil on line 141: the retained list of the state is not used. *)
Definition updateState (st : option auditorState) (d : dataProvider unit) (added : list (bytes * bytes)) (e : logEntry) : res auditorState :=
  let n := auditedSize st in
  let* leaf := logEntryHash H e in
  let* subtrees := logAppend H n (match st with Some s => as_subtrees s | None => [] end) leaf in
  let* front := frontier (add64 n 1) in
  let* (timestamps, d1) := foldM (fun acc x => match dpTs nilHandle (snd acc) x with
                                              | (Ok t, d') => Ok ((fst acc ++ [t])%list, d')
                                              | (Fail m, _) => Fail m | (Panic m, _) => Panic m | (Fuel, _) => Fuel
                                              end) front ([], d) in
  let* rightmost := fst (fst (run (dpProvider nilHandle) (rightmostDistinguished c (add64 n 1)) d1)) in
  Ok {| as_ts := le_ts e; as_size := add64 n 1; as_sig := None; as_subtrees := subtrees; as_timestamps := timestamps;
        as_prefix := le_root e; as_inserted := mergeInserted [] (map (fun a => (n, fst a)) added) rightmost |}.

(** auditor.go:162-240: the checks, and the state after an accepted update *)
Definition processUpdate (st : option auditorState) (u : auditorUpdate) : res auditorState :=
  if (match st with Some s => au_ts u <? as_ts s | None => false end)
  then Fail "update timestamp is less than rightmost timestamp" else
  if negb (sortedEntries (au_added u)) then Fail "list of added prefix tree entries is invalid" else
  if negb (sortedEntries (au_removed u)) then Fail "list of removed prefix tree entries is invalid" else
  if negb (Nat.eqb (List.length (p_results (au_proof u))) (List.length (au_added u) + List.length (au_removed u)))
  then Fail "unexpected number of prefix proof results" else
  if existsb (fun er => rincl (snd er) && negb (existsb (fun r => bytes_eqb (fst (fst er)) (fst r)) (au_removed u)))
       (combine (au_added u) (p_results (au_proof u)))
  then Fail "proof shows inclusion for added leaf" else
  if existsb (fun r => negb (rincl r)) (skipn (List.length (au_added u)) (p_results (au_proof u)))
  then Fail "proof shows non-inclusion for removed leaf" else
  let* (prevDLE, d) := auditPrevious st (au_ts u) in
  let* recent := match prevDLE, au_removed u with
                 | _, [] => Ok false
                 | None, _ => Ok true
                 | Some x, rem => anyM (fun r => addedSince st x (fst r)) rem
                 end in
  if recent : bool then Fail "prefix tree leaf is not eligible for removal" else
  let* (before, after) := EvaluateBeforeAfter H (N.to_nat hs) (au_added u) (au_removed u) (au_proof u) in
  if (match st with Some s => negb (bytes_eqb before (as_prefix s)) | None => false end)
  then Fail "prefix tree root does not match expected" else
  updateState st d (au_added u) {| le_ts := au_ts u; le_root := after |}.

(** auditor.go:19-25: the state in memory and the store's contents *)
Record auditor := { a_state : option auditorState; a_stored : option bytes }.

(** auditor.go:162-240 *)
Definition Process (a : auditor) (u : auditorUpdate) : res unit * auditor :=
  match processUpdate (a_state a) u with
  | Ok s => (Ok tt, {| a_state := Some s; a_stored := a_stored a |})
  | Fail m => (Fail m, a) | Panic m => (Panic m, a) | Fuel => (Fuel, a)
  end.

Definition setSig (s : auditorState) (sig : option bytes) : auditorState :=
  {| as_ts := as_ts s; as_size := as_size s; as_sig := sig; as_subtrees := as_subtrees s;
     as_timestamps := as_timestamps s; as_prefix := as_prefix s; as_inserted := as_inserted s |}.

(** auditor.go:244-279.  [put] is the result of [PutState], which either stores the value or returns an error.  The
    signature is in the state (line 265) before the state is marshalled and stored.  If signing fails the field is
    assigned the signature returned with the error, nil. *)
Definition Commit (put : res unit) (a : auditor) : res auditorTreeHead * auditor :=
  match a_state a with
  | None => (Fail "can not commit empty state", a)
  | Some s =>
      match as_sig s with
      | Some _ => (Ok (stateHead s), a)
      | None =>
          match (let* root := logRoot H hs (as_size s) (as_subtrees s) in
                 let* tbs := auditorTreeHeadTBS c (as_ts s) (as_size s) root in
                 sign tbs) with
          | Ok sig =>
              let s' := setSig s (Some sig) in
              let a' := {| a_state := Some s'; a_stored := a_stored a |} in
              match (let* raw := auditorStateMarshal s' in let* _ := put in Ok raw) with
              | Ok raw => (Ok (stateHead s'), {| a_state := Some s'; a_stored := Some raw |})
              | Fail m => (Fail m, a') | Panic m => (Panic m, a') | Fuel => (Fuel, a')
              end
          | Fail m => (Fail m, a) | Panic m => (Panic m, a) | Fuel => (Fuel, a)
          end
      end
  end.

(** auditor.go:30-63.  [ownKey] is the public key of the auditor's private key. *)
Definition NewAuditor (ownKey : bytes) (stored : option bytes) : res auditor :=
  if negb (pc_mode c =? ThirdPartyAuditing) then Fail "transparency log is not configured with third party auditor" else
  if negb (bytes_eqb (pc_auditorKey c) ownKey)
  then Fail "auditor private key does not match transparency log configuration" else
  match stored with
  | None => Ok {| a_state := None; a_stored := None |}
  | Some raw =>
      let* (s, rest) := newAuditorState (N.to_nat hs) raw in
      match rest with
      | [] => Ok {| a_state := Some s; a_stored := stored |}
      | _ => Fail "unexpected data appended to auditor state"
      end
  end.

End Auditor.
