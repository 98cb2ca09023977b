(** Model of tree/transparency/algorithms: algorithms.go, search.go, monitor.go, update.go.

    The Go functions call the methods of a [*DataProvider].  They are modelled as programs: trees of such calls,
    with the code between two calls as ordinary functions.  A program is run against any provider ([run]); the two
    real ones (proof construction by the server, proof evaluation by the client) are in HandleModel.v.
    Timestamps, positions and tree sizes are uint64 ([N], wrapping where Go subtracts), versions uint32, Go's [int]
    is [Z]. *)
From Verif Require Import Base LogMathModel TransMathModel LaddersModel CodecModel.
Local Open Scope string_scope.
Open Scope N_scope.

(** ** Programs *)

(** Calls that can return a Go error carry two continuations. *)
Inductive prog (A : Type) : Type :=
| Ret (a : A)
| Err (msg : string)
| Crash (msg : string)
| Diverge
| GetTs (x : N) (k : N -> prog A) (e : string -> prog A)
| GetLadder (x ver : N) (omit : bool) (k : Z -> prog A) (e : string -> prog A)
| GetMonitoring (x ver : N) (k : prog A) (e : string -> prog A)
| GetIncl (x : N) (vers : list N) (k : prog A) (e : string -> prog A)
| StopCond (x : N) (ver : Z) (k : bool -> prog A)
| TrackLadder (x : N) (omit : bool) (greatest : Z) (ladder : list N) (k : prog A).
Arguments Ret {A}. Arguments Err {A}. Arguments Crash {A}. Arguments Diverge {A}. Arguments GetTs {A}.
Arguments GetLadder {A}. Arguments GetMonitoring {A}. Arguments GetIncl {A}. Arguments StopCond {A}. Arguments TrackLadder {A}.

Fixpoint pbind {A B} (p : prog A) (f : A -> prog B) : prog B :=
  match p with
  | Ret a => f a
  | Err m => Err m
  | Crash m => Crash m
  | Diverge => Diverge
  | GetTs x k e => GetTs x (fun t => pbind (k t) f) (fun m => pbind (e m) f)
  | GetLadder x v o k e => GetLadder x v o (fun t => pbind (k t) f) (fun m => pbind (e m) f)
  | GetMonitoring x v k e => GetMonitoring x v (pbind k f) (fun m => pbind (e m) f)
  | GetIncl x v k e => GetIncl x v (pbind k f) (fun m => pbind (e m) f)
  | StopCond x v k => StopCond x v (fun b => pbind (k b) f)
  | TrackLadder x o g l k => TrackLadder x o g l (pbind k f)
  end.

(** [if err != nil { h }] around a call whose error is not passed on. *)
Fixpoint pcatch {A} (p : prog A) (h : string -> prog A) : prog A :=
  match p with
  | Ret a => Ret a
  | Err m => h m
  | Crash m => Crash m
  | Diverge => Diverge
  | GetTs x k e => GetTs x (fun t => pcatch (k t) h) (fun m => pcatch (e m) h)
  | GetLadder x v o k e => GetLadder x v o (fun t => pcatch (k t) h) (fun m => pcatch (e m) h)
  | GetMonitoring x v k e => GetMonitoring x v (pcatch k h) (fun m => pcatch (e m) h)
  | GetIncl x v k e => GetIncl x v (pcatch k h) (fun m => pcatch (e m) h)
  | StopCond x v k => StopCond x v (fun b => pcatch (k b) h)
  | TrackLadder x o g l k => TrackLadder x o g l (pcatch k h)
  end.

Declare Scope prog_scope.
Delimit Scope prog_scope with prog.
Notation "'do*' x := e 'in' k" := (pbind e (fun x => k))
  (at level 200, x pattern, e at level 100, k at level 200, right associativity) : prog_scope.
Open Scope prog_scope.

Definition lift {A} (r : res A) : prog A :=
  match r with Ok a => Ret a | Fail m => Err m | Panic m => Crash m | Fuel => Diverge end.
Definition getTs (x : N) : prog N := GetTs x Ret Err.
Definition getLadder (x ver : N) (omit : bool) : prog Z := GetLadder x ver omit Ret Err.
Definition getMonitoring (x ver : N) : prog unit := GetMonitoring x ver (Ret tt) Err.
Definition getIncl (x : N) (vers : list N) : prog unit := GetIncl x vers (Ret tt) Err.
Definition stopCond (x : N) (ver : Z) : prog bool := StopCond x ver Ret.
Definition trackLadder (x : N) (omit : bool) (greatest : Z) (ladder : list N) : prog unit :=
  TrackLadder x omit greatest ladder (Ret tt).

(** ** Running a program against a provider with state [S] *)

Record provider (S : Type) := {
  pTs : S -> N -> res N * S;
  pLadder : S -> N -> N -> bool -> res Z * S;
  pMon : S -> N -> N -> res unit * S;
  pIncl : S -> N -> list N -> res unit * S;
  pStop : S -> N -> Z -> bool;
  pTrack : S -> N -> bool -> Z -> list N -> S }.
Arguments pTs {S}. Arguments pLadder {S}. Arguments pMon {S}. Arguments pIncl {S}. Arguments pStop {S}. Arguments pTrack {S}.

(** What was asked and answered, in order. *)
Inductive event : Type :=
| EvTs (x : N) (r : res N)
| EvLadder (x ver : N) (omit : bool) (r : res Z)
| EvMon (x ver : N) (r : res unit)
| EvIncl (x : N) (vers : list N) (r : res unit)
| EvStop (x : N) (ver : Z) (b : bool)
| EvTrack (x : N) (omit : bool) (greatest : Z) (ladder : list N).

Definition addEv {A S} (e : event) (r : res A * S * list event) : res A * S * list event :=
  match r with (a, s, l) => (a, s, e :: l) end.

Fixpoint run {S A} (P : provider S) (p : prog A) (s : S) : res A * S * list event :=
  match p with
  | Ret a => (Ok a, s, [])
  | Err m => (Fail m, s, [])
  | Crash m => (Panic m, s, [])
  | Diverge => (Fuel, s, [])
  | GetTs x k e =>
      let (r, s') := pTs P s x in
      addEv (EvTs x r) (match r with
        | Ok a => run P (k a) s' | Fail m => run P (e m) s' | Panic m => (Panic m, s', []) | Fuel => (Fuel, s', []) end)
  | GetLadder x v o k e =>
      let (r, s') := pLadder P s x v o in
      addEv (EvLadder x v o r) (match r with
        | Ok a => run P (k a) s' | Fail m => run P (e m) s' | Panic m => (Panic m, s', []) | Fuel => (Fuel, s', []) end)
  | GetMonitoring x v k e =>
      let (r, s') := pMon P s x v in
      addEv (EvMon x v r) (match r with
        | Ok _ => run P k s' | Fail m => run P (e m) s' | Panic m => (Panic m, s', []) | Fuel => (Fuel, s', []) end)
  | GetIncl x v k e =>
      let (r, s') := pIncl P s x v in
      addEv (EvIncl x v r) (match r with
        | Ok _ => run P k s' | Fail m => run P (e m) s' | Panic m => (Panic m, s', []) | Fuel => (Fuel, s', []) end)
  | StopCond x v k => let b := pStop P s x v in addEv (EvStop x v b) (run P (k b) s)
  | TrackLadder x o g l k => addEv (EvTrack x o g l) (run P k (pTrack P s x o g l))
  end.

Definition result {A S} (r : res A * S * list event) : res A := fst (fst r).
Definition final {A S} (r : res A * S * list event) : S := snd (fst r).
Definition events {A S} (r : res A * S * list event) : list event := snd r.

(** ** algorithms.go *)

Section Algorithms.
Variable c : pubConfig.

Local Notation isDist := (isDistinguished (pc_rmw c)).
Local Notation isExp := (isExpired (pc_maxLife c)).

(** algorithms.go:11-14 *)
Definition ErrLabelNotFound : string := "requested version of label does not exist".
Definition ErrLabelExpired : string := "requested version of label has expired".

(** algorithms.go:16-19 *)
Definition noLeftChild (x : N) : bool := isLeaf x.
Definition hasLeftChild (x : N) : bool := negb (noLeftChild x).
Definition noRightChild (x n : N) : bool := isLeaf x || (x =? sub64 n 1).

(** algorithms.go:40-53, the loop *)
Fixpoint rightmost_loop (fuel : nat) (n rightmost x : N) : prog (option N) :=
  match fuel with
  | O => Diverge
  | S f =>
      if x =? sub64 n 1 then Ret (Some x) else
      do* timestamp := getTs x in
      if negb (isDist timestamp rightmost) then Ret (Some x) else
      do* x' := lift (tright x n) in
      rightmost_loop f n rightmost x'
  end.

(** algorithms.go:24-54 *)
Definition rightmostDistinguished (n : N) : prog (option N) :=
  if n =? 0 then Ret None else
  do* rightmost := getTs (sub64 n 1) in
  if negb (isDist 0 rightmost) then Ret None else
  rightmost_loop 66 n rightmost (troot n).

(** algorithms.go:99-110, the loop *)
Fixpoint previous_loop (fuel : nat) (n right out : N) : prog (option N) :=
  match fuel with
  | O => Diverge
  | S f =>
      if noRightChild out n then Ret (Some out) else
      do* left := getTs out in
      if negb (isDist left right) then Ret (Some out) else
      do* out' := lift (tright out n) in
      previous_loop f n right out'
  end.

(** algorithms.go:68-116 *)
Definition previousRightmost (n : N) : prog (option N) :=
  do* rightmost := rightmostDistinguished n in
  match rightmost with
  | None => Ret None
  | Some r =>
      if negb (r =? sub64 n 1) then Ret (Some r) else
      do* parent := (if r =? troot n then Ret None else do* t := lift (tparent r n) in Ret (Some t)) in
      do* left := (match parent with Some p => getTs p | None => Ret 0 end) in
      do* right := getTs r in
      if hasLeftChild r && isDist left right
      then do* out := lift (tleft r) in previous_loop 66 n right out
      else Ret parent
  end.

Fixpoint getAllTs (xs : list N) : prog unit :=
  match xs with
  | [] => Ret tt
  | x :: t => do* _ := getTs x in getAllTs t
  end.

(** algorithms.go:120-144; [now] is the local clock in milliseconds. *)
Definition updateView (now n : N) (m : option N) : prog unit :=
  if (match m with Some m0 => n <? m0 | None => false end)
  then Err "new tree size is not greater than previous tree size" else
  if n =? 0 then Ret tt else
  do* xs := lift (updateViewPath n m) in
  do* _ := getAllTs xs in
  do* ts := getTs (sub64 n 1) in
  if (now <? ts) && (pc_maxAhead c <? sub64 ts now) then Err "rightmost timestamp is too far ahead of local clock" else
  if (ts <? now) && (pc_maxBehind c <? sub64 now ts) then Err "rightmost timestamp is too far behind local clock" else
  Ret tt.

(** ** search.go *)

(** search.go:36-58, the loop; [terminal] is the first position at which the ladder showed the target *)
Fixpoint greatest_loop (fuel : nat) (ver n x : N) (terminal : option N) : prog N :=
  match fuel with
  | O => Diverge
  | S f =>
      do* r := getLadder x ver true in
      if (r =? 1)%Z then Err "log entry not consistent with claimed greatest version of label" else
      let terminal' := if (r =? 0)%Z && (match terminal with None => true | _ => false end) then Some x else terminal in
      if negb (x =? sub64 n 1) then do* x' := lift (tright x n) in greatest_loop f ver n x' terminal' else
      if (ver =? 0) && (r =? -1)%Z then Err ErrLabelNotFound else
      if negb (r =? 0)%Z then Err "rightmost log entry not consistent with claimed greatest version of label" else
      Ret (match terminal' with Some t => t | None => 0 end)
  end.

(** search.go:15-58.  Lines 24-26: an error of [RightmostDistinguished] is answered by [return 0, nil]. *)
Definition greatestVersionSearch (ver n : N) : prog N :=
  if n =? 0 then Err "unable to search empty tree" else
  do* rightmostDLE := pcatch (do* r := rightmostDistinguished n in Ret (inr r)) (fun _ => Ret (inl tt)) in
  match rightmostDLE with
  | inl _ => Ret 0
  | inr d => greatest_loop 66 ver n (match d with Some x => x | None => troot n end) None
  end.

(** search.go:82-103, the closure [finish] *)
Definition fixed_finish (ver : N) (terminal : option N) (expired : bool) (distinguished : list N) : prog N :=
  match terminal with
  | None => Err ErrLabelNotFound
  | Some terminalPos =>
      if expired && negb (existsb (fun y => y <? terminalPos) distinguished) then Err ErrLabelExpired else
      do* _ := getIncl terminalPos [ver] in Ret terminalPos
  end.

(** search.go:105-165, the loop *)
Fixpoint fixed_loop (fuel : nat) (ver n rightmost x : N) (terminal : option N) (expired : bool) (left right : N)
    (distinguished : list N) : prog N :=
  match fuel with
  | O => Diverge
  | S f =>
      do* timestamp := getTs x in
      if isExp timestamp rightmost then
        (if noRightChild x n then fixed_finish ver terminal true distinguished else
         do* x' := lift (tright x n) in fixed_loop f ver n rightmost x' terminal true timestamp right distinguished)
      else
        let distinguished' := if isDist left right then (distinguished ++ [x])%list else distinguished in
        do* r := getLadder x ver true in
        let terminal' := if (0 <=? r)%Z && (match terminal with None => true | Some t => x <? t end) then Some x else terminal in
        if (r =? -1)%Z then
          (if noRightChild x n then fixed_finish ver terminal' expired distinguished' else
           do* x' := lift (tright x n) in fixed_loop f ver n rightmost x' terminal' expired timestamp right distinguished')
        else if (r =? 1)%Z then
          (if noLeftChild x then fixed_finish ver terminal' expired distinguished' else
           do* x' := lift (tleft x) in fixed_loop f ver n rightmost x' terminal' expired left timestamp distinguished')
        else if negb expired then Ret x
        else if existsb (fun y => y <=? x) distinguished' then Ret x
        else Err ErrLabelExpired
  end.

(** search.go:65-166 *)
Definition fixedVersionSearch (ver n : N) : prog N :=
  if n =? 0 then Err "unable to search empty tree" else
  do* rightmost := getTs (sub64 n 1) in
  fixed_loop 66 ver n rightmost (troot n) None false 0 rightmost [].

(** ** monitor.go *)

(** Go's [slices.BinarySearch]: the loop over the index range [i, j). *)
Fixpoint bsearch_loop (fuel : nat) (l : list N) (target : N) (i j : nat) : res nat :=
  match fuel with
  | O => Fuel
  | S f =>
      if (i <? j)%nat then
        let h := Nat.div2 (i + j) in
        match nth_error l h with
        | None => Panic "index out of range"
        | Some v => if v <? target then bsearch_loop f l target (S h) j else bsearch_loop f l target i h
        end
      else Ok i
  end.
Definition bsearch (l : list N) (target : N) : res nat :=
  bsearch_loop (S (List.length l)) l target 0 (List.length l).

(** monitor.go:44-54 is [ownerState] of CodecModel.v ([NewOwnerState] and [Struct] copy the fields). *)

(** monitor.go:74-80 *)
Definition setStarting (os : ownerState) (x : N) : res ownerState :=
  let* idx := bsearch (os_upcoming os) (add64 x 1) in
  Ok {| os_starting := x; os_verAt := (Z.of_nat idx + os_verAt os)%Z; os_upcoming := skipn idx (os_upcoming os) |}.

(** monitor.go:86-89 *)
Definition greatestVersionAt (os : ownerState) (x : N) : res Z :=
  let* idx := bsearch (os_upcoming os) (add64 x 1) in Ok (Z.of_nat idx + os_verAt os)%Z.

(** monitor.go:92-94 *)
Definition greatestVersion (os : ownerState) : Z := (os_verAt os + Z.of_nat (List.length (os_upcoming os)))%Z.

(** monitor.go:98-103 *)
Definition lastUpdate (os : ownerState) : N := List.last (os_upcoming os) (os_starting os).

(** monitor.go:115-123.  [Contact] is a map from position to version. *)
Record monitor := {
  mo_rightmost : N; mo_size : N;
  mo_contact : option (list (N * N));
  mo_owner : option ownerState }.

(** monitor.go:127-142 *)
Definition newMonitor (treeSize : N) : prog monitor :=
  if treeSize =? 0 then Err "unable to monitor empty tree" else
  do* rightmost := getTs (sub64 treeSize 1) in
  Ret {| mo_rightmost := rightmost; mo_size := treeSize; mo_contact := None; mo_owner := None |}.

(** monitor.go:156-176, the loop; [best] is the last element of [distinguished]. *)
Fixpoint ancestor_loop (fuel : nat) (n target curr left right : N) (best : option N) : prog (option N) :=
  match fuel with
  | O => Diverge
  | S f =>
      if negb (isDist left right) then Ret best else
      let best' := if target <=? curr then Some curr else best in
      if curr =? target then Ret best' else
      do* timestamp := getTs curr in
      if target <? curr
      then do* curr' := lift (tleft curr) in ancestor_loop f n target curr' left timestamp best'
      else do* curr' := lift (tright curr n) in ancestor_loop f n target curr' timestamp right best'
  end.

(** monitor.go:146-183 *)
Definition distinguishedAncestor (m : monitor) (target : N) : prog (option N) :=
  ancestor_loop 66 (mo_size m) target (troot (mo_size m)) 0 (mo_rightmost m) None.

(** monitor.go:197-210, the loop over [RightDirectPath] *)
Fixpoint inspectList (stop : option N) (skip : bool) (path : list N) : list N :=
  match path with
  | [] => []
  | p :: t =>
      if (match stop with Some s => s =? p | None => false end) then (if skip then [] else [p])
      else p :: inspectList stop skip t
  end.

(** monitor.go:213-227, the loop; [true]: the early [return nil, nil] of line 220.  The map [previous] is
    threaded. *)
Fixpoint contact_loop (ver : N) (inspect : list N) (previous : list (N * N)) : prog (bool * list (N * N)) :=
  match inspect with
  | [] => Ret (false, previous)
  | y :: t =>
      match mget previous y with
      | Some previousVer =>
          if previousVer <=? ver then Err "monitoring detected versions that are not monotonic" else Ret (true, previous)
      | None => do* _ := getMonitoring y ver in contact_loop ver t (mput previous y ver)
      end
  end.

(** monitor.go:185-235 *)
Definition contactMonitorOne (m : monitor) (x ver : N) (previous : list (N * N)) : prog (option N * list (N * N)) :=
  do* stop := distinguishedAncestor m x in
  if (match stop with Some s => s =? x | None => false end) then Ret (None, previous) else
  do* path := lift (rightDirectPath x (mo_size m)) in
  let skip := match mo_owner m with Some o => os_starting o <=? x | None => false end in
  let inspect := inspectList stop skip path in
  do* (early, previous') := contact_loop ver inspect previous in
  if early then Ret (None, previous') else
  match stop with
  | Some _ => Ret (None, previous')
  | None => Ret (Some (List.last inspect x), previous')
  end.

(** monitor.go:257-266, the loop *)
Fixpoint contactAll (m : monitor) (ptrs0 : list (N * N)) (xs : list N) (previous ptrs : list (N * N)) : prog (list (N * N)) :=
  match xs with
  | [] => Ret ptrs
  | x :: t =>
      let ver := match mget ptrs0 x with Some v => v | None => 0 end in
      do* (updated, previous') := contactMonitorOne m x ver previous in
      contactAll m ptrs0 t previous' (match updated with Some y => mput ptrs y ver | None => ptrs end)
  end.

(** Keys of a map without repetition, greatest first ([slices.Sort], [slices.Reverse]). *)
Definition keysDown (m : list (N * N)) : list N := rev (nsort (nodup N.eq_dec (map fst m))).

(** monitor.go:241-275.  The monitor after the call is returned. *)
Definition contactMonitor (m : monitor) : prog monitor :=
  match mo_contact m with
  | None => Ret m
  | Some ptrs0 =>
      do* ptrs := contactAll m ptrs0 (keysDown ptrs0) [] [] in
      Ret {| mo_rightmost := mo_rightmost m; mo_size := mo_size m; mo_owner := mo_owner m;
             mo_contact := match ptrs with [] => None | _ => Some ptrs end |}
  end.

(** monitor.go:280-315 *)
Fixpoint init_rec (fuel : nat) (m : monitor) (starting x left right : N) : prog (list N) :=
  match fuel with
  | O => Diverge
  | S f =>
      if negb (isDist left right) then Err "requested starting position is not distinguished" else
      do* timestamp := getTs x in
      let isExpired := isExp timestamp (mo_rightmost m) in
      if x <? starting then
        (if noRightChild x (mo_size m) then Err "requested starting position is right of the rightmost log entry" else
         do* x' := lift (tright x (mo_size m)) in
         do* children := init_rec f m starting x' timestamp right in
         Ret (if isExpired then children else (children ++ [x])%list))
      else if x =? starting then
        (if isExpired then Err "requested starting position is expired" else Ret [x])
      else if noLeftChild x || isExpired then Err "requested starting position is invalid"
      else do* x' := lift (tleft x) in init_rec f m starting x' left timestamp
  end.

(** monitor.go:319-321 *)
Definition initEntries (m : monitor) (starting : N) : prog (list N) :=
  init_rec 66 m starting (troot (mo_size m)) 0 (mo_rightmost m).

(** monitor.go:343-347 *)
Fixpoint nonIncreasing (vers : list N) : bool :=
  match vers with
  | a :: (b :: _) as t => (b <=? a) && nonIncreasing t
  | _ => true
  end.

(** monitor.go:352-368 *)
Fixpoint initLadders (xs vers : list N) : prog unit :=
  match xs, vers with
  | [], _ => Ret tt
  | x :: xs', v :: vers' =>
      do* r := getLadder x v false in
      if negb (r =? 0)%Z then Err "binary ladder inconsistent with expected greatest version of label" else initLadders xs' vers'
  | x :: xs', [] =>
      do* r := getLadder x 0 false in
      if negb (r =? -1)%Z then Err "binary ladder inconsistent with expected greatest version of label" else initLadders xs' []
  end.

(** monitor.go:329-378 *)
Definition ownerInit (m : monitor) (starting : N) (vers : list N) : prog (list N * monitor) :=
  match mo_owner m with
  | Some _ => Err "label owner state is already initialized"
  | None =>
      do* xs := initEntries m starting in
      if (List.length xs <? List.length vers)%nat then Err "unexpected number of versions provided to owner initialization algorithm" else
      if negb (nonIncreasing vers) then Err "unexpected increase in label version" else
      do* _ := initLadders xs vers in
      let verAt := match vers with v :: _ => Z.of_N v | [] => (-1)%Z end in
      Ret (xs, {| mo_rightmost := mo_rightmost m; mo_size := mo_size m; mo_contact := mo_contact m;
                  mo_owner := Some {| os_starting := starting; os_verAt := verAt; os_upcoming := [] |} |})
  end.

(** Go's conversion [uint32(z)]. *)
Definition toU32 (z : Z) : N := Z.to_N (z mod 4294967296)%Z.

(** monitor.go:423-437 and update.go:97-111: a ladder that must show [ver] as greatest version. *)
Definition expectLadder (x : N) (ver : Z) (omit : bool) : prog unit :=
  if (ver <? 0)%Z then
    do* r := getLadder x 0 omit in
    if negb (r =? -1)%Z then Err "binary ladder inconsistent with expected greatest version of label" else Ret tt
  else
    do* r := getLadder x (toU32 ver) omit in
    if negb (r =? 0)%Z then Err "binary ladder inconsistent with expected greatest version of label" else Ret tt.

(** monitor.go:385-449.  [os] is the state behind [m.Owner], returned updated. *)
Fixpoint ownerMonitor_rec (fuel : nat) (n : N) (os : ownerState) (x left right : N) : prog ownerState :=
  match fuel with
  | O => Diverge
  | S f =>
      if negb (isDist left right) then Ret os else
      if x <=? os_starting os then
        (if noRightChild x n then Ret os else
         do* timestamp := getTs x in
         do* x' := lift (tright x n) in
         ownerMonitor_rec f n os x' timestamp right)
      else
        do* os1 := (if hasLeftChild x then
                      do* timestamp := getTs x in
                      do* x' := lift (tleft x) in ownerMonitor_rec f n os x' left timestamp
                    else Ret os) in
        do* ver := lift (greatestVersionAt os1 x) in
        do* stop := stopCond x ver in
        if stop then Ret os1 else
        do* _ := expectLadder x ver false in
        do* os2 := lift (setStarting os1 x) in
        if noRightChild x n then Ret os2 else
        do* timestamp := getTs x in
        do* x' := lift (tright x n) in
        ownerMonitor_rec f n os2 x' timestamp right
  end.

(** monitor.go:455-472.  The clone is worked on; [inl] is the returned error, together with the monitor left
    behind. *)
Definition ownerMonitor (m : monitor) : prog ((string + unit) * monitor) :=
  match mo_owner m with
  | None => Ret (inl "label owner state has not been initialized", m)
  | Some original =>
      pcatch (do* os := ownerMonitor_rec 66 (mo_size m) original (troot (mo_size m)) 0 (mo_rightmost m) in
              Ret (inr tt, {| mo_rightmost := mo_rightmost m; mo_size := mo_size m; mo_contact := mo_contact m;
                              mo_owner := Some os |}))
             (fun e => Ret (inl e, m))
  end.

(** ** update.go *)

(** update.go:20-40, the loop *)
Fixpoint nonDist_loop (fuel : nat) (n target x left right : N) : prog (option N) :=
  match fuel with
  | O => Diverge
  | S f =>
      if negb (isDist left right) then Ret (Some x) else
      if x =? target then Ret None else
      do* timestamp := getTs x in
      if x <? target
      then do* x' := lift (tright x n) in nonDist_loop f n target x' timestamp right
      else do* x' := lift (tleft x) in nonDist_loop f n target x' left timestamp
  end.

(** update.go:12-41 *)
Definition nonDistinguishedAncestor (m : monitor) (target : N) : prog (option N) :=
  do* right := getTs (sub64 (mo_size m) 1) in
  nonDist_loop 66 (mo_size m) target (troot (mo_size m)) 0 right.

(** update.go:59-61 *)
Fixpoint leftUntil (fuel : nat) (x bound : N) : res N :=
  match fuel with
  | O => Fuel
  | S f => if bound <? x then let* x' := tleft x in leftUntil f x' bound else Ok x
  end.

(** update.go:84-118, the loop *)
Fixpoint previousTree_loop (fuel : nat) (pos lastUpd : N) (greatestVer : Z) (x : N) : prog unit :=
  match fuel with
  | O => Diverge
  | S f =>
      do* _ := (if x <=? lastUpd then Ret tt else expectLadder x greatestVer true) in
      if x =? sub64 pos 1 then Ret tt else
      do* x' := lift (tright x pos) in previousTree_loop f pos lastUpd greatestVer x'
  end.

(** update.go:43-119 *)
Definition verifyPreviousTree (m : monitor) (os : ownerState) (pos : N) : prog unit :=
  if pos =? 0 then Crash "unreachable" else
  let greatestVer := greatestVersion os in
  do* r := nonDistinguishedAncestor m (sub64 pos 1) in
  match r with
  | None => Ret tt
  | Some x0 =>
      do* x := lift (leftUntil 66 x0 (sub64 pos 1)) in
      do* _ := (if (0 <=? greatestVer)%Z then
                  do* ladder := lift (searchBinaryLadder (toU32 greatestVer) (toU32 greatestVer) [] []) in
                  do* _ := (if x =? troot pos then Ret tt else
                              do* parent := lift (tparent x pos) in
                              do* g := lift (greatestVersionAt os parent) in
                              trackLadder parent true g ladder) in
                  trackLadder x true greatestVer ladder
                else Ret tt) in
      previousTree_loop 66 pos (lastUpdate os) greatestVer x
  end.

(** [for ver := startVer; ver <= endVer; ver++] *)
Fixpoint nseq (start : N) (len : nat) : list N :=
  match len with O => [] | S k => start :: nseq (start + 1) k end.

(** update.go:124-198.  The monitor after the call is returned. *)
Definition update (m : monitor) (pos : N) (versions : Z) : prog monitor :=
  match mo_owner m with
  | None => Err "label owner state has not been initialized"
  | Some os =>
      if mo_size m <=? pos then Err "given log entry does not exist" else
      if pos <=? lastUpdate os then Err "update position must be to the right of any previous version" else
      if (versions <? 1)%Z then Err "unexpected number of new versions created" else
      let greatestVer := greatestVersion os in
      let val := (greatestVer + versions)%Z in
      if (val <? 0)%Z || (4294967295 <=? val)%Z then Err "unexpected number of new versions created" else
      let startVer := toU32 (greatestVer + 1) in
      let endVer := toU32 val in
      do* ladder := lift (searchBinaryLadder endVer endVer [] []) in
      let additional := filter (fun v => negb (mem32 v ladder)) (nseq startVer (Z.to_nat (Z.of_N endVer - Z.of_N startVer + 1))) in
      do* _ := verifyPreviousTree m os pos in
      do* r := nonDistinguishedAncestor m pos in
      do* contact := (match r with
        | None => do* _ := getIncl pos additional in Ret (mo_contact m)
        | Some _ =>
            do* r := getLadder pos endVer true in
            if negb (r =? 0)%Z then Err "binary ladder inconsistent with expected greatest version of label" else
            do* _ := getIncl pos additional in
            Ret (Some (mput (match mo_contact m with Some p => p | None => [] end) pos endVer))
        end) in
      Ret {| mo_rightmost := mo_rightmost m; mo_size := mo_size m; mo_contact := contact;
             mo_owner := Some {| os_starting := os_starting os; os_verAt := os_verAt os;
                                 os_upcoming := (os_upcoming os ++ repeat pos (Z.to_nat versions))%list |} |}
  end.

End Algorithms.
