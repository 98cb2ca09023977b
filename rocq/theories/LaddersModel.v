(** Model of tree/transparency/math/ladders.go and tracker.go. *)
From Verif Require Import Base.

(** First loop of [baseBinaryLadder] (ladders.go:12-18): powers of two minus one,
    starting with [len] elements already in the output.  uint32 arithmetic wraps:
    [uint32(1) << len] is 0 once [len >= 32]. *)
Fixpoint ladder_up (fuel : nat) (n len : N) : res (list N) :=
  match fuel with
  | O => Fuel
  | S f =>
      let val := sub32 (shl32 1 len) 1 in
      if n <? val then Ok [val]
      else let* rest := ladder_up f n (len + 1) in Ok (val :: rest)
  end.

(** Second loop of [baseBinaryLadder] (ladders.go:20-29): bisection. *)
Fixpoint ladder_bisect (fuel : nat) (n lo hi : N) : res (list N) :=
  match fuel with
  | O => Fuel
  | S f =>
      if add32 lo 1 <? hi then
        let val := add32 lo hi / 2 in
        let* rest := if val <=? n then ladder_bisect f n val hi
                     else ladder_bisect f n lo val in
        Ok (val :: rest)
      else Ok []
  end.

(** ladders.go:9-32.  [out[len(out)-2]] panics when only one element was
    produced. *)
Definition baseBinaryLadder_fuel (fuel : nat) (n : N) : res (list N) :=
  let* up := ladder_up fuel n 0 in
  match rev up with
  | hi :: lo :: _ =>
      let* down := ladder_bisect fuel n lo hi in Ok (up ++ down)
  | _ => Panic "index out of range"
  end.

(** 70 iterations are enough for every input on which the Go loop terminates. *)
Definition baseBinaryLadder (n : N) : res (list N) := baseBinaryLadder_fuel 70 n.

Definition mem32 (v : N) (s : list N) : bool := existsb (N.eqb v) s.

(** Loop of ladders.go:49-67. *)
Fixpoint searchLadder_loop (t n : N) (leftInc rightNon : list N) (base : list N) : list N :=
  match base with
  | [] => []
  | v :: rest =>
      let dup := mem32 v leftInc || mem32 v rightNon in
      let ends := ((v <=? n) && (t <? v)) || ((n <? v) && (v <=? t)) in
      let tail := if ends then [] else searchLadder_loop t n leftInc rightNon rest in
      if dup then tail else v :: tail
  end.

(** ladders.go:42-70.  The Go maps are modelled as lists used as sets. *)
Definition searchBinaryLadder (t n : N) (leftInc rightNon : list N) : res (list N) :=
  let* base := baseBinaryLadder t in
  Ok (searchLadder_loop t n leftInc rightNon base).

(** ladders.go:77-87 *)
Definition monitoringBinaryLadder (t : N) : res (list N) :=
  let* base := baseBinaryLadder t in
  Ok (filter (fun v => v <=? t) base).

(** Loop of ladders.go:101-120; [nres] is [len(proof.Results)], the list holds
    [Inclusion()] of the results not yet looked at. *)
Fixpoint interpret_loop (ladder : list N) (target : N) (results : list bool) : res Z :=
  match ladder with
  | [] => Ok 0%Z
  | version :: ladder' =>
      match results with
      | [] => Fail "unexpected number of results in prefix proof"
      | r :: results' =>
          if r && (target <? version) then
            match results' with
            | [] => Ok 1%Z
            | _ => Fail "unexpected number of results in prefix proof"
            end
          else if negb r && (version <=? target) then
            match results' with
            | [] => Ok (-1)%Z
            | _ => Fail "unexpected number of results in prefix proof"
            end
          else interpret_loop ladder' target results'
      end
  end.

(** ladders.go:96-123.  Only [Inclusion()] of each result is looked at, so the
    proof is represented by the list of these booleans. *)
Definition interpretSearchLadder (ladder : list N) (target : N) (results : list bool) : res Z :=
  if (List.length ladder <? List.length results)%nat
  then Fail "unexpected number of results in prefix proof"
  else interpret_loop ladder target results.

(** tracker.go:7-14.  The two parallel slices, each a list of (position, versions). *)
Record tracker := mkTracker {
  tr_inc : list (N * list N);
  tr_non : list (N * list N)
}.
Definition tracker0 : tracker := mkTracker [] [].

(** tracker.go:16-31 (lines 139-154 counted after ladders.go).  [ladder[i]] is in
    range because [len(results) <= len(ladder)] wherever it is called; [combine]
    stops at the shorter list. *)
Definition addResults (vt : tracker) (x : N) (omit : bool) (ladder : list N) (results : list bool) : tracker :=
  if negb omit then vt else
  let pairs := combine ladder results in
  mkTracker (tr_inc vt ++ [(x, map fst (filter (fun p => snd p) pairs))])
            (tr_non vt ++ [(x, map fst (filter (fun p => negb (snd p)) pairs))]).

(** tracker.go:33-48.  [greatest] is an int, -1 when there is no version. *)
Definition addLadder (vt : tracker) (x : N) (omit : bool) (greatest : Z) (ladder : list N) : tracker :=
  if negb omit then vt else
  mkTracker (tr_inc vt ++ [(x, filter (fun v => (Z.of_N v <=? greatest)%Z) ladder)])
            (tr_non vt ++ [(x, filter (fun v => negb (Z.of_N v <=? greatest)%Z) ladder)]).

(** tracker.go:50-72: left inclusions and right non-inclusions. *)
Definition searchMaps (vt : tracker) (x : N) (omit : bool) : list N * list N :=
  if negb omit then ([], []) else
  (flat_map (fun e => if fst e <? x then snd e else []) (tr_inc vt),
   flat_map (fun e => if x <? fst e then snd e else []) (tr_non vt)).
