(** C23-C32, C64: the prefix tree (tree/prefix).

    Hash functions: [full f] is the total function [f]; [restrict f T] is [f] on the finite list of
    inputs [T] and an error elsewhere.  [hist] (PrefixSpec.v) describes the
    databases reachable by successful non-empty mutations; the maps it lists are computed by [update] on
    abstract maps, independently of the tree.  Sizes: hashes, keys and commitments have [hs]
    <= 32 bytes (all cipher suites of the code have 32). *)
From Verif Require Import Base LogTreeSpec PrefixModel PrefixSpec PrefixHistProofs PrefixVerifyProofs3 PrefixVerifyProofs4 PrefixExamples.

(** C23. After any history, a batch of additions and removals succeeds exactly if it is
    admissible for the current map (and returns the removed commitments), is refused with an error
    otherwise, and every version reads back as the map it should hold.  The root is the hash
    of the canonical trie of the map. *)
Theorem C23_prefix_tree_is_a_map : forall f hs s past m h,
  (forall x, List.length (f x) = hs) -> (hs <= 32)%nat -> hist f hs s (past ++ [(m, h)]) ->
  (forall add rem, lenN past + 1 < two64 -> add <> [] \/ rem <> [] -> lenN add + lenN rem < two32 ->
     (admissible hs m add rem -> exists root proof coms s',
        mutate (full f) hs s (lenN past) add rem = Ok (root, proof, coms, s') /\ map Some coms = map m rem) /\
     (~ admissible hs m add rem -> exists msg, mutate (full f) hs s (lenN past) add rem = Fail msg)) /\
  (forall v mv hv keys, nth_error (past ++ [(m, h)]) (N.to_nat v) = Some (mv, hv) -> 0 < v -> keys <> [] ->
     Forall (fun k : bytes => List.length k = hs) keys ->
     exists proof, search (full f) hs s v keys = Ok (proof, map mv keys)) /\
  (forall v mv hv, nth_error (past ++ [(m, h)]) v = Some (mv, hv) ->
     exists t, trieOf hs mv t /\ thash (full f) hs t = Some hv).
Proof.
  exact (fun f hs s past m h Hs Hl Hh => conj
    (fun add rem => hist_mutate f hs Hs Hl s past m h add rem Hh)
    (conj (fun v mv hv keys E V NE F => match hist_search f hs Hs Hl s _ v mv hv keys Hh E V NE F with
                                        | ex_intro _ p (conj Q _) => ex_intro _ p Q end)
          (fun v mv hv E => hist_trie f hs Hs Hl s _ v mv hv Hh E))).
Qed.
Print Assumptions C23_prefix_tree_is_a_map.

Example C23_example :
  hist toy32 32 store1 ([(emptyMap, repeat x00 32)] ++ [(map1, root1)]) /\
  map map1 [kk 1 2; kk 9 9; kk 200 3] = [Some (cc 1); None; Some (cc 3)] /\
  (exists r, mutate (full toy32) 32 store1 1 [(kk 7 2, cc 9)] [kk 1 2] = Ok r) /\
  (exists msg, mutate (full toy32) 32 store1 1 [(kk 1 3, cc 9)] [kk 1 2] = Fail msg) /\
  (exists p, search (full toy32) 32 store1 1 [kk 1 2; kk 9 9; kk 200 3] = Ok (p, [Some (cc 1); None; Some (cc 3)])).
Proof.
  split; [exact hist1|]. split; [vm_compute; reflexivity|]. split; [exact (ex_intro _ m2 m2_ok)|].
  split; eexists; vm_compute; reflexivity.
Qed.

(** C24. The root hash depends only on the contents: equal maps have equal roots, whatever
    the histories; equal roots mean equal maps, or a collision among the
    inputs hashed for the two trees. *)
Theorem C24_root_depends_on_contents_only : forall f hs s1 vs1 s2 vs2 v1 v2 m1 h1 m2 h2,
  (forall x, List.length (f x) = hs) -> (hs <= 32)%nat ->
  hist f hs s1 vs1 -> hist f hs s2 vs2 ->
  nth_error vs1 v1 = Some (m1, h1) -> nth_error vs2 v2 = Some (m2, h2) ->
  ((forall k, m1 k = m2 k) -> h1 = h2) /\
  (h1 = h2 -> forall t1 t2, trieOf hs m1 t1 -> trieOf hs m2 t2 ->
     (forall k, m1 k = m2 k) \/ broken f hs (treeInputs f hs t1 ++ treeInputs f hs t2)).
Proof.
  exact (fun f hs s1 vs1 s2 vs2 v1 v2 m1 h1 m2 h2 Hs Hl A B E1 E2 => conj
    (hist_root_contents f hs Hs Hl s1 vs1 s2 vs2 v1 v2 m1 m2 h1 h2 A B E1 E2)
    (fun Eh => match Eh in _ = h return nth_error vs2 v2 = Some (m2, h) -> _ with
               | eq_refl => fun E2' t1 t2 => hist_root_binds f hs Hs Hl s1 vs1 s2 vs2 v1 v2 m1 m2 h1 t1 t2 A B E1 E2'
               end E2)).
Qed.
Print Assumptions C24_root_depends_on_contents_only.

(** The same contents inserted in one batch, and in two batches with a detour. *)
Example C24_example :
  exists r1 p1 c1 s1 r2 p2 c2 s2 r3 p3 c3 s3,
    mutate (full toy32) 32 [] 0 [(kk 1 2, cc 1); (kk 1 3, cc 2)] [] = Ok (r1, p1, c1, s1) /\
    mutate (full toy32) 32 [] 0 [(kk 1 3, cc 2); (kk 9 9, cc 5)] [] = Ok (r2, p2, c2, s2) /\
    mutate (full toy32) 32 s2 1 [(kk 1 2, cc 1)] [kk 9 9] = Ok (r3, p3, c3, s3) /\ r3 = r1 /\ r2 <> r1.
Proof.
  do 12 eexists. split; [vm_compute; reflexivity|]. split; [vm_compute; reflexivity|].
  split; [vm_compute; reflexivity|]. split; [vm_compute; reflexivity|]. vm_compute. discriminate.
Qed.

(** C25. Searching any version for distinct keys gives the values of the map in order, and a
    proof which marks as included exactly the present keys and which evaluates, with the
    true commitments (any for absent keys), to the root of the version. *)
Theorem C25_honest_prefix_proofs_verify : forall f hs s vs v m h keys,
  (forall x, List.length (f x) = hs) -> (hs <= 32)%nat -> hist f hs s vs ->
  nth_error vs (N.to_nat v) = Some (m, h) -> 0 < v -> keys <> [] ->
  Forall (fun k : bytes => List.length k = hs) keys ->
  exists proof, search (full f) hs s v keys = Ok (proof, map m keys) /\
    map rincl (p_results proof) = map (fun k => match m k with Some _ => true | None => false end) keys /\
    forall entries, map fst entries = keys -> NoDup keys ->
      Forall (fun e : bytes * bytes => match m (fst e) with Some c => snd e = c | None => snd e = [] \/ List.length (snd e) = hs end) entries ->
      Evaluate (full f) hs entries proof = Ok h.
Proof. exact (fun f hs s vs v m h keys Hs Hl => hist_search f hs Hs Hl s vs v m h keys). Qed.
Print Assumptions C25_honest_prefix_proofs_verify.

Example C25_example : exists p,
  search (full toy32) 32 store1 1 [kk 200 3; kk 1 2; kk 1 9] = Ok (p, [Some (cc 3); Some (cc 1); None]) /\
  map rincl (p_results p) = [true; true; false] /\
  Evaluate (full toy32) 32 [(kk 200 3, cc 3); (kk 1 2, cc 1); (kk 1 9, [])] p = Ok root1.
Proof. eexists. split; [vm_compute; reflexivity|]. split; vm_compute; reflexivity. Qed.

(** C26, C27 fail as stated: the verifier does not compare the commitment of an entry whose leaf is
    already in the tree it rebuilds, nor does it reject a non-inclusion proof showing the leaf
    of the very key searched for. *)
Theorem C26_inclusion_soundness_refuted :
  exists f hs T t entries p root e r,
    (forall x, List.length (f x) = hs) /\ ~ broken f hs T /\ Canon hs [] t /\ wfProof hs p /\
    thash (restrict f T) hs t = Some root /\ Evaluate (restrict f T) hs entries p = Ok root /\
    In (e, r) (combine entries (p_results p)) /\ rincl r = true /\ assoc (contents t) (fst e) <> Some (snd e).
Proof. exact c26_refuted. Qed.
Print Assumptions C26_inclusion_soundness_refuted.

Theorem C27_non_inclusion_soundness_refuted :
  exists f hs T t entries p root e r,
    (forall x, List.length (f x) = hs) /\ ~ broken f hs T /\ Canon hs [] t /\ wfProof hs p /\
    thash (restrict f T) hs t = Some root /\ Evaluate (restrict f T) hs entries p = Ok root /\
    In (e, r) (combine entries (p_results p)) /\ rincl r = false /\ assoc (contents t) (fst e) <> None.
Proof. exact c27_refuted. Qed.
Print Assumptions C27_non_inclusion_soundness_refuted.

(** C26/C27 hold under two checks the verifier should make and does not ([noAlias]; honest proofs
    pass both): a result claiming a key absent does not show the leaf of that key, and a leaf
    shown for one key does not contradict the commitment claimed for it by another result of the
    proof.  Then every claim, of inclusion with a commitment or of absence, is true of the tree --
    or there is a collision. *)
Theorem C26_C27_prefix_soundness_partial : forall f hs T entries p t root,
  (forall x, List.length (f x) = hs) -> Canon hs [] t -> wfProof hs p ->
  noAlias entries (p_results p) ->
  thash (restrict f T) hs t = Some root -> Evaluate (restrict f T) hs entries p = Ok root ->
  List.length (p_results p) = List.length entries /\
  (forall e r, In (e, r) (combine entries (p_results p)) ->
     assoc (contents t) (fst e) = if rincl r then Some (snd e) else None)
  \/ broken f hs T.
Proof. exact verify_sound. Qed.
Print Assumptions C26_C27_prefix_soundness_partial.

(** In particular inclusion claims are sound whenever all results are inclusion results. *)
Theorem C26_inclusion_only_partial : forall f hs T entries p t root,
  (forall x, List.length (f x) = hs) -> Canon hs [] t -> Forall (fun h : bytes => List.length h = hs) (p_elements p) ->
  (forall r, In r (p_results p) -> rincl r = true) ->
  thash (restrict f T) hs t = Some root -> Evaluate (restrict f T) hs entries p = Ok root ->
  (forall e, In e entries -> assoc (contents t) (fst e) = Some (snd e)) \/ broken f hs T.
Proof. exact verify_inclusion. Qed.
Print Assumptions C26_inclusion_only_partial.

Example C26_C27_example : exists p,
  search (full toy32) 32 store1 1 [kk 200 3; kk 1 9] = Ok (p, [Some (cc 3); None]) /\
  p_results p = [Inc 1; NonPar 13] /\
  noAlias [(kk 200 3, cc 3); (kk 1 9, [])] (p_results p) /\ Evaluate (restrict toy32 tab1) 32 [(kk 200 3, cc 3); (kk 1 9, [])] p = Ok root1 /\
  exists h, Evaluate (full toy32) 32 [(kk 200 3, cc 4); (kk 1 9, [])] p = Ok h /\ h <> root1.
Proof.
  eexists. split; [vm_compute; reflexivity|]. split; [reflexivity|].
  split; [split; [intros e v c d [E|[E|[]]]; discriminate E|intros v c d e r [E|[E|[]]]; discriminate E]|]. split; [vm_compute; reflexivity|].
  eexists. split; [vm_compute; reflexivity|]. vm_compute. discriminate.
Qed.

(** C28 fails as stated: if a removal leaves a leaf alone in its subtree and that leaf is
    known to the auditor only by its hash, the auditor keeps the inner node which the
    server removes. *)
Theorem C28_auditor_matches_mutation_refuted :
  exists f hs s past m h add rem root proof coms s',
    (forall x, List.length (f x) = hs) /\ hist f hs s (past ++ [(m, h)]) /\
    mutate (full f) hs s (lenN past) add rem = Ok (root, proof, coms, s') /\ NoDup (map fst add ++ rem) /\
    EvaluateBeforeAfter (full f) hs add (combine rem coms) proof <> Ok (h, root).
Proof. exact c28_refuted. Qed.
Print Assumptions C28_auditor_matches_mutation_refuted.

(** It also fails for every batch that replaces the commitment of a key. *)
Theorem C28_replacement_refuted :
  exists f hs s past m h add rem root proof coms s',
    (forall x, List.length (f x) = hs) /\ hist f hs s (past ++ [(m, h)]) /\
    mutate (full f) hs s (lenN past) add rem = Ok (root, proof, coms, s') /\
    exists msg, EvaluateBeforeAfter (full f) hs add (combine rem coms) proof = Fail msg.
Proof. exact c28_replace. Qed.
Print Assumptions C28_replacement_refuted.

(** C28 holds if no key is both added and removed, and either nothing is removed or the
    subtrees summarised by a hash in the proof have at least two entries each. *)
Theorem C28_auditor_matches_mutation_partial : forall f hs s past m h add rem root proof coms s',
  (forall x, List.length (f x) = hs) -> (hs <= 32)%nat -> hist f hs s (past ++ [(m, h)]) ->
  lenN past + 1 < two64 -> add <> [] \/ rem <> [] -> lenN add + lenN rem < two32 ->
  mutate (full f) hs s (lenN past) add rem = Ok (root, proof, coms, s') ->
  NoDup (map fst add ++ rem) ->
  (rem = [] \/ forall t, trieOf hs m t ->
     copathAll (fun u => (2 <= List.length (contents u))%nat) t (map fst add ++ rem) 0) ->
  EvaluateBeforeAfter (full f) hs add (combine rem coms) proof = Ok (h, root).
Proof. exact (fun f hs s past m h add rem root proof coms s' Hs Hl => hist_audit f hs Hs Hl s past m h add rem root proof coms s'). Qed.
Print Assumptions C28_auditor_matches_mutation_partial.

Example C28_example :
  mutate (full toy32) 32 store1 1 [(kk 7 2, cc 9)] [] = Ok m3 /\
  EvaluateBeforeAfter (full toy32) 32 [(kk 7 2, cc 9)] [] proof3 = Ok (root1, root3) /\
  (* removal of the key 200/3: the rest of the tree has two entries *)
  exists root p coms s', mutate (full toy32) 32 store1 1 [] [kk 200 3] = Ok (root, p, coms, s') /\
    copathAll (fun u => (2 <= List.length (contents u))%nat) trie1 [kk 200 3] 0 /\
    EvaluateBeforeAfter (full toy32) 32 [] [(kk 200 3, cc 3)] p = Ok (root1, root).
Proof.
  split; [exact m3_ok|]. split; [vm_compute; reflexivity|]. do 4 eexists. split; [vm_compute; reflexivity|].
  split; [vm_compute; repeat constructor|vm_compute; reflexivity].
Qed.

(** C64. Additions an auditor accepts are the real ones: whatever proof it was sent, if the audit ends
    with two roots, and the root before is that of a tree, then none of the added keys was in the tree
    and the root after is that of the tree with the additions -- or there is a collision. *)
Theorem C64_accepted_additions_bind : forall f hs T add p t t' h h',
  (forall x, List.length (f x) = hs) -> Canon hs [] t -> Canon hs [] t' ->
  EvaluateBeforeAfter (restrict f T) hs add [] p = Ok (h, h') -> wfProof hs p ->
  Forall (fun e : bytes * bytes => List.length (snd e) = hs) add ->
  thash (restrict f T) hs t = Some h ->
  (forall x, In x (contents t') <-> In x add \/ In x (contents t)) ->
  (thash (restrict f T) hs t' = Some h' /\ forall k, In k (map fst add) -> assoc (contents t) k = None) \/ broken f hs T.
Proof. exact additions_sound. Qed.
Print Assumptions C64_accepted_additions_bind.

(** The tree with the additions exists. *)
Theorem C64_tree_after : forall f hs T add p t h h',
  (forall x, List.length (f x) = hs) -> Canon hs [] t ->
  EvaluateBeforeAfter (restrict f T) hs add [] p = Ok (h, h') -> wfProof hs p ->
  Forall (fun e : bytes * bytes => List.length (snd e) = hs) add ->
  thash (restrict f T) hs t = Some h ->
  (exists t', Canon hs [] t' /\ (forall x, In x (contents t') <-> In x add \/ In x (contents t)) /\ thash (restrict f T) hs t' = Some h' /\
    NoDup (map fst add) /\ forall k, In k (map fst add) -> assoc (contents t) k = None) \/ broken f hs T.
Proof. exact additions_tree. Qed.
Print Assumptions C64_tree_after.

Example C64_example :
  wfProof 32 proof3 /\ noAlias [(kk 7 2, cc 9)] (p_results proof3) /\ p_results proof3 = [NonPar 6] /\
  EvaluateBeforeAfter (restrict toy32 tab3) 32 [(kk 7 2, cc 9)] [] proof3 = Ok (root1, root3) /\
  ~ broken toy32 32 tab3.
Proof. exact c64_example. Qed.

(** C29 fails: a proof showing the leaf of the key being added, or a leaf off its path,
    makes the auditor panic. *)
Theorem C29_auditor_panics_refuted :
  exists f hs add p msg, (forall x, List.length (f x) = hs) /\ wfProof hs p /\
    (forall r, In r (p_results p) -> rincl r = false /\ (rdepth r <= 255)%nat) /\
    EvaluateBeforeAfter (full f) hs add [] p = Panic msg.
Proof. exact c29_refuted. Qed.
Print Assumptions C29_auditor_panics_refuted.

Example C29_other_witness : exists msg, EvaluateBeforeAfter (full toy32) 32 [(kk 200 3, cc 77)] [] p29 = Panic msg.
Proof. exact c29_witness2. Qed.

(** With the missing checks -- shown leaves lie on the search path and satisfy [noAlias], added
    keys are claimed absent -- evaluation never panics, for any proof, hash
    function and batch.  (Depths are bytes, so the bound on depths holds for 32-byte hashes.) *)
Theorem C29_auditor_no_panic_partial : forall H hs add rem p,
  wfProof hs p -> (forall r, In r (p_results p) -> (rdepth r <= 8 * hs)%nat) ->
  noAlias (add ++ rem) (p_results p) ->
  (forall e r, In (e, r) (combine (add ++ rem) (p_results p)) -> leafOnPath e r /\ (In e add -> rincl r = false)) ->
  Forall (fun e : bytes * bytes => List.length (snd e) = hs) add ->
  (exists hh, EvaluateBeforeAfter H hs add rem p = Ok hh) \/ (exists msg, EvaluateBeforeAfter H hs add rem p = Fail msg).
Proof. exact audit_no_panic. Qed.
Print Assumptions C29_auditor_no_panic_partial.

(** Searches never panic: evaluating any proof gives a result or an error. *)
Theorem C29_evaluate_no_panic : forall H hs entries p,
  (forall r, In r (p_results p) -> (rdepth r <= 8 * hs)%nat) ->
  (exists h, Evaluate H hs entries p = Ok h) \/ (exists msg, Evaluate H hs entries p = Fail msg).
Proof. exact evaluate_no_panic. Qed.
Print Assumptions C29_evaluate_no_panic.

Example C29_example :
  (exists msg, Evaluate (full toy32) 32 [(kk 200 3, [])] {| p_results := [NonPar 255]; p_elements := [] |} = Fail msg) /\
  wfProof 32 proof3 /\ (exists hh, EvaluateBeforeAfter (full toy32) 32 [(kk 7 2, cc 9)] [] proof3 = Ok hh).
Proof. split; [eexists; vm_compute; reflexivity|]. split; [exact (proj1 c64_example)|eexists; vm_compute; reflexivity]. Qed.

(** C30. A mutation alters no tile already stored, and every search of an earlier version gives
    the same values and the same proof afterwards; every version of every history
    stays searchable. *)
Theorem C30_old_versions_stay_readable : forall f hs s past m h add rem root proof coms s',
  (forall x, List.length (f x) = hs) -> (hs <= 32)%nat -> hist f hs s (past ++ [(m, h)]) ->
  lenN past + 1 < two64 -> add <> [] \/ rem <> [] -> lenN add + lenN rem < two32 ->
  mutate (full f) hs s (lenN past) add rem = Ok (root, proof, coms, s') ->
  (forall id raw, sget s id = Some raw -> sget s' id = Some raw) /\
  (forall v keys r, search (full f) hs s v keys = Ok r -> search (full f) hs s' v keys = Ok r) /\
  (forall v mv hv keys, nth_error (past ++ [(m, h)]) (N.to_nat v) = Some (mv, hv) -> 0 < v -> keys <> [] ->
     Forall (fun k : bytes => List.length k = hs) keys ->
     exists proof, search (full f) hs s' v keys = Ok (proof, map mv keys)).
Proof. exact hist_old. Qed.
Print Assumptions C30_old_versions_stay_readable.

Example C30_example : exists r,
  search (full toy32) 32 store1 1 [kk 1 2; kk 7 2] = Ok r /\ search (full toy32) 32 store2 1 [kk 1 2; kk 7 2] = Ok r /\
  snd r = [Some (cc 1); None] /\
  exists p, search (full toy32) 32 store2 2 [kk 1 2; kk 7 2] = Ok (p, [None; Some (cc 9)]).
Proof.
  eexists. split; [vm_compute; reflexivity|]. split; [vm_compute; reflexivity|]. split; [vm_compute; reflexivity|].
  eexists. vm_compute. reflexivity.
Qed.

(** C31. A tile that can be written is read back as the same tree, with nothing left over. *)
Theorem C31_tiles_round_trip : forall H hs d id n raw,
  (forall x h, H x = Some h -> List.length h = hs) -> sizedNode hs n -> tileMarshal H hs d n = Ok raw ->
  exists n', tileUnmarshal hs id raw = Ok (d, n') /\ storedAs H hs id n n'.
Proof. exact tile_stored. Qed.
Print Assumptions C31_tiles_round_trip.

Example C31_example : exists raw,
  sizedNode 32 (Parent (Leaf (kk 1 2) (cc 1)) (External (cc 3) (4, 300)) None None) /\
  tileMarshal (full toy32) 32 7 (Parent (Leaf (kk 1 2) (cc 1)) (External (cc 3) (4, 300)) None None) = Ok raw /\
  exists h, tileUnmarshal 32 (9, 1) raw = Ok (7%nat, Parent (Leaf (kk 1 2) (cc 1)) (External (cc 3) (4, 300)) (Some h) (Some (9, 1))).
Proof.
  eexists. split; [repeat split; try (intros; discriminate)|]. split; [vm_compute; reflexivity|].
  eexists. vm_compute. reflexivity.
Qed.

(** C32 fails: the empty mutation of a non-empty tree succeeds, returns an empty root
    hash instead of the tree's, and leaves the new version unreadable. *)
Theorem C32_empty_mutation_refuted :
  exists f hs s past m h root proof coms s' keys msg,
    (forall x, List.length (f x) = hs) /\ hist f hs s (past ++ [(m, h)]) /\
    mutate (full f) hs s (lenN past) [] [] = Ok (root, proof, coms, s') /\
    root <> h /\ root = [] /\ search (full f) hs s' (lenN past + 1) keys = Fail msg.
Proof. exact c32_refuted. Qed.
Print Assumptions C32_empty_mutation_refuted.

(** The first version may be empty: on version 0 the empty mutation works. *)
Theorem C32_empty_mutation_first_partial : forall f hs,
  (forall x, List.length (f x) = hs) -> (hs <= 32)%nat ->
  exists proof s', mutate (full f) hs [] 0 [] [] = Ok (repeat x00 hs, proof, [], s').
Proof. exact c32_first. Qed.
Print Assumptions C32_empty_mutation_first_partial.
