(** Concrete clients and servers for ClientProperties.v, on the trees of MutateExamples.v. *)
From Verif Require Import Base BaseProofs LogMathSpec LogTreeModel LogTreeSpec TransMathModel LaddersModel PrefixModel PrefixSpec PrefixExamples CodecModel CodecSpec AlgModel AlgSpec
  HandleModel HandleSpec StoreModel CommitModel MutateModel MutateSpec MutateExamples ServerModel ClientModel ClientSpec ClientProofs.
Open Scope N_scope.
Local Open Scope list_scope.

Definition getOk {A} (d : A) (r : res A) : A := match r with Ok a => a | _ => d end.

Definition xvv (i p : bytes) : option bytes := if bytes_eqb p (snd (xvrf i)) then Some (fst (xvrf i)) else None.
Definition xsv (m s : bytes) : bool := match xsign m with Ok s' => bytes_eqb s' s | _ => false end.
Definition xvisit (i : nat) (ptrs : list (N * N)) : list N := map fst ptrs.

Lemma x_vrfVerifies : vrfVerifies xvrf xvv.
Proof.
  split; unfold xvv; intros; [rewrite bytes_eqb_refl; reflexivity|]. destruct (bytes_eqb p (snd (xvrf i))); congruence.
Qed.
Lemma x_sigVerifies : sigVerifies xsign xsv.
Proof. intros m s. unfold xsv, xsign. rewrite bytes_eqb_eq. split; congruence. Qed.

(** The log entries and the tree head of a tree. *)
Definition entriesIn (t : tree) (n : N) : list logEntry :=
  flat_map (fun x => match mget (x_entries (durable (t_tx t))) (N.of_nat x) with
                     | Some raw => match newLogEntry 32 raw with Ok (e, _) => [e] | _ => [] end
                     | None => [] end) (seq 0 (N.to_nat n)).
Definition headIn (t : tree) : treeHead := match t_head t with Some h => h | None => {| th_size := 0; th_sig := [] |} end.

(** The state of a client after the log of the tree, from the full subtrees of the leaf hashes. *)
Definition leavesIn (es : list logEntry) : list bytes := map (fun e => getOk [] (logEntryHash (full toy32) e)) es.
Definition pairHash (a b : bytes) : bytes := toy32 (x00 :: a ++ x00 :: b).
Definition es2 : list logEntry := Eval vm_compute in entriesIn t2 2.
Definition es3 : list logEntry := Eval vm_compute in entriesIn t3 3.
Definition st2 : clientState := Eval vm_compute in
  match leavesIn es2 with
  | [a; b] => {| cs_head := headIn t2; cs_auditor := None; cs_subtrees := [pairHash a b];
                 cs_entries := map (fun x => (x, nth (N.to_nat x) es2 {| le_ts := 0; le_root := [] |})) [1] |}
  | _ => {| cs_head := headIn t2; cs_auditor := None; cs_subtrees := []; cs_entries := [] |}
  end.
Definition st3 : clientState := Eval vm_compute in
  match leavesIn es3 with
  | [a; b; d] => {| cs_head := headIn t3; cs_auditor := None; cs_subtrees := [pairHash a b; d];
                    cs_entries := map (fun x => (x, nth (N.to_nat x) es3 {| le_ts := 0; le_root := [] |})) [1; 2] |}
  | _ => {| cs_head := headIn t3; cs_auditor := None; cs_subtrees := []; cs_entries := [] |}
  end.

Definition xsearch (last : option N) (l : bytes) (v : option N) : searchRequest := {| sq_last := last; sq_label := l; sq_version := v |}.
Notation xserve t now q := (serverSearch (full toy32) 32 xc xvrf now (serverOf t) q).
Notation xclient H now k st q r := (clientSearch H 32 xc now xvv xsv xsv xsv xvisit k st q r).
Definition noResponse : searchResponse := {| sr_head := {| fth_head := None; fth_auditor := None |}; sr_version := None; sr_opening := []; sr_value := xv x00;
  sr_ladder := []; sr_search := {| cp_ts := []; cp_proofs := []; cp_roots := []; cp_incl := [] |} |}.

(** The honest answers to: a fresh client; one that has seen two of three entries; one that has seen all. *)
Definition q0 := xsearch None la None.
Definition q2to3 := xsearch (Some 2) la None.
Definition q3to3 := xsearch (Some 3) la None.
Definition r0 : searchResponse := Eval vm_compute in getOk noResponse (xserve t3 3000 q0).
Definition r2to3 : searchResponse := Eval vm_compute in getOk noResponse (xserve t3 3000 q2to3).
Definition r3to3 : searchResponse := Eval vm_compute in getOk noResponse (xserve t3 3000 q3to3).
Lemma r0_served : xserve t3 3000 q0 = Ok r0.
Proof. vm_compute. reflexivity. Qed.
Lemma r2to3_served : xserve t3 3000 q2to3 = Ok r2to3.
Proof. vm_compute. reflexivity. Qed.
Lemma r3to3_served : xserve t3 3000 q3to3 = Ok r3to3.
Proof. vm_compute. reflexivity. Qed.

Lemma r0_result k : xclient (full toy32) 3000 k None q0 r0 = Panic "nil pointer dereference"%string.
Proof. vm_compute. reflexivity. Qed.
Lemma r2to3_result k : xclient (full toy32) 3000 k (Some st2) q2to3 r2to3 = Fail "provided tree size is not greater than advertised"%string.
Proof. vm_compute. reflexivity. Qed.
Lemma r3to3_result k : xclient (full toy32) 3000 k (Some st3) q3to3 r3to3 = Fail "malformed proof"%string.
Proof. vm_compute. reflexivity. Qed.

Lemma part1 L a v : nth_error L (N.to_nat a) = Some v -> NodeVal (full toy32) L a 1 v.
Proof.
  intro E. unfold NodeVal, slice. assert (Q : firstn (N.to_nat 1) (skipn (N.to_nat a) L) = [v]).
  { apply nth_error_split in E. destruct E as (l1 & l2 & -> & E). rewrite <- E, skipn_app, skipn_all, Nat.sub_diag. reflexivity. }
  rewrite Q. constructor.
Qed.
Lemma part2 L a v w h : firstn 2 (skipn (N.to_nat a) L) = [v; w] -> pairHash v w = h -> NodeVal (full toy32) L a 2 h.
Proof.
  intros E <-. unfold NodeVal, slice. change (N.to_nat 2) with 2%nat. rewrite E. change [v; w] with ([v] ++ [w]).
  eapply Mth_node with (vl := v) (vr := w); [reflexivity|reflexivity|constructor|constructor|]. reflexivity.
Qed.

Lemma st2_genuine : stateFor toy32 (headIn t2) es2 st2.
Proof.
  split; [vm_compute; reflexivity|]. split; [vm_compute; reflexivity|]. split.
  - exists (leavesIn es2). split; [unfold es2, leavesIn; cbn [map]; repeat constructor|].
    change (lenN es2) with 2. exists [(0, 2)]. split; [constructor; exists 1; reflexivity|]. constructor; [|constructor].
    cbn [fst snd]. eapply part2; [vm_compute; reflexivity|vm_compute; reflexivity].
  - exists [1]. split; vm_compute; reflexivity.
Qed.
Lemma st3_genuine : stateFor toy32 (headIn t3) es3 st3.
Proof.
  split; [vm_compute; reflexivity|]. split; [vm_compute; reflexivity|]. split.
  - exists (leavesIn es3). split; [unfold es3, leavesIn; cbn [map]; repeat constructor|].
    change (lenN es3) with 3. exists [(0, 2); (2, 1)]. split.
    + apply (P_more 0 3 [(2, 1)]); [intros [k E]|reflexivity|].
      * assert (k = 0 \/ k = 1 \/ 2 <= k) as [->|[->|K]] by lia; try discriminate E. assert (2 ^ 2 <= 2 ^ k) by (apply N.pow_le_mono_r; lia). change (2 ^ 2) with 4 in *. lia.
      * constructor. exists 0. reflexivity.
    + constructor; [|constructor; [|constructor]]; cbn [fst snd]; [eapply part2; [vm_compute; reflexivity|vm_compute; reflexivity]|apply part1; vm_compute; reflexivity].
  - exists [1; 2]. split; vm_compute; reflexivity.
Qed.

(** ** C76: a forged value.  The answer to the client which knows the tree head, with another value, and without the proof
    that the entries inspected are in the log (they are retained, or on the frontier). *)
Definition forge (u : updateValue) (r : searchResponse) : searchResponse :=
  {| sr_head := sr_head r; sr_version := sr_version r; sr_opening := sr_opening r; sr_value := u; sr_ladder := sr_ladder r;
     sr_search := {| cp_ts := cp_ts (sr_search r); cp_proofs := cp_proofs (sr_search r); cp_roots := cp_roots (sr_search r); cp_incl := [] |} |}.
Definition forged : searchResponse := Eval vm_compute in forge (xv x06) r3to3.

(** The inputs hashed. *)
Fixpoint nodeInputs (n : node) : list bytes :=
  match n with
  | Leaf v c => [x02 :: v ++ c]
  | Parent l r None _ => (x03 :: getOk [] (nodeHash (full toy32) 32 l) ++ getOk [] (nodeHash (full toy32) 32 r)) :: nodeInputs l ++ nodeInputs r
  | _ => []
  end.
Definition proofInputs (es : list (bytes * bytes)) (p : pproof) : list bytes :=
  match evaluate 32 es p with Ok n => nodeInputs n | _ => [] end.
Definition commitInputs (opening label : bytes) (ver : N) (u : updateValue) : list bytes :=
  let padded := commitmentFixedBytes ++ repeat x00 (blockSize - List.length commitmentFixedBytes) in
  let inner := map (xorByte 54) padded ++ opening ++ getOk [] (commitmentValue label ver u) in
  [inner; map (xorByte 92) padded ++ toy32 inner].
Definition kv (v : N) : bytes := keyOf xvrf la v.
Definition comIn (r : searchResponse) (i : nat) : bytes :=
  match nth_error (sr_ladder r) i with Some s => match ls_commitment s with Some b => b | None => [] end | None => [] end.
Definition forgedCom : bytes := Eval vm_compute in getOk [] (labelCommitment (full toy32) (sr_opening forged) la 2 (xv x06)).
Definition tab : list bytes := Eval vm_compute in
  dedup (commitInputs (sr_opening forged) la 2 (xv x05) ++ commitInputs (sr_opening forged) la 2 (xv x06) ++
    match cp_proofs (sr_search forged) with
    | [p1; p2] => proofInputs [(kv 0, comIn forged 0); (kv 1, comIn forged 1); (kv 3, []); (kv 2, forgedCom)] p1 ++
                  proofInputs [(kv 3, []); (kv 2, forgedCom)] p2
    | _ => []
    end ++
    match cs_subtrees st3 with [a; b] => [x01 :: a ++ x00 :: b] | _ => [] end).
Lemma tab_ok : ~ broken toy32 32 tab.
Proof. apply notBroken. vm_compute. reflexivity. Qed.

Definition forgedStore : clientStore := Eval vm_compute in getOk emptyClient (xclient (restrict toy32 tab) 3000 emptyClient (Some st3) q3to3 forged).
Lemma forged_result : xclient (restrict toy32 tab) 3000 emptyClient (Some st3) q3to3 forged = Ok forgedStore.
Proof. vm_compute. reflexivity. Qed.

Lemma es2_log : logOf t2 es2.
Proof.
  intros x e E. assert (x = 0 \/ x = 1 \/ 2 <= x) as [->|[->|L]] by lia.
  - vm_compute in E. injection E as <-. eexists. split; vm_compute; reflexivity.
  - vm_compute in E. injection E as <-. eexists. split; vm_compute; reflexivity.
  - assert (E2 : nth_error es2 (N.to_nat x) <> None) by congruence. apply nth_error_Some in E2. change (List.length es2) with 2%nat in E2. lia.
Qed.
Lemma es3_log : logOf t3 es3.
Proof.
  intros x e E. assert (x = 0 \/ x = 1 \/ x = 2 \/ 3 <= x) as [->|[->|[->|L]]] by lia.
  - vm_compute in E. injection E as <-. eexists. split; vm_compute; reflexivity.
  - vm_compute in E. injection E as <-. eexists. split; vm_compute; reflexivity.
  - vm_compute in E. injection E as <-. eexists. split; vm_compute; reflexivity.
  - assert (E2 : nth_error es3 (N.to_nat x) <> None) by congruence. apply nth_error_Some in E2. change (List.length es3) with 3%nat in E2. lia.
Qed.

(** ** C49: the honest answer without the superfluous log proof (see C47), given to a client with and without state for the label *)
Definition again : searchResponse := Eval vm_compute in forge (xv x05) r3to3.
Definition againStore : clientStore := Eval vm_compute in getOk emptyClient (xclient (full toy32) 3000 emptyClient (Some st3) q3to3 again).
Lemma again_first : xclient (full toy32) 3000 emptyClient (Some st3) q3to3 again = Ok againStore.
Proof. vm_compute. reflexivity. Qed.
Lemma again_second : xclient (full toy32) 3000 againStore (Some st3) q3to3 again = Fail "can not add the same version twice"%string.
Proof. vm_compute. reflexivity. Qed.
Lemma again_stored : exists ls, getLabelState 32 againStore la = Ok ls /\ cl_contact ls <> [] /\ cl_owner ls = None.
Proof. eexists. split; [vm_compute; reflexivity|]. split; [discriminate|reflexivity]. Qed.
Lemma again_state : exists st', k_state againStore <> None /\ getState xc againStore = Ok (Some st') /\ cs_head st' = cs_head st3.
Proof. eexists. split; [discriminate|]. split; vm_compute; reflexivity. Qed.

(** ** C48, C50, C51 *)
Definition xcontact (last : option N) : contactRequest := {| cq_last := last; cq_label := la; cq_entries := [] |}.
Definition xinit (last : option N) : ownerInitRequest := {| iq_last := last; iq_label := la; iq_start := 0 |}.
Definition xupdate : updateRequest := {| uq_last := None; uq_label := la; uq_greatest := Some 0; uq_values := [] |}.
