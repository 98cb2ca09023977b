(** Concrete trees for the examples and refutations in MutateProperties.v. *)
From Coq Require Import Sorted.
From Verif Require Import Base BaseProofs LogTreeModel LogTreeSpec PrefixModel PrefixExamples CodecModel CodecSpec CodecProofs CodecProofs2 AlgModel AlgSpec AlgExamples
  HandleModel StoreModel CommitModel MutateModel MutateSpec.
Open Scope N_scope.
Local Open Scope list_scope.

(** A configuration, a VRF (the last byte of the input rotated and put in front, the first put at the end, then zeros: it separates
    short labels), and a signature function. *)
Definition xc : pubConfig := exConfig 1000 1000 2500 0.
Definition rot (b : byte) : byte := n2b (b2n b mod 4 * 64 + b2n b / 4).
Definition xvrf (input : bytes) : bytes * bytes :=
  (match rev input with
   | v :: r => firstn 32 (rot v :: skipn 1 (rev r) ++ firstn 1 (rev r) ++ repeat x00 32)
   | [] => []
   end, repeat x00 80).
Definition xsign (tbs : bytes) : res bytes := Ok (toy32 tbs).
Definition xopening (l : bytes) (v : N) : bytes := be 16 v.
Definition la : bytes := [x10].
Definition lb : bytes := [x50].
Definition lc : bytes := [x90].
Definition xLs : list bytes := [la; lb; lc].
Definition xv (b : byte) : updateValue := {| uv_value := [b]; uv_sig := None |}.
Definition xreq (order : list bytes) (now : N) (add : list labelValue) (remove : list bytes) : request :=
  {| rq_order := order; rq_now := now; rq_add := add; rq_remove := remove; rq_opening := xopening |}.
Definition xdo (t : tree) (r : request) : res auditorUpdate * tree :=
  Mutate (full toy32) 32 xc xvrf xsign (rq_opening r) (rq_order r) (rq_now r) t (rq_add r) (rq_remove r).

Definition q1 := xreq [lb; la] 1000 [(la, xv x01); (lb, xv x02); (la, xv x03)] [].
Definition q2 := xreq [lc] 2000 [(lc, xv x04)] [].
Definition q3 := xreq [la; lb] 3000 [(la, xv x05)] [lb].
Definition empty0 : tree := {| t_tx := {| pending := emptyContents; durable := emptyContents |}; t_head := None |}.
Definition t1 : tree := Eval vm_compute in snd (xdo empty0 q1).
Definition t2 : tree := Eval vm_compute in snd (xdo t1 q2).
Definition t3 : tree := Eval vm_compute in snd (xdo t2 q3).

Lemma toy_len x : lenN (toy32 x) = 32.
Proof. reflexivity. Qed.

Lemma xkey a v : keyOf xvrf [a] v = rot (List.last (writeNum 4 v) x00) :: a :: firstn 3 (writeNum 4 v) ++ x01 :: repeat x00 26.
Proof. unfold keyOf. cbn [vrfInput writeBytes lenN List.length]. reflexivity. Qed.

Lemma rot_inj a b : rot a = rot b -> a = b.
Proof.
  assert (K : forall x, n2b (b2n (rot x) / 64 + b2n (rot x) mod 64 * 4) = x) by (intro x; destruct x; reflexivity).
  intro E. rewrite <- (K a), <- (K b), E. reflexivity.
Qed.

Lemma x_vrfGood : vrfGood 32 xvrf xLs.
Proof.
  assert (S : forall l, In l xLs -> exists a, l = [a]) by (cbn; intros l [<-|[<-|[<-|[]]]]; eexists; reflexivity).
  split; [|split].
  - intros l I. destruct (S l I) as [a ->]. reflexivity || (vm_compute; discriminate).
  - intros l v I _. destruct (S l I) as [a ->]. rewrite xkey. reflexivity.
  - intros l v l' v' I I' Hv Hv' E. destruct (S l I) as [a ->], (S l' I') as [a' ->]. rewrite !xkey in E.
    assert (L : forall v, exists b3 b2 b1 b0, writeNum 4 v = [b3; b2; b1; b0]) by (intro w; unfold writeNum; cbn; repeat eexists).
    assert (Q : a = a' /\ writeNum 4 v = writeNum 4 v').
    { destruct (L v) as (b3 & b2 & b1 & b0 & L1), (L v') as (d3 & d2 & d1 & d0 & L2). rewrite L1, L2 in *. cbn [List.last firstn app] in E.
      assert (E0 : rot b0 = rot d0) by congruence. apply rot_inj in E0. split; congruence. }
    destruct Q as [-> Q]. split; [reflexivity|].
    pose proof (proj1 codec_u32 v (writeNum 4 v) [] Hv eq_refl) as K1. pose proof (proj1 codec_u32 v' (writeNum 4 v') [] Hv' eq_refl) as K2. rewrite Q in K1. congruence.
Qed.

Lemma x_signs tbs : exists sg, xsign tbs = Ok sg /\ lenN sg < 2 ^ 16.
Proof. exists (toy32 tbs). split; reflexivity. Qed.
Lemma x_config : exists raw, pubConfigMarshal xc = Ok raw.
Proof. eexists. reflexivity. Qed.

Ltac listing := split; [repeat constructor; cbn; intuition discriminate|cbn; intros; tauto].
Ltac moderately := split; [listing|]; split; [cbn; intros; tauto|]; split; [reflexivity|]; split; [reflexivity|]; split;
  [cbn [rq_order xreq]; intros l I; repeat (destruct I as [<-|I]; [vm_compute; reflexivity|]); destruct I|vm_compute; reflexivity].

Lemma x_runs1 : runs (full toy32) 32 xc xvrf xsign xLs t1 [q1].
Proof.
  change [q1] with ([] ++ [q1]). eapply run_mutate with (t := empty0); [apply run_new; reflexivity|moderately|left; discriminate|].
  vm_compute. reflexivity.
Qed.
Lemma x_runs2 : runs (full toy32) 32 xc xvrf xsign xLs t2 [q1; q2].
Proof. change [q1; q2] with ([q1] ++ [q2]). eapply run_mutate; [exact x_runs1|moderately|left; discriminate|]. vm_compute. reflexivity. Qed.
Lemma x_runs3 : runs (full toy32) 32 xc xvrf xsign xLs t3 [q1; q2; q3].
Proof. change [q1; q2; q3] with ([q1; q2] ++ [q3]). eapply run_mutate; [exact x_runs2|moderately|left; discriminate|]. vm_compute. reflexivity. Qed.

(** ** C41: a refused mutation, then an unrelated one *)
Definition badReq := xreq [la; lc] 2400 [(la, xv x05)] [lc].
Definition nextReq := xreq [lb] 2450 [(lb, xv x06)] [].
Definition tBad : tree := Eval vm_compute in snd (xdo t2 badReq).
Definition tBadNext : tree := Eval vm_compute in snd (xdo tBad nextReq).
Definition tNext : tree := Eval vm_compute in snd (xdo t2 nextReq).

(** ** C67: a request that changes nothing *)
Definition idle := xreq [] 2500 [] [].
Definition tIdle : tree := Eval vm_compute in snd (xdo t2 idle).

(** ** C40: a crash between the two writes of a commit *)
Definition crashMid (t : tree) (r : request) : contents :=
  nth 1 (mutateCrashes (full toy32) 32 xc xvrf xsign (rq_opening r) (rq_order r) (rq_now r) t (rq_add r) (rq_remove r)) emptyContents.
Definition open (s : contents) : tree := match NewTree s with Ok t => t | _ => empty0 end.
Definition tCrash : tree := Eval vm_compute in open (crashMid t2 q3).
Definition retryA := xreq [la] 3000 [(la, xv x05)] [].
Definition retryB := xreq [lb] 3000 [(lb, xv x05)] [].
Definition tRetry : tree := Eval vm_compute in snd (xdo tCrash retryA).

Definition indexOf (s : contents) (l : bytes) : res (list N) := decodeIndex (bget (x_index s) l).

Lemma c40_refuted : exists f hs c vrf sign Ls t rs r s t' l,
  runs (full f) hs c vrf sign Ls t rs /\ moderate Ls (lenN rs) (labelsNow rs) r /\
  (exists au, Mutate (full f) hs c vrf sign (rq_opening r) (rq_order r) (rq_now r) t (rq_add r) (rq_remove r) = (Ok au, t')) /\
  In s (mutateCrashes (full f) hs c vrf sign (rq_opening r) (rq_order r) (rq_now r) t (rq_add r) (rq_remove r)) /\
  x_head s <> x_head (durable (t_tx t')) /\
  decodeIndex (bget (x_index s) l) <> decodeIndex (bget (x_index (durable (t_tx t))) l).
Proof.
  exists toy32, 32, xc, xvrf, xsign, xLs, t2, [q1; q2], q3, (crashMid t2 q3), t3, la.
  split; [exact x_runs2|]. split; [moderately|]. split; [eexists; vm_compute; reflexivity|]. split; [apply nth_In; vm_compute; repeat constructor|].
  split; vm_compute; discriminate.
Qed.

Lemma c40_retry_refuted : exists f hs c vrf sign Ls t rs r s t1 r' au t2 l index v proof,
  runs (full f) hs c vrf sign Ls t rs /\ moderate Ls (lenN rs) (labelsNow rs) r /\
  In s (mutateCrashes (full f) hs c vrf sign (rq_opening r) (rq_order r) (rq_now r) t (rq_add r) (rq_remove r)) /\
  NewTree s = Ok t1 /\
  Mutate (full f) hs c vrf sign (rq_opening r') (rq_order r') (rq_now r') t1 (rq_add r') (rq_remove r') = (Ok au, t2) /\
  decodeIndex (bget (x_index (durable (t_tx t2))) l) = Ok index /\ v < lenN index /\
  search (full f) (N.to_nat hs) (x_prefix (durable (t_tx t2))) (lenN rs + 1) [keyOf vrf l v] = Ok (proof, [None]).
Proof.
  exists toy32, 32, xc, xvrf, xsign, xLs, t2, [q1; q2], q3, (crashMid t2 q3), tCrash, retryA. eexists. exists tRetry, la, [0; 0; 2; 2], 2. eexists.
  split; [exact x_runs2|]. split; [moderately|]. split; [apply nth_In; vm_compute; repeat constructor|]. split; [vm_compute; reflexivity|]. split; [vm_compute; reflexivity|].
  split; [vm_compute; reflexivity|]. split; [reflexivity|]. vm_compute. reflexivity.
Qed.

Lemma c40_removal_refuted : exists f hs c vrf sign Ls t rs r s t1 r' m t2,
  runs (full f) hs c vrf sign Ls t rs /\ moderate Ls (lenN rs) (labelsNow rs) r /\
  In s (mutateCrashes (full f) hs c vrf sign (rq_opening r) (rq_order r) (rq_now r) t (rq_add r) (rq_remove r)) /\
  NewTree s = Ok t1 /\ List.length (rq_add r') = 1%nat /\ rq_remove r' = [] /\
  (exists au t'', Mutate (full f) hs c vrf sign (rq_opening r') (rq_order r') (rq_now r') t (rq_add r') (rq_remove r') = (Ok au, t'')) /\
  Mutate (full f) hs c vrf sign (rq_opening r') (rq_order r') (rq_now r') t1 (rq_add r') (rq_remove r') = (Fail m, t2).
Proof.
  exists toy32, 32, xc, xvrf, xsign, xLs, t2, [q1; q2], q3, (crashMid t2 q3), tCrash, retryB. do 2 eexists.
  split; [exact x_runs2|]. split; [moderately|]. split; [apply nth_In; vm_compute; repeat constructor|]. split; [vm_compute; reflexivity|]. split; [reflexivity|]. split; [reflexivity|].
  split; [do 2 eexists; vm_compute; reflexivity|vm_compute; reflexivity].
Qed.

Lemma c41_refuted : exists f hs c vrf sign Ls t rs r m t1 r' au t2 au' t2' l,
  runs (full f) hs c vrf sign Ls t rs /\ moderate Ls (lenN rs) (labelsNow rs) r /\
  Mutate (full f) hs c vrf sign (rq_opening r) (rq_order r) (rq_now r) t (rq_add r) (rq_remove r) = (Fail m, t1) /\
  Mutate (full f) hs c vrf sign (rq_opening r') (rq_order r') (rq_now r') t1 (rq_add r') (rq_remove r') = (Ok au, t2) /\
  Mutate (full f) hs c vrf sign (rq_opening r') (rq_order r') (rq_now r') t (rq_add r') (rq_remove r') = (Ok au', t2') /\
  decodeIndex (bget (x_index (durable (t_tx t2))) l) <> decodeIndex (bget (x_index (durable (t_tx t2'))) l).
Proof.
  exists toy32, 32, xc, xvrf, xsign, xLs, t2, [q1; q2], badReq. eexists. exists tBad, nextReq. eexists. exists tBadNext. eexists. exists tNext, la.
  split; [exact x_runs2|]. split; [moderately|]. split; [vm_compute; reflexivity|]. split; [vm_compute; reflexivity|]. split; [vm_compute; reflexivity|].
  vm_compute. discriminate.
Qed.

Lemma idle_fails opening order now add remove : exists m,
  fst (Mutate (full toy32) 32 xc xvrf xsign opening order now tIdle add remove) = Fail m.
Proof.
  exists "unexpected EOF"%string. unfold Mutate, mutateM. 
  assert (K : forall s, s = pending (t_tx tIdle) -> chooseTimestamp 32 xc now 3 s = Fail "unexpected EOF"%string) by (intros s ->; vm_compute; reflexivity).
  change (match t_head tIdle with Some h => th_size h | None => 0 end) with 3. unfold mbind at 1. rewrite (K _ eq_refl). reflexivity.
Qed.

Lemma c67_refuted : exists f hs c vrf sign Ls t rs r au t1,
  runs (full f) hs c vrf sign Ls t rs /\ moderate Ls (lenN rs) (labelsNow rs) r /\
  Mutate (full f) hs c vrf sign (rq_opening r) (rq_order r) (rq_now r) t (rq_add r) (rq_remove r) = (Ok au, t1) /\
  forall opening order now add remove, exists m, fst (Mutate (full f) hs c vrf sign opening order now t1 add remove) = Fail m.
Proof.
  exists toy32, 32, xc, xvrf, xsign, xLs, t2, [q1; q2], idle. eexists. exists tIdle.
  split; [exact x_runs2|]. split; [moderately|]. split; [vm_compute; reflexivity|]. exact idle_fails.
Qed.
