(** Concrete cases for AlarmProperties.v: the log and the searches of OrderExamples.v. *)
From Verif Require Import Base BaseProofs LogTreeModel LogTreeSpec TransMathSpec PrefixModel PrefixExamples CodecModel CodecSpec AlgModel AlgSpec AlgExamples WatchSpec HandleModel StoreModel CommitModel MutateModel MutateSpec MutateExamples ServerModel
  ClientModel ClientSpec ClientExamples SearchExamples GuardExamples OrderSpec OrderExamples AlarmProofs.
Open Scope N_scope.
Local Open Scope list_scope.

Definition askUp : contactRequest := {| cq_last := Some 4; cq_label := la; cq_entries := cl_contact lsUp |}.
Definition answerUp : monitorResponse := Eval vm_compute in getOk noMonitor (serverContactMonitor (full toy32) 32 xc xvrf 400 (serverOf u4) askUp).

Lemma c99_refuted : exists f hs c vrf vrfVerify sign sigVerify Ls t rs st es now req resp visit visit' k' k'' ls' ls'',
  (forall x, lenN (f x) = hs) /\ vrfVerifies vrf vrfVerify /\ sigVerifies sign sigVerify /\
  runs (full f) hs c vrf sign Ls t rs /\ logOf t es /\ t_head t = Some (cs_head st) /\ stateFor f (cs_head st) es st /\
  sq_last req = getLast (Some st) /\ serverSearch (full f) hs c vrf now (serverOf t) req = Ok resp /\
  anyOrder visit /\ anyOrder visit' /\
  clientSearch (full f) hs c now vrfVerify sigVerify sigVerify sigVerify visit emptyClient (Some st) req resp = Ok k' /\
  clientSearch (full f) hs c now vrfVerify sigVerify sigVerify sigVerify visit' emptyClient (Some st) req resp = Ok k'' /\
  getLabelState hs k' (sq_label req) = Ok ls' /\ getLabelState hs k'' (sq_label req) = Ok ls'' /\
  (exists answer, serverContactMonitor (full f) hs c vrf now (serverOf t) {| cq_last := getLast (Some st); cq_label := sq_label req; cq_entries := cl_contact ls' |} = Ok answer) /\
  forall k state ls ask, getLabelState hs k (sq_label req) = Ok ls'' -> monitorRequestFor hs c k (sq_label req) = Ok (state, ls, inl ask) ->
    forall now' server answer, serverContactMonitor (full f) hs c vrf now' server ask <> Ok answer.
Proof.
  exists toy32, 32, xc, xvrf, xvv, xsign, xsv, xLs, u4, [p1; p2; p3; p4], sx4, fs4, 400, qx4, rx4, OrderExamples.keysUp, OrderExamples.keysDown, kUp, kDown, lsUp, lsDown.
  split; [apply toy_len|]. split; [exact x_vrfVerifies|]. split; [exact x_sigVerifies|]. split; [exact runs4|]. split; [exact fs4_log|]. split; [vm_compute; reflexivity|].
  split; [exact sx4_genuine|]. split; [reflexivity|]. split; [exact rx4_served|]. split; [exact keysUp_any|]. split; [exact keysDown_any|].
  split; [exact kUp_result|]. split; [exact kDown_result|]. split; [apply lsUp_stored|]. split; [apply lsDown_stored|]. split; [exists answerUp; vm_compute; reflexivity|].
  intros k state ls ask Hl E now' server answer. unfold monitorRequestFor in E. apply bind_ok in E as (s & _ & E). apply bind_ok in E as (cut & _ & E). rewrite Hl in E. cbn [bind] in E.
  assert (C : cq_entries ask = [(0, 0); (3, 0)]).
  { change (cl_contact lsDown) with [(0, 0); (3, 0)] in E. change (cl_owner lsDown) with (@None ownerState) in E. cbv iota beta in E. injection E as _ _ <-. reflexivity. }
  apply never_answered with (x := 0) (y := 3) (v := 0); [rewrite C; cbn; auto|rewrite C; cbn; auto|discriminate].
Qed.

Lemma c99_example : watches (flatMonitor [(0, 1); (3, 2)]) flatLog /\ (forall x v, In (x, v) [(0, 1); (3, 2)] -> x < 4 /\ (Z.of_N v <= h_g flatLog x)%Z) /\
  (forall x v y u, In (x, v) [(0, 1); (3, 2)] -> In (y, u) [(0, 1); (3, 2)] -> x < y -> v < u) /\
  mget [(0, 1); (3, 2)] 0 = Some 1.
Proof.
  split; [split; reflexivity|]. split; [intros x v [[= <- <-]|[[= <- <-]|[]]]; split; vm_compute; congruence|]. split; [|reflexivity].
  intros x v y u [[= <- <-]|[[= <- <-]|[]]] [[= <- <-]|[[= <- <-]|[]]]; lia.
Qed.
