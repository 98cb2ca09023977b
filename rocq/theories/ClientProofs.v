From Verif Require Import Base BaseProofs LogMathModel LogTreeModel LogChunkModel TransMathModel LaddersModel PrefixModel CodecModel AlgModel HandleModel
  StoreModel CommitModel ServerModel ClientModel.
Open Scope N_scope.
Local Open Scope list_scope.

Lemma bind_ok {A B} (r : res A) (k : A -> res B) b : bind r k = Ok b -> exists a, r = Ok a /\ k a = Ok b.
Proof. destruct r; try discriminate. cbn. eauto. Qed.

(** The parts of a verifier that never change. *)
Definition same (v v' : cverifier) : Prop :=
  v_state v' = v_state v /\ v_fth v' = v_fth v /\ v_n v' = v_n v /\ v_nP v' = v_nP v /\ v_m v' = v_m v.
Lemma same_refl v : same v v.
Proof. repeat split. Qed.
Lemma same_trans a b d : same a b -> same b d -> same a d.
Proof. intros (A & B & C & D & E) (A' & B' & C' & D' & E'). unfold same. intuition congruence. Qed.

Lemma execV_same {A} H hs (p : prog A) v a v' : execV H hs p v = Ok (a, v') -> same v v'.
Proof. unfold execV. intro E. apply bind_ok in E. destruct E as (x & _ & E). injection E as <- <-. repeat split. Qed.
Lemma vAddVersion_same hs v ver out com v' : vAddVersion hs v ver out com = Ok v' -> same v v'.
Proof. unfold vAddVersion. intro E. apply bind_ok in E. destruct E as (x & _ & E). injection E as <-. repeat split. Qed.
Lemma addLabelState_same hs v ls v' : addLabelState hs v ls = Ok v' -> same v v'.
Proof.
  unfold addLabelState. revert v. induction (cl_versions ls) as [|e t IH]; cbn [foldM]; intros v E; [injection E as <-; apply same_refl|].
  apply bind_ok in E. destruct E as (v1 & E1 & E). eapply same_trans; [eapply vAddVersion_same; exact E1|apply IH; exact E].
Qed.
Lemma ladderSteps_same hs vrfVerify label : forall vers v ladder manual v', ladderSteps hs vrfVerify label v vers ladder manual = Ok v' -> same v v'.
Proof.
  induction vers as [|ver vers IH]; cbn [ladderSteps]; intros v ladder manual v' E; [injection E as <-; apply same_refl|].
  destruct ladder as [|st ladder]; [injection E as <-; apply same_refl|]. apply bind_ok in E. destruct E as (i & _ & E).
  destruct (vrfVerify i (ls_proof st)); [|discriminate].
  destruct (mget manual ver); destruct (ls_commitment st); try discriminate; apply bind_ok in E; destruct E as (v1 & E1 & E);
    (eapply same_trans; [eapply vAddVersion_same; exact E1|eapply IH; exact E]).
Qed.
Lemma processLadder_same hs vrfVerify v label ladder vers manual v' : processLadder hs vrfVerify v label ladder vers manual = Ok v' -> same v v'.
Proof. unfold processLadder. destruct (negb _); [discriminate|]. apply ladderSteps_same. Qed.

Lemma newCVerifier_ok state last fth proof v : newCVerifier state last fth proof = Ok v ->
  v_state v = state /\ v_fth v = fth /\ v_m v = last /\ match fth_head fth with Some th => v_n v = th_size th | None => last = Some (v_n v) end.
Proof.
  unfold newCVerifier. intro E. apply bind_ok in E. destruct E as (d & _ & E). apply bind_ok in E. destruct E as (n & En & E). injection E as <-. cbn.
  repeat split. destruct (fth_head fth); [injection En as <-; reflexivity|]. destruct last; [injection En as <-; reflexivity|discriminate].
Qed.

(** What [finish] requires. *)
Lemma finish_ok H hs c sigVerify audVerify v s : finish H hs c sigVerify audVerify v = Ok s ->
  exists st, v_state v = Some st /\ match fth_head (v_fth v) with Some _ => v_n v < th_size (cs_head st) | None => True end.
Proof.
  unfold finish, checkFinish. intro E. apply bind_ok in E. destruct E as (r & E1 & E). destruct (v_state v) as [st|] eqn:S; [|discriminate]. exists st. split; [reflexivity|].
  apply bind_ok in E1. destruct E1 as (pr & _ & E1). apply bind_ok in E1. destruct E1 as (root & _ & E1). apply bind_ok in E1. destruct E1 as (rootP & _ & E1).
  apply bind_ok in E1. destruct E1 as ([] & E1 & _). unfold verifyTreeHead in E1. rewrite S in E1. destruct (fth_head (v_fth v)); [|exact I].
  destruct (th_size (cs_head st) <=? v_n v) eqn:L; [discriminate|]. lia.
Qed.

Lemma updateView_needs H hs c now v x v' k : v_m v = Some k -> execV H hs (updateView c now (v_n v) (v_m v)) v = Ok (x, v') -> k <= v_n v.
Proof.
  intros M E. rewrite M in E. unfold execV in E. apply bind_ok in E. destruct E as (a & E & _).
  unfold updateView in E. destruct (v_n v <? k) eqn:L; [|lia]. discriminate.
Qed.

Ltac step E := apply bind_ok in E; let x := fresh "x" in let Q := fresh "Q" in destruct E as (x & Q & E); cbn beta iota zeta in E.
Ltac sames := repeat match goal with
  | Q : execV _ _ _ _ = Ok _ |- _ => apply execV_same in Q
  | Q : addLabelState _ _ _ = Ok _ |- _ => apply addLabelState_same in Q
  | Q : processLadder _ _ _ _ _ _ _ = Ok _ |- _ => apply processLadder_same in Q
  | Q : newCVerifier _ _ _ _ = Ok _ |- _ => apply newCVerifier_ok in Q
  end.

(** A verifier made for a state and a response that carries a tree head does not get through updateView and finish. *)
Lemma stuck H hs c now sigVerify audVerify state fth proof v v1 a v2 v3 s :
  newCVerifier state (getLast state) fth proof = Ok v -> same v v1 ->
  execV H hs (updateView c now (v_n v1) (v_m v1)) v1 = Ok (a, v2) -> same v2 v3 -> finish H hs c sigVerify audVerify v3 = Ok s ->
  exists st, state = Some st /\ fth_head fth = None.
Proof.
  intros N0 S1 U S2 F. apply newCVerifier_ok in N0. destruct N0 as (A & B & M & K). pose proof (execV_same _ _ _ _ _ _ U) as S12.
  pose proof (same_trans _ _ _ S12 S2) as S13. pose proof (same_trans _ _ _ S1 S13) as S.
  apply finish_ok in F. destruct F as (st & Fs & F). destruct S as (S1' & S2' & S3' & S4' & S5'). rewrite S1', A in Fs.
  exists st. split; [exact Fs|]. subst state. cbn in M. destruct (fth_head fth) as [th|] eqn:T; [|reflexivity].
  rewrite S2', B, T in F. destruct S1 as (_ & _ & Sn & _ & Sm). rewrite M, Fs in Sm. cbn in Sm. pose proof (updateView_needs _ _ _ _ _ _ _ _ Sm U) as L.
  lia.
Qed.

Section Client.
Variable H : bytes -> option bytes.
Variable hs : N.
Variable c : pubConfig.
Variable now : N.
Variable vrfVerify : bytes -> bytes -> option bytes.
Variable sigVerify leafVerify audVerify : bytes -> bytes -> bool.
Variable visit : nat -> list (N * N) -> list N.

Lemma search_stuck k state req resp k' : sq_last req = getLast state ->
  clientSearch H hs c now vrfVerify sigVerify leafVerify audVerify visit k state req resp = Ok k' ->
  exists st, state = Some st /\ fth_head (sr_head resp) = None.
Proof.
  intros L E. unfold clientSearch in E. apply bind_ok in E. destruct E as ([[v target] terminal] & Q & E). apply bind_ok in E. destruct E as (u & F & _).
  unfold checkSearch in Q. rewrite L in Q. step Q. step Q. step Q. step Q. step Q. step Q. step Q. destruct x5 as [y v2]. step Q. destruct x5 as [z v3].
  injection Q as <- <- <-. eapply stuck; [exact Q0| |exact Q6| |exact F].
  - eapply processLadder_same. exact Q5.
  - eapply execV_same. exact Q7.
Qed.

Lemma ownerInit_stuck k state ls req resp k' : iq_last req = getLast state ->
  clientOwnerInit H hs c now vrfVerify sigVerify audVerify k state ls req resp = Ok k' ->
  exists st, state = Some st /\ fth_head (ir_head resp) = None.
Proof.
  intros L E. unfold clientOwnerInit in E. rewrite L in E. step E. step E. step E. destruct (existsb _ _); [discriminate|]. step E. destruct x2 as [y v2].
  step E. destruct x2 as [mo v3]. step E. destruct x2 as [[xs mo'] v4]. step E. eapply stuck; [exact Q| |exact Q2| |exact Q5].
  - eapply processLadder_same. exact Q1.
  - eapply same_trans; eapply execV_same; eassumption.
Qed.

Lemma contact_stuck k state ls req resp k' : cq_last req = getLast state ->
  clientContactMonitor H hs c now sigVerify audVerify k state ls req resp = Ok k' ->
  exists st, state = Some st /\ fth_head (mr_head resp) = None.
Proof.
  intros L E. unfold clientContactMonitor in E. rewrite L in E. step E. step E. step E. destruct x1 as [y v2]. step E. destruct x1 as [mo v3].
  step E. destruct x1 as [mo' v4]. step E. eapply stuck; [exact Q| |exact Q1| |exact Q4].
  - eapply addLabelState_same. exact Q0.
  - eapply same_trans; eapply execV_same; eassumption.
Qed.

Lemma owner_stuck k state ls req resp k' : oq_last req = getLast state ->
  clientOwnerMonitor H hs c now sigVerify audVerify k state ls req resp = Ok k' ->
  exists st, state = Some st /\ fth_head (mr_head resp) = None.
Proof.
  intros L E. unfold clientOwnerMonitor in E. rewrite L in E. step E. step E. step E. destruct x1 as [y v2]. step E. destruct x1 as [mo v3].
  destruct (cl_owner ls); [|discriminate]. step E. destruct x1 as [mo1 v4]. step E. destruct x1 as [out v5]. destruct (fst out); [discriminate|].
  step E. eapply stuck; [exact Q| |exact Q1| |exact Q5].
  - eapply addLabelState_same. exact Q0.
  - eapply same_trans; [eapply same_trans|]; eapply execV_same; eassumption.
Qed.

Lemma stream_stuck k sv resp out : streamVerify H hs c now vrfVerify sigVerify leafVerify audVerify k sv resp = Ok out ->
  exists st, ss_state sv = Some st /\ fth_head (ur_head resp) = None.
Proof.
  intro E. unfold streamVerify in E. destruct (cl_owner (ss_label sv)); [|discriminate]. apply bind_ok in E. destruct E as ([startVer coms] & _ & E).
  step E. step E. step E. step E. step E. step E. destruct x4 as [y v2]. step E. destruct x4 as [mo v3]. step E. destruct x4 as [mo' v4]. step E.
  eapply stuck; [exact Q1| |exact Q4| |exact Q7].
  - eapply same_trans; [eapply addLabelState_same; exact Q2|eapply processLadder_same; exact Q3].
  - eapply same_trans; eapply execV_same; eassumption.
Qed.

End Client.

Lemma no_head_accepted : forall H hs c now vrfVerify sigVerify leafVerify audVerify visit k state,
  (forall req resp k', sq_last req = getLast state ->
    clientSearch H hs c now vrfVerify sigVerify leafVerify audVerify visit k state req resp = Ok k' ->
    exists st, state = Some st /\ fth_head (sr_head resp) = None) /\
  (forall ls req resp k', iq_last req = getLast state ->
    clientOwnerInit H hs c now vrfVerify sigVerify audVerify k state ls req resp = Ok k' ->
    exists st, state = Some st /\ fth_head (ir_head resp) = None) /\
  (forall ls req resp k', cq_last req = getLast state ->
    clientContactMonitor H hs c now sigVerify audVerify k state ls req resp = Ok k' ->
    exists st, state = Some st /\ fth_head (mr_head resp) = None) /\
  (forall ls req resp k', oq_last req = getLast state ->
    clientOwnerMonitor H hs c now sigVerify audVerify k state ls req resp = Ok k' ->
    exists st, state = Some st /\ fth_head (mr_head resp) = None) /\
  (forall sv resp out, ss_state sv = state ->
    streamVerify H hs c now vrfVerify sigVerify leafVerify audVerify k sv resp = Ok out ->
    exists st, state = Some st /\ fth_head (ur_head resp) = None).
Proof.
  intros. split; [|split; [|split; [|split]]]; intros.
  - eapply search_stuck; eassumption.
  - eapply ownerInit_stuck; eassumption.
  - eapply contact_stuck; eassumption.
  - eapply owner_stuck; eassumption.
  - subst state. eapply stream_stuck; eassumption.
Qed.
