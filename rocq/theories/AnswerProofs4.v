(** Which requests for the initialization of a label owner an honest server answers. *)
From Coq Require Import Sorted Permutation.
From Verif Require Import Base BaseProofs LogMathSpec LogTreeModel LogTreeSpec PrefixModel PrefixSpec TransMathModel TransMathSpec TransMathProofs2 LaddersModel
  CodecModel CodecSpec AlgModel AlgSpec AlgExamples AlgProofs AlgProofs4 AlgProofs6 WatchSpec WatchProofs WatchProofs3 HandleModel HandleSpec HandleProofs HandleProofs5 HandleProofs7
  StoreModel CommitModel MutateModel MutateSpec ServerModel ClientModel ClientSpec MutateProofs2 MutateProofs5 SearchProofs SearchProofs2 AnswerSpec AnswerProofs AnswerProofs2 AnswerProofs3.
Open Scope N_scope.
Local Open Scope list_scope.

Section Init.
Variable f : bytes -> bytes.
Variable hs : N.
Hypothesis Hf : forall x, lenN (f x) = hs.
Hypothesis Hhs : 0 < hs <= 32.
Variable c : pubConfig.
Variable vrf : bytes -> bytes * bytes.
Variable Ls : list bytes.
Hypothesis HV : vrfGood hs vrf Ls.
Variable sign : bytes -> res bytes.
Variable now : N.
Local Notation valid := (fun tbs sg : bytes => sign tbs = Ok sg).

Section One.
Variable t : tree.
Variable E : list epoch.
Hypothesis T : treeOf f hs vrf Ls c valid t E.
Hypothesis HE : E <> [].
Variable l : bytes.
Hypothesis Hl : In l Ls.
Local Notation W := (worldOf f hs vrf (durable (t_tx t)) E l).
Hypothesis HF : faithful f hs W.
Hypothesis Hb : lenN (current E l) < 2 ^ 31.
Local Notation n := (lenN (entriesOf E)).
Local Notation O := (observed W).
Variable last : option N.
Hypothesis OP : optSize n last.
Hypothesis Cl : clockFine c now (h_ts O (n - 1)).
Variable start : N.
Local Notation ask := (serverOwnerInit (full f) hs c vrf now (serverOf t) {| iq_last := last; iq_label := l; iq_start := start |}).
Local Notation mo := {| mo_rightmost := h_ts O (n - 1); mo_size := n; mo_contact := None; mo_owner := None |}.

Lemma NB : 1 <= n < 2 ^ 64.
Proof. exact (SearchProofs.Hn1 f hs W HF). Qed.

Lemma pre_entries tr : pre O (initEntries c mo start) tr (fun xs tr' => tr' = tr).
Proof.
  pose proof NB as NB. unfold initEntries. cbn [mo_size mo_rightmost]. destruct (c09_entries n NB) as (-> & _).
  eapply pre_mono; [apply (pre_init O c NB mo start 66 tr eq_refl); constructor|]. cbn beta. intros xs t' [-> _]. reflexivity.
Qed.

Lemma init_yes : distinguished n (h_ts O) (pc_rmw c) start -> unexpired c O start -> exists answer xs, ask = Ok answer /\ initialEntries c O start xs /\
  (List.length (ir_versions answer) <= List.length xs)%nat /\ forall i x, nth_error xs i = Some x -> h_g O x = claimed (ir_versions answer) i.
Proof.
  intros D U. pose proof NB as NB. destruct (init_honest0 c O mo start (proj1 HF) (conj eq_refl eq_refl) D U eq_refl) as (xs & HI & Fx & K).
  assert (So : StronglySorted N.le (map pv_pos (current E l))) by (destruct T as (HD & _); apply (ds_positions _ _ _ _ _ _ HD l Hl)).
  assert (H63 : n <= 2 ^ 63) by apply HF.
  assert (Fx2 : Forall (fun x => x < two64 - 1) xs).
  { eapply Forall_impl; [|exact Fx]. cbn beta. change (h_n O) with n. intros x Hx. change (2 ^ 63) with 9223372036854775808 in H63. unfold two64. lia. }
  destruct (versions_are (map pv_pos (current E l)) So) with (xs := xs) as (vers & Ev & Lv & Fv & Cv); [unfold lenN in *; now rewrite map_length|exact Fx2| |].
  { destruct HI as (ys & -> & S & _). exact S. }
  destruct (K vers Lv Cv) as (m' & Rm).
  destruct (monitored f hs Hf Hhs c vrf Ls HV valid now t E T HE l Hl HF last
    (fun m => pbind (initEntries c m start) (fun xs => pbind (ownerInit c m start vers) (fun r => Ret (xs, r)))) (xs, (xs, m')) OP Cl) as (op & d & proof & So1 & On & Oi & Om & Ex & Fi).
  { apply (pre_smooth W _ (fun _ _ => True)). apply pre_bind. eapply pre_mono; [apply pre_entries|]. cbn beta. intros ? ? ->. apply pre_bind.
    eapply pre_mono; [apply (pre_ownerInit O c NB mo start vers tracker0 eq_refl Fv)|]. cbn. auto. }
  { exact Rm. }
  apply exec_run in Ex as (evs & Ex). apply split_bind in Ex as (xs' & d1 & e1 & e2 & E1 & Ex). apply split_bind in Ex as (r & d2 & e3 & e4 & E2 & Ex).
  cbn in Ex. injection Ex as -> -> -> <-.
  assert (X1 : exec (serverHandle hs (serverOf t)) (initEntries c mo start) (op_d op) = Ok (xs, d1)) by (apply exec_run; eauto).
  assert (X2 : exec (serverHandle hs (serverOf t)) (ownerInit c mo start vers) d1 = Ok ((xs, m'), d)) by (apply exec_run; eauto).
  destruct (ladders_there vers Fv) as (ladder & El).
  assert (Hst : start < two64 - 1).
  { destruct HI as (ys & -> & _). now inversion Fx2. }
  set (gr := (Z.of_nat (countLe start (map pv_pos (current E l))) - 1)%Z).
  destruct (ladder_there f hs Hf Hhs c vrf Ls HV sign now t E l ladder gr T HE Hl HF) as (steps & Es).
  { unfold gr. pose proof (count_short start (map pv_pos (current E l))) as Sh. rewrite map_length in Sh. unfold lenN in Hb. change (2 ^ 31)%Z with 2147483648%Z. change (2 ^ 31) with 2147483648 in Hb. lia. }
  exists {| ir_head := op_fth op; ir_versions := vers; ir_ladder := steps; ir_init := proof |}, xs. cbn [ir_versions].
  split; [|split; [exact HI|split; [exact Lv|exact Cv]]].
  unfold serverOwnerInit. cbn [iq_last iq_label iq_start]. rewrite So1. cbn [bind]. rewrite Om, X1. cbn [bind]. rewrite Oi. fold (wholeState (map pv_pos (current E l))). rewrite Ev. cbn [bind]. rewrite El. cbn [bind].
  rewrite (whole_at _ start So Hst). cbn [bind]. fold gr. rewrite On, Es. cbn [bind]. rewrite X2. cbn [bind]. rewrite Fi. reflexivity.
Qed.

Lemma init_only answer : ask = Ok answer -> distinguished n (h_ts O) (pc_rmw c) start /\ unexpired c O start.
Proof.
  intro A. pose proof NB as NB. unfold serverOwnerInit in A. cbn [iq_last iq_label iq_start] in A. apply bind_ok in A as (op & So1 & A). apply bind_ok in A as ([xs d1] & X1 & _).
  set (p := fun m => pcatch (pbind (initEntries c m start) (fun xs => Ret (Some xs))) (fun _ => Ret None)).
  pose proof (entries_end c O mo start NB eq_refl) as Fi.
  destruct (run (honest O) (initEntries c mo start) 0) as [[r s] evs] eqn:ER. cbn [result fst] in Fi. destruct r as [r|e|e|]; [| |destruct Fi|destruct Fi].
  - eapply (init_true0 c O mo start); [apply HF|split; reflexivity|exact ER].
  - exfalso. destruct (monitored f hs Hf Hhs c vrf Ls HV valid now t E T HE l Hl HF last p None OP Cl) as (op' & d & proof & So2 & On & Oi & Om & Ex & _).
    { apply (pre_smooth W _ (fun _ _ => True)). unfold p. apply pre_catch; [|intros; exact Logic.I]. apply pre_bind. eapply pre_mono; [apply pre_entries|]. intros ? ? ?. exact Logic.I. }
    { exact (catch_fails _ _ _ _ _ _ ER). }
    rewrite So1 in So2. injection So2 as <-. rewrite Om in X1. apply exec_run in X1 as (e1 & X1). apply exec_run in Ex as (e2 & Ex).
    pose proof (catch_fine _ _ _ _ _ _ _ _ _ X1 Ex) as Bad. discriminate Bad.
Qed.
End One.

Theorem init_answered t rs l : runs (full f) hs c vrf sign Ls t rs -> rs <> [] -> In l Ls -> Forall (fun r => ~ In l (rq_remove r)) rs -> lenN (labelsNow rs l) < 2 ^ 31 ->
  clockFine c now (latest rs) -> forall L last start, describes L rs l -> optSize (lenN rs) last ->
  let ask := serverOwnerInit (full f) hs c vrf now (serverOf t) {| iq_last := last; iq_label := l; iq_start := start |} in
  ((exists answer, ask = Ok answer) <-> distinguished (h_n L) (h_ts L) (pc_rmw c) start /\ unexpired c L start) /\
  forall answer, ask = Ok answer -> exists xs, initialEntries c L start xs /\ (List.length (ir_versions answer) <= List.length xs)%nat /\
    forall i x, nth_error xs i = Some x -> h_g L x = claimed (ir_versions answer) i.
Proof.
  intros R NE Hl Fr Hb Cl L last start (D1 & D2 & D3) OP ask. destruct (history f hs Hf Hhs c vrf Ls HV sign now t rs l R NE Hl Fr Hb) as (E & T & HE & A & Ln & HF & Hts & Hla). cbn zeta in HF, Hts, Hla.
  set (W := worldOf f hs vrf (durable (t_tx t)) E l) in *. pose proof (SearchProofs.Hn1 f hs W HF) as NB. change (lenN (w_entries W)) with (lenN (entriesOf E)) in NB.
  rewrite A in Hb. rewrite Ln in OP. rewrite <- Hla in Cl. rewrite Ln in D1, D3.
  assert (Q1 : forall x, x < lenN (entriesOf E) -> h_ts L x = h_ts (observed W) x).
  { intros x Hx. destruct (Hts x Hx) as (r & Er & ->). now apply D2. }
  assert (Q2 : forall x, x < lenN (entriesOf E) -> h_g L x = h_g (observed W) x).
  { intros x Hx. rewrite (D3 x Hx), A, <- count_map. reflexivity. }
  assert (Qd : distinguished (h_n L) (h_ts L) (pc_rmw c) start <-> distinguished (lenN (entriesOf E)) (h_ts (observed W)) (pc_rmw c) start).
  { rewrite D1. unfold distinguished. rewrite (Q1 (lenN (entriesOf E) - 1)) by lia. split; intro D; (eapply (DIn_same _ _ _ _ NB); [exact D|constructor|]); intros x Hx; rewrite Q1 by exact Hx; reflexivity. }
  assert (Qu : forall x, x < lenN (entriesOf E) -> unexpired c L x <-> unexpired c (observed W) x).
  { intros x Hx. unfold unexpired. rewrite D1. change (h_n (observed W)) with (lenN (entriesOf E)). rewrite !Q1 by lia. reflexivity. }
  assert (Hd : distinguished (lenN (entriesOf E)) (h_ts (observed W)) (pc_rmw c) start -> start < lenN (entriesOf E)) by (intro D; apply DIn_range in D; lia).
  pose proof (init_yes t E T HE l Hl HF Hb last OP Cl start) as Y. pose proof (init_only t E T HE l Hl HF last OP Cl start) as No. fold ask in Y, No. split.
  - split.
    + intros (answer & Ea). destruct (No answer Ea) as (G1 & G2). split; [now apply Qd|]. apply Qu; auto.
    + intros (G1 & G2). apply Qd in G1. apply Qu in G2; [|auto]. destruct (Y G1 G2) as (answer & _ & Ea & _). eauto.
  - intros answer Ea. destruct (No answer Ea) as (G1 & G2). destruct (Y G1 G2) as (answer' & xs & Ea' & HI & Lx & C). rewrite Ea in Ea'. injection Ea' as <-.
    specialize (Hd G1). exists xs. destruct HI as (ys & Exs & S & G).
    assert (Ly : forall y, In y ys -> y < lenN (entriesOf E)) by (intros y I; apply G in I; lia).
    split; [|split; [exact Lx|]].
    + exists ys. split; [exact Exs|]. split; [exact S|]. intro y. rewrite G, D1. change (h_n (observed W)) with (lenN (entriesOf E)). split; intros (B1 & B2 & B3); (split; [exact B1|split; [exact B2|]]); apply Qu; auto; lia.
    + intros i x Ex. rewrite Q2; [apply C; exact Ex|]. apply nth_error_In in Ex. rewrite Exs in Ex. destruct Ex as [<-|I]; auto.
Qed.
End Init.
