(** The checks of the client when it monitors a label or takes it over. *)
From Coq Require Import Sorted.
From Verif Require Import Base BaseProofs LogTreeModel LogTreeSpec LogTreeProofs LogTreeProofs3 LogVerifyProofs2 TransMathModel TransMathSpec LaddersModel LaddersProofs PrefixModel PrefixSpec PrefixHistProofs
  CodecModel CodecSpec CodecProofs3 AlgModel AlgSpec AlgProofs AlgProofs2 AlgProofs3 AlgProofs4 AlgProofs5 HandleModel HandleProofs CommitModel CommitProofs MutateModel MutateSpec ServerModel ClientModel ClientProofs ClientProofs2 ClientSpec SearchProofs
  SoundSpec AcceptProofs SoundProofs SoundProofs2 WatchSpec WatchProofs WatchProofs3 GuardSpec GuardProofs GuardProofs2 GuardProofs3 GuardProofs5.
Open Scope N_scope.
Local Open Scope list_scope.

(** ** Known commitments are decidable *)

Definition keepsb (ls : labelState) (w : N) (com : bytes) : bool :=
  existsb (fun r => (rv_version r =? w) && match rv_commitment r with Some c => bytes_eqb c com | None => false end) (cl_versions ls).
Lemma keepsb_iff ls w com : keepsb ls w com = true <-> keeps ls w com.
Proof.
  unfold keepsb, keeps. rewrite existsb_exists. split.
  - intros (r & I & E). apply andb_true_iff in E. destruct E as [E1 E2]. apply N.eqb_eq in E1. exists r. split; [exact I|]. split; [exact E1|].
    destruct (rv_commitment r) as [c0|]; [|discriminate]. apply bytes_eqb_eq in E2. now subst c0.
  - intros (r & I & <- & E). exists r. split; [exact I|]. rewrite N.eqb_refl, E. cbn. now apply bytes_eqb_eq.
Qed.

Definition initClaimsb (resp : ownerInitResponse) (w : N) (com : bytes) : bool :=
  match allLadderVersions (ir_versions resp) with
  | Ok ladder => existsb (fun p => (fst p =? w) && match ls_commitment (snd p) with Some c => bytes_eqb c com | None => false end) (combine ladder (ir_ladder resp))
  | _ => false
  end.
Lemma initClaimsb_iff resp w com : initClaimsb resp w com = true <-> initClaims resp w com.
Proof.
  unfold initClaimsb, initClaims. destruct (allLadderVersions (ir_versions resp)) as [ladder|m|m|]; try (split; [discriminate|intros (x & _ & _ & K & _); discriminate]).
  rewrite existsb_exists. split.
  - intros ([v st] & I & E). cbn [fst snd] in E. apply andb_true_iff in E. destruct E as [E1 E2]. apply N.eqb_eq in E1. subst v. apply In_combine_nth in I. destruct I as (i & I1 & I2).
    exists ladder, i, st. split; [reflexivity|]. split; [exact I1|]. split; [exact I2|]. destruct (ls_commitment st) as [c0|]; [|discriminate]. apply bytes_eqb_eq in E2. now subst c0.
  - intros (ladder' & i & st & E & I1 & I2 & I3). apply Ok_inj in E. subst ladder'. exists (w, st). split; [eapply combine_nth_in; eauto|]. cbn. rewrite N.eqb_refl, I3. now apply bytes_eqb_eq.
Qed.

(** ** The verifier at the start *)

Section Checks.
Variable f : bytes -> bytes.
Variable T : list bytes.
Variable hs : N.
Hypothesis Hf : forall x, lenN (f x) = hs.
Hypothesis Hhs : 0 < hs.
Local Notation H := (restrict f T).
Local Notation nhs := (N.to_nat hs).
Local Notation RH := (receivedHandle H hs).
Local Notation P := (dpProvider RH).
Local Notation provider := (dataProvider received).
Variable c : pubConfig.
Hypothesis Hc : pc_hs c = nhs.
Variable vrf : bytes -> bytes * bytes.
Variable now : N.
Variable es : list logEntry.
Variable leaves : list bytes.
Variable trees : list trie.
Hypothesis Hlog : commitsTo H nhs es leaves trees.
Hypothesis Hord : ordered es.
Local Notation n := (lenN es).
Variable state : option clientState.
Hypothesis Hstate : keptFrom es state.

Lemma o_ts : Forall (fun e => le_ts e < two64) es.
Proof. apply Hord. Qed.

(** What is known of the provider before any algorithm is run. *)
Definition fresh (proof : combinedProof) (d : provider) : Prop :=
  r_proofs (d_handle d) = cp_proofs proof /\ rootsTimed d /\ smallTs d /\
  forall x e, In (x, e) (d_retained d) -> nth_error es (N.to_nat x) = Some e /\ mget (d_roots d) x = Some (le_root e) /\ mget (d_ts d) x = Some (le_ts e).

Lemma start_fresh last fth proof v : newCVerifier state last fth proof = Ok v -> Forall u64ok (cp_ts proof) -> fresh proof (v_d v) /\ vVersions v = [].
Proof.
  intros E O. unfold newCVerifier in E. apply bind_ok in E. destruct E as (d & Ed & E). apply bind_ok in E. destruct E as (n0 & _ & E). injection E as <-. cbn [v_d]. unfold fresh, vVersions. cbn [v_d].
  destruct state as [s|].
  - assert (Fe : Forall (fun e => le_ts (snd e) < two64) (cs_entries s)).
    { apply Forall_forall. intros [x e] I. apply Hstate in I. apply nth_error_In in I. cbn. pose proof o_ts as Q. rewrite Forall_forall in Q. now apply Q. }
    destruct (addRetained_facts _ _ _ _ Ed O Fe) as (A1 & A2 & A3 & A4 & A5 & A6).
    assert (K : forall x e, In (x, e) (cs_entries s) -> mget (d_ts d) x = Some (le_ts e)).
    { unfold addRetained in Ed. apply (addRetained_loop (cs_entries s)) in Ed; [|intros x y t u; cbn; discriminate]. destruct Ed as (_ & _ & _ & Ed). intros x e I. now apply Ed. }
    rewrite A1, A3. split; [|reflexivity]. split; [reflexivity|]. split; [exact A4|]. split; [exact A5|]. intros x e I. auto.
  - injection Ed as <-. cbn. split; [|reflexivity]. split; [reflexivity|]. split; [intros x r0; cbn; discriminate|]. split; [split; [exact O|intros x t; cbn; discriminate]|]. intros x e [].
Qed.

Lemma fresh_versions proof v vm : fresh proof (v_d v) -> fresh proof (v_d (withVersions v vm)).
Proof. intros (A & B & C & D). split; [exact A|]. split; [exact B|]. split; [exact C|exact D]. Qed.

(** ** The chain of algorithms *)

Variable l : bytes.
Variable cl : N -> bytes -> Prop.

Lemma execV_run {A} (p : prog A) v a v' : execV H hs p v = Ok (a, v') -> exists ev, run P p (v_d v) = (Ok a, v_d v', ev) /\ ext (v_d v) (v_d v').
Proof.
  unfold execV. intro E. apply bind_ok in E. destruct E as (a0 & R & E). injection E as <- <-. cbn [setProvider v_d]. pose proof (run_ext H hs p (v_d v)) as X.
  destruct (run P p (v_d v)) as [[r d] ev]. cbn in R, X |- *. subst r. eauto.
Qed.

Lemma final_log proof d fin nP m pr r : fresh proof d -> ext d fin ->
  dpFinish H hs fin n nP m = Ok pr -> logRoot H hs n (pr_subtrees pr) = Ok r -> Mth H leaves r -> match m with Some k => k <= n | None => True end ->
  rootsOf es fin /\ tsOf es fin \/ broken f nhs T.
Proof.
  intros (A & B & C & D) X Ed Er Em Hm.
  destruct (finish_log f T hs Hf Hhs es leaves trees Hlog o_ts fin nP m pr r Ed Er Em Hm (x_timed _ _ X B) (x_small _ _ X C)) as [Q|Q]; [|left; exact Q|right; left; exact Q].
  rewrite (x_ret _ _ X). intros x e I. destruct (D x e I) as (D1 & D2 & D3). split; [exact D1|]. split; [apply (x_roots _ _ X); exact D2|apply (x_ts _ _ X); exact D3].
Qed.

Lemma stage pfs lad {A} (p : prog A) v a v' fin : plain lad p -> execV H hs p v = Ok (a, v') -> Forall (okPrefixProof nhs) pfs -> (lad = true -> aliasFree vrf l cl pfs) ->
  incl (r_proofs (d_handle (v_d v))) pfs -> keysKnown vrf l cl (vers (v_d v)) -> ext (v_d v') fin -> rootsOf es fin -> tsOf es fin ->
  (exists ev, run P p (v_d v) = (Ok a, v_d v', ev) /\ Forall (provenEvent vrf l es trees cl) ev) \/ broken f nhs T.
Proof.
  intros Hp E Ok1 Al Hi Hk X Hr Ht. destruct (execV_run p v a v' E) as (ev & R & _).
  destruct (run_proven f T hs Hf Hhs vrf l es leaves trees Hlog cl pfs Ok1 lad Al p Hp (v_d v) fin Hi Hk) as [F|B]; [| | | |right; exact B].
  - rewrite R. exact X.
  - exact Hr.
  - exact Ht.
  - left. exists ev. split; [exact R|]. rewrite R in F. exact F.
Qed.

Lemma labelState_keys ls v v' : addLabelState hs v ls = Ok v' -> genuineKeys vrf l ls -> vVersions v = [] -> exists vm, v' = withVersions v vm /\ keysKnown vrf l (keeps ls) vm.
Proof.
  intros E G E0.
  assert (K : forall rs v, foldM (fun v e => vAddVersion hs v (rv_version e) (rv_vrf e) (rv_commitment e)) rs v = Ok v' -> incl rs (cl_versions ls) -> keysKnown vrf l (keeps ls) (vVersions v) ->
     exists vm, v' = withVersions v vm /\ keysKnown vrf l (keeps ls) vm).
  { clear E E0 v. induction rs as [|r rs IH]; intros v E I K; cbn [foldM] in E.
    - injection E as <-. exists (vVersions v). split; [now rewrite withVersions_same|exact K].
    - apply bind_ok in E. destruct E as (v1 & E1 & E). unfold vAddVersion in E1. apply bind_ok in E1. destruct E1 as (vm & A & E1). injection E1 as <-.
      assert (Av : vm = mput (vVersions v) (rv_version r) (rv_vrf r, rv_commitment r)).
      { unfold addVersion in A. destruct (negb _); [discriminate|]. destruct (rv_commitment r) as [cc|]; [destruct (negb _); [discriminate|]|]; (destruct (mhas _ _); [discriminate|]; injection A as <-; reflexivity). }
      destruct (IH _ E) as (vm' & -> & K').
      + intros q Hq. apply I. now right.
      + change (keysKnown vrf l (keeps ls) vm). rewrite Av. intros w key o Q. rewrite mget_mput in Q. destruct (N.eqb_spec w (rv_version r)) as [->|]; [|apply K; exact Q].
        injection Q as <- <-. unfold genuineKeys in G. rewrite Forall_forall in G. split; [apply G, I; now left|]. intros com Ec. exists r. split; [apply I; now left|auto].
      + exists vm'. split; [reflexivity|exact K']. }
  apply (K (cl_versions ls) v E (incl_refl _)). rewrite E0. intros w key o Q. discriminate.
Qed.

Lemma ladder_keys vrfVerify resp v v' ladder : vrfVerifies vrf vrfVerify -> allLadderVersions (ir_versions resp) = Ok ladder -> vVersions v = [] ->
  processLadder hs vrfVerify v l (ir_ladder resp) ladder [] = Ok v' -> exists vm, v' = withVersions v vm /\ keysKnown vrf l (initClaims resp) vm.
Proof.
  intros Hv El E0 E. unfold processLadder in E. destruct (Nat.eqb_spec (List.length (ir_ladder resp)) (List.length ladder)) as [Ll|]; [|discriminate]. cbn [negb] in E.
  destruct (ladderSteps_keys hs vrf vrfVerify (proj2 Hv) l [] (initClaims resp)) with (3 := Ll) (2 := E) as (vm & Ev & Hk).
  - intros w cm Q. discriminate.
  - intros i w st cm I1 I2 I3. exists ladder, i, st. auto.
  - rewrite E0. intros w key o Q. discriminate.
  - exists vm. split; [exact Ev|]. intros w key o Q. destruct (Hk w key o Q) as (K1 & _ & K2). auto.
Qed.

Lemma contactMonitor_keeps {S} (Q : AlgModel.provider S) m s m' s' ev : run Q (contactMonitor c m) s = (Ok m', s', ev) ->
  mo_size m' = mo_size m /\ mo_rightmost m' = mo_rightmost m /\ mo_owner m' = mo_owner m.
Proof.
  intro R. unfold contactMonitor in R. destruct (mo_contact m) as [ptrs|].
  - apply run_bind_ok in R as (x & s1 & l1 & l2 & _ & R & _). cbn in R. injection R as <- <- <-. auto.
  - cbn in R. injection R as <- <- <-. auto.
Qed.


(** ** Pairs kept by someone who monitors the label *)

Lemma contactPtrs_in es0 : NoDup (map fst es0) -> forall x v, mget (contactPtrs es0) x = Some v <-> In (x, v) es0.
Proof.
  unfold contactPtrs. intro ND. enough (G : forall m, (forall x, In x (map fst es0) -> mget m x = None) -> forall x v, mget (fold_left (fun m e => mput m (fst e) (snd e)) es0 m) x = Some v <-> In (x, v) es0 \/ mget m x = Some v).
  { intros x v. rewrite G by reflexivity. cbn. intuition discriminate. }
  induction es0 as [|[a b] es0 IH]; intros m Hm x v; cbn [fold_left fst snd].
  - cbn. tauto.
  - inversion ND; subst. rewrite IH; [|assumption|].
    + rewrite mget_mput. cbn [In]. destruct (N.eqb_spec x a) as [->|Ne].
      * split; [intros [K|K]; [auto|injection K as ->; auto]|]. intros [[K|K]|K]; [injection K as ->; auto|auto|]. rewrite Hm in K by now left. discriminate.
      * split; [tauto|]. intros [[K|K]|K]; [congruence|auto|auto].
    + intros y Hy. rewrite mget_mput. destruct (N.eqb_spec y a) as [->|]; [contradiction|]. apply Hm. now right.
Qed.

Lemma ordered_64 : 1 <= n < 2 ^ 64.
Proof. destruct Hord as ((A & B) & _). change (2 ^ 63) with 9223372036854775808 in B. change (2 ^ 64) with 18446744073709551616. lia. Qed.

Lemma contact_guards clb (Hcl : forall w com, clb w com = true <-> cl w com) {S} (Q : AlgModel.provider S) m old s m' s' ev : mo_size m = n -> mo_rightmost m = timeAt es (n - 1) -> mo_contact m = Some (contactPtrs old) ->
  NoDup (map fst old) -> Forall (fun p => fst p < n) old ->
  run Q (contactMonitor c m) s = (Ok m', s', ev) -> Forall (provenEvent vrf l es trees cl) ev ->
  staysShown n (timeAt es) (pc_rmw c) vrf l cl trees (fun z => exists o, mo_owner m = Some o /\ os_starting o < z /\ distinguished n (timeAt es) (pc_rmw c) z) old /\
  movedUp n (timeAt es) (pc_rmw c) old (pointsTo m').
Proof.
  intros Em Er Ec ND Fo R F. pose proof ordered_64 as Hn. destruct Hord as (_ & Ho & Hmono). rewrite Forall_forall in F, Fo.
  assert (H64 : forall x, x < n -> timeAt es x < two64).
  { intros x Hx. unfold timeAt. destruct (nth_error es (N.to_nat x)) eqn:E; [|unfold two64; lia]. apply nth_error_In in E. rewrite Forall_forall in Ho. auto. }
  pose proof (contactPtrs_in old ND) as Po.
  destruct (contact_full Q c n (timeAt es) Hn Hmono H64 m (contactPtrs old) s m' s' ev Em Er Ec) as (A1 & A2 & A3 & A4).
  - intros x Hx. destruct (mget (contactPtrs old) x) as [v|] eqn:E; [|congruence]. apply Po in E. now apply (Fo (x, v)).
  - exact R.
  - intros x t I _. exact (proj2 (F _ I)).
  - assert (Pn : forall y v, mget (match mo_contact m' with Some p => p | None => [] end) y = Some v <-> pointsTo m' y v).
    { intros y v. unfold pointsTo. destruct (mo_contact m') as [p|]; split.
      - intro K. eauto.
      - intros (p' & K1 & K2). injection K1 as <-. exact K2.
      - discriminate.
      - intros (p' & K1 & _). discriminate. }
    split.
    + intros x v z t I (W1 & W2 & W3) Ne Et. apply Po in I. destruct (A1 x v z I) as (v' & V1 & V2); [split; [exact W1|]; split; [exact W2|]; split; [exact W3|exact Ne]|].
      exists v'. split; [exact V1|]. eapply (proven_shows vrf l es trees cl); [exact Et|]. exact (F _ V2).
    + split; [|split].
      * intros y v K. apply Pn in K. destruct (A2 y v K) as (B1 & B2 & x & B3 & Bd & B4). split; [exact B1|]. split; [exact B2|]. exists x. split; [now apply Po|]. destruct B4 as [|(B4 & B5 & B6)]; [auto|right].
        split; [exact B4|]. split; [exact B5|]. intros d D1 D2 D3. destruct (Bd d D1 D2 D3).
      * intros x v I Pd Nt. apply Po in I.
        assert (Z : exists z, sanc n x z /\ x < z).
        { destruct (N.ltb_spec x n) as [Hx|Hx]; [|apply Po in I; specialize (Fo _ I); cbn in Fo; lia]. destruct (pathOf_spec n Hn x Hx) as [_ G]. destruct (pathOf n x) as [|z p] eqn:Ep.
          - destruct Nt. intros z Hz. destruct (N.le_gt_cases z x) as [|Lt]; [auto|]. destruct (proj2 (G z) (conj Hz Lt)).
          - exists z. apply G. now left. }
        destruct (A3 x v I Pd Z) as (y & v' & B1 & B2 & B3 & B4 & B5). exists y, v'. split; [|split; [exact B3|split; [exact B4|now apply Pn]]].
        split; [exact B1|]. split; [exact B2|]. intros d D1 D2 D3. destruct (Pd d D1 D2 D3).
      * intros x v I Pd Tx Lo. apply Pn. apply Po in I. apply A4; auto. intros x' Hx'. destruct (mget (contactPtrs old) x') as [v'|] eqn:E; [|congruence]. apply Po in E. eapply Lo; eauto.
Qed.

Lemma NoAl pfs : false = true -> aliasFree vrf l cl pfs.
Proof. discriminate. Qed.

Lemma exhausts : exhaustible P (fun d => match r_proofs (d_handle d) with [] => true | _ => false end).
Proof. intros s x v. reflexivity. Qed.

Lemma ownerMonitor_guards ls req resp checked mo result root hist os :
  NoDup (map fst (cl_contact ls)) -> Forall (fun p => fst p < n) (cl_contact ls) -> l = oq_label req -> cl = keeps ls -> genuineKeys vrf l ls -> okMonitorResponse c resp -> aliasFree vrf l cl (cp_proofs (mr_monitor resp)) ->
  cl_owner ls = Some os -> StronglySorted N.le hist -> (Z.of_nat (List.length hist) < 4294967296)%Z -> tracks hist os ->
  checkOwnerMonitor H hs c now state ls req resp = Ok (checked, mo) -> v_n checked = n ->
  dpFinish H hs (v_d checked) (v_n checked) (v_nP checked) (v_m checked) = Ok result -> logRoot H hs (v_n checked) (pr_subtrees result) = Ok root -> Mth H leaves root ->
  (exists os', mo_owner mo = Some os' /\ tracks hist os' /\ os_starting os <= os_starting os' /\
    (os_starting os' = os_starting os \/ distinguished n (timeAt es) (pc_rmw c) (os_starting os')) /\
    forall d t, distinguished n (timeAt es) (pc_rmw c) d -> os_starting os < d <= os_starting os' -> nth_error trees (N.to_nat d) = Some t -> showsGreatest vrf l cl t (expected hist d)) /\
  staysShown n (timeAt es) (pc_rmw c) vrf l cl trees (fun z => os_starting os < z /\ distinguished n (timeAt es) (pc_rmw c) z) (cl_contact ls) /\
  movedUp n (timeAt es) (pc_rmw c) (cl_contact ls) (pointsTo mo)
  \/ broken f nhs T.
Proof.
  intros ND Fo El Ecl G Or Al Eo Hs Hh Tr E En Ef Er Em. unfold checkOwnerMonitor in E.
  apply bind_ok in E. destruct E as (v & E0 & E). apply bind_ok in E. destruct E as (v1 & E1 & E). apply bind_ok in E. destruct E as ([u v2] & E2 & E).
  apply bind_ok in E. destruct E as ([mo0 v3] & E3 & E). rewrite Eo in E. apply bind_ok in E. destruct E as ([mo1 v4] & E4 & E). apply bind_ok in E. destruct E as ([out v5] & E5 & E).
  destruct out as [[e|[]] mo']; cbn [fst snd] in E; [discriminate|]. injection E as -> ->.
  destruct Or as (_ & Or). rewrite Hc in Or. destruct Or as (O1 & O2 & O3 & O4).
  destruct (start_fresh _ _ _ _ E0 O1) as [Fr Vv]. destruct (labelState_keys ls v v1 E1 G Vv) as (vm & Q1 & Kv). rewrite <- Ecl in Kv.
  pose proof (fresh_versions _ _ vm Fr) as Fr1. rewrite <- Q1 in Fr1.
  pose proof (execV_same _ _ _ _ _ _ E2) as Sm2. pose proof (execV_same _ _ _ _ _ _ E3) as Sm3. pose proof (execV_same _ _ _ _ _ _ E4) as Sm4. pose proof (execV_same _ _ _ _ _ _ E5) as Sm5.
  destruct (execV_run _ _ _ _ E2) as (_ & _ & X2). destruct (execV_run _ _ _ _ E3) as (_ & _ & X3). destruct (execV_run _ _ _ _ E4) as (_ & _ & X4). destruct (execV_run _ _ _ _ E5) as (ev5' & R5' & X5).
  pose proof (ext_trans _ _ _ X4 X5) as X45. pose proof (ext_trans _ _ _ X3 X45) as X35. pose proof (ext_trans _ _ _ X2 X35) as X25.
  assert (Hm : match v_m checked with Some k => k <= n | None => True end).
  { destruct (v_m checked) as [k|] eqn:Ek; [|exact I]. destruct Sm2 as (_ & _ & A2 & _ & B2). destruct Sm3 as (_ & _ & A3 & _ & B3). destruct Sm4 as (_ & _ & A4 & _ & B4). destruct Sm5 as (_ & _ & A5 & _ & B5).
    assert (Mk : v_m v1 = Some k) by congruence. pose proof (updateView_needs _ _ _ _ _ _ _ _ Mk E2). rewrite <- En. congruence. }
  rewrite En in Ef, Er. destruct (final_log _ _ _ _ _ _ _ Fr1 X25 Ef Er Em Hm) as [[Ro Ts]|B]; [|auto].
  assert (Kv1 : keysKnown vrf l cl (vers (v_d v1))). { rewrite Q1. exact Kv. }
  assert (P1 : incl (r_proofs (d_handle (v_d v1))) (cp_proofs (mr_monitor resp))). { destruct Fr1 as (-> & _). apply incl_refl. }
  assert (K2 : keysKnown vrf l cl (vers (v_d v2))) by (rewrite (x_vers _ _ X2); exact Kv1).
  assert (K3 : keysKnown vrf l cl (vers (v_d v3))) by (rewrite (x_vers _ _ X3); exact K2).
  assert (K4 : keysKnown vrf l cl (vers (v_d v4))) by (rewrite (x_vers _ _ X4); exact K3).
  assert (P2 : incl (r_proofs (d_handle (v_d v2))) (cp_proofs (mr_monitor resp))) by (eapply incl_tran; [apply (x_proofs _ _ X2)|exact P1]).
  assert (P3 : incl (r_proofs (d_handle (v_d v3))) (cp_proofs (mr_monitor resp))) by (eapply incl_tran; [apply (x_proofs _ _ X3)|exact P2]).
  assert (P4 : incl (r_proofs (d_handle (v_d v4))) (cp_proofs (mr_monitor resp))) by (eapply incl_tran; [apply (x_proofs _ _ X4)|exact P3]).
  destruct (stage _ _ _ _ _ _ (v_d checked) (plain_newMonitor false _) E3 O2 (NoAl _) P2 K2 X45 Ro Ts) as [(ev3 & R3 & F3)|B]; [|auto].
  destruct (stage _ _ _ _ _ _ (v_d checked) (plain_owner _ _) E5 O2 (fun _ => Al) P4 K4 (ext_refl _) Ro Ts) as [(ev5 & R5 & F5)|B]; [|auto].
  assert (N2 : v_n v2 = n). { destruct Sm3 as (_ & _ & A3 & _). destruct Sm4 as (_ & _ & A4 & _). destruct Sm5 as (_ & _ & A5 & _). congruence. }
  assert (Hcl : exists clb, forall w com, clb w com = true <-> cl w com). { exists (keepsb ls). rewrite Ecl. apply keepsb_iff. } destruct Hcl as (clb & Hcl).
  rewrite N2 in R3. destruct (newMonitor_proven vrf l es trees cl clb Hcl P Hord _ _ _ _ R3 F3) as (M1 & M2 & M3 & M4).
  destruct (stage _ _ _ _ _ _ (v_d checked) (plain_contact _ false _) E4 O2 (NoAl _) P3 K3 X5 Ro Ts) as [(ev4 & R4 & F4)|B]; [|auto].
  destruct (contact_guards clb Hcl _ (withOwner (withContact mo0 (contactPtrs (cl_contact ls))) os) (cl_contact ls) _ _ _ _ M1 M2 eq_refl ND Fo R4 F4) as [W1 W2]. cbn [withOwner withContact mo_owner] in W1.
  apply contactMonitor_keeps in R4. cbn [withOwner withContact mo_size mo_rightmost mo_owner] in R4. destruct R4 as (C1 & C2 & C3).
  destruct (ownerMonitor_proven vrf l es trees cl clb Hcl P Hord c _ mo1 os (v_d v4) mo (v_d checked) ev5 hist exhausts Hs Hh) as (os' & A1 & A2 & A3 & A4 & A5 & A6 & A7); auto; try congruence.
  left. split; [exists os'; auto|]. split.
  - intros x v0 z t I W Ne Et. apply (W1 x v0 z t I W); [|exact Et]. intros (o & Eo' & Ho'). injection Eo' as <-. auto.
  - assert (Ec : pointsTo mo = pointsTo mo1) by (unfold pointsTo; now rewrite A2). rewrite Ec. exact W2.
Qed.

Lemma contactMonitor_guards ls req resp checked mo result root :
  NoDup (map fst (cl_contact ls)) -> Forall (fun p => fst p < n) (cl_contact ls) -> l = cq_label req -> cl = keeps ls -> genuineKeys vrf l ls -> okMonitorResponse c resp ->
  checkContactMonitor H hs c now state ls req resp = Ok (checked, mo) -> v_n checked = n ->
  dpFinish H hs (v_d checked) (v_n checked) (v_nP checked) (v_m checked) = Ok result -> logRoot H hs (v_n checked) (pr_subtrees result) = Ok root -> Mth H leaves root ->
  staysShown n (timeAt es) (pc_rmw c) vrf l cl trees (fun _ => False) (cl_contact ls) /\ movedUp n (timeAt es) (pc_rmw c) (cl_contact ls) (pointsTo mo)
  \/ broken f nhs T.
Proof.
  intros ND Fo El Ecl G Or E En Ef Er Em. unfold checkContactMonitor in E.
  apply bind_ok in E. destruct E as (v & E0 & E). apply bind_ok in E. destruct E as (v1 & E1 & E). apply bind_ok in E. destruct E as ([u v2] & E2 & E).
  apply bind_ok in E. destruct E as ([mo0 v3] & E3 & E). apply bind_ok in E. destruct E as ([mo1 v4] & E4 & E). injection E as -> ->.
  destruct Or as (_ & Or). rewrite Hc in Or. destruct Or as (O1 & O2 & O3 & O4).
  destruct (start_fresh _ _ _ _ E0 O1) as [Fr Vv]. destruct (labelState_keys ls v v1 E1 G Vv) as (vm & Q1 & Kv). rewrite <- Ecl in Kv.
  pose proof (fresh_versions _ _ vm Fr) as Fr1. rewrite <- Q1 in Fr1.
  pose proof (execV_same _ _ _ _ _ _ E2) as Sm2. pose proof (execV_same _ _ _ _ _ _ E3) as Sm3. pose proof (execV_same _ _ _ _ _ _ E4) as Sm4.
  destruct (execV_run _ _ _ _ E2) as (_ & _ & X2). destruct (execV_run _ _ _ _ E3) as (_ & _ & X3). destruct (execV_run _ _ _ _ E4) as (_ & _ & X4).
  pose proof (ext_trans _ _ _ X3 X4) as X34. pose proof (ext_trans _ _ _ X2 X34) as X24.
  assert (Hm : match v_m checked with Some k => k <= n | None => True end).
  { destruct (v_m checked) as [k|] eqn:Ek; [|exact I]. destruct Sm2 as (_ & _ & A2 & _ & B2). destruct Sm3 as (_ & _ & A3 & _ & B3). destruct Sm4 as (_ & _ & A4 & _ & B4).
    assert (Mk : v_m v1 = Some k) by congruence. pose proof (updateView_needs _ _ _ _ _ _ _ _ Mk E2). rewrite <- En. congruence. }
  rewrite En in Ef, Er. destruct (final_log _ _ _ _ _ _ _ Fr1 X24 Ef Er Em Hm) as [[Ro Ts]|B]; [|auto].
  assert (Kv1 : keysKnown vrf l cl (vers (v_d v1))). { rewrite Q1. exact Kv. }
  assert (P1 : incl (r_proofs (d_handle (v_d v1))) (cp_proofs (mr_monitor resp))). { destruct Fr1 as (-> & _). apply incl_refl. }
  assert (K2 : keysKnown vrf l cl (vers (v_d v2))) by (rewrite (x_vers _ _ X2); exact Kv1).
  assert (K3 : keysKnown vrf l cl (vers (v_d v3))) by (rewrite (x_vers _ _ X3); exact K2).
  assert (P2 : incl (r_proofs (d_handle (v_d v2))) (cp_proofs (mr_monitor resp))) by (eapply incl_tran; [apply (x_proofs _ _ X2)|exact P1]).
  assert (P3 : incl (r_proofs (d_handle (v_d v3))) (cp_proofs (mr_monitor resp))) by (eapply incl_tran; [apply (x_proofs _ _ X3)|exact P2]).
  destruct (stage _ _ _ _ _ _ (v_d checked) (plain_newMonitor false _) E3 O2 (NoAl _) P2 K2 X4 Ro Ts) as [(ev3 & R3 & F3)|B]; [|auto].
  destruct (stage _ _ _ _ _ _ (v_d checked) (plain_contact _ false _) E4 O2 (NoAl _) P3 K3 (ext_refl _) Ro Ts) as [(ev4 & R4 & F4)|B]; [|auto].
  assert (N2 : v_n v2 = n). { destruct Sm3 as (_ & _ & A3 & _). destruct Sm4 as (_ & _ & A4 & _). congruence. }
  assert (Hcl : exists clb, forall w com, clb w com = true <-> cl w com). { exists (keepsb ls). rewrite Ecl. apply keepsb_iff. } destruct Hcl as (clb & Hcl).
  rewrite N2 in R3. destruct (newMonitor_proven vrf l es trees cl clb Hcl P Hord _ _ _ _ R3 F3) as (M1 & M2 & M3 & M4).
  left. destruct (contact_guards clb Hcl _ (withContact mo0 (contactPtrs (cl_contact ls))) (cl_contact ls) _ _ _ _ M1 M2 eq_refl ND Fo R4 F4) as [W1 W2]. cbn [withContact mo_owner] in W1. split; [|exact W2].
  intros x v0 z t I W _ Et. apply (W1 x v0 z t I W); [|exact Et]. rewrite M4. intros (o & Eo' & _). discriminate.
Qed.

Lemma ownerInit_guards vrfVerify req resp checked xs mo result root : vrfVerifies vrf vrfVerify ->
  l = iq_label req -> cl = initClaims resp -> okOwnerInitResponse c resp -> aliasFree vrf l cl (cp_proofs (ir_init resp)) ->
  checkOwnerInit H hs c now vrfVerify state req resp = Ok (checked, xs, mo) -> v_n checked = n ->
  dpFinish H hs (v_d checked) (v_n checked) (v_nP checked) (v_m checked) = Ok result -> logRoot H hs (v_n checked) (pr_subtrees result) = Ok root -> Mth H leaves root ->
  (let L := {| h_n := n; h_ts := timeAt es; h_g := fun _ => (-1)%Z |} in
   distinguished n (timeAt es) (pc_rmw c) (iq_start req) /\ unexpired c L (iq_start req) /\ initialEntries c L (iq_start req) xs /\
   mo_owner mo = Some {| os_starting := iq_start req; os_verAt := claimed (ir_versions resp) 0; os_upcoming := [] |} /\
   forall i x t, nth_error xs i = Some x -> nth_error trees (N.to_nat x) = Some t -> showsGreatest vrf l cl t (claimed (ir_versions resp) i))
  \/ broken f nhs T.
Proof.
  intros Hv El Ecl Or Al E En Ef Er Em. unfold checkOwnerInit in E.
  apply bind_ok in E. destruct E as (v & E0 & E). apply bind_ok in E. destruct E as (ladder & El1 & E). apply bind_ok in E. destruct E as (v1 & E1 & E).
  destruct (existsb _ _); [discriminate|]. apply bind_ok in E. destruct E as ([u v2] & E2 & E).
  apply bind_ok in E. destruct E as ([mo0 v3] & E3 & E). apply bind_ok in E. destruct E as ([[xs' mo'] v4] & E4 & E). injection E as -> -> ->.
  destruct Or as (_ & _ & _ & Or). rewrite Hc in Or. destruct Or as (O1 & O2 & O3 & O4).
  destruct (start_fresh _ _ _ _ E0 O1) as [Fr Vv]. rewrite <- El in E1. destruct (ladder_keys vrfVerify resp v v1 ladder Hv El1 Vv E1) as (vm & Q1 & Kv). rewrite <- Ecl in Kv.
  pose proof (fresh_versions _ _ vm Fr) as Fr1. rewrite <- Q1 in Fr1.
  pose proof (execV_same _ _ _ _ _ _ E2) as Sm2. pose proof (execV_same _ _ _ _ _ _ E3) as Sm3. pose proof (execV_same _ _ _ _ _ _ E4) as Sm4.
  destruct (execV_run _ _ _ _ E2) as (_ & _ & X2). destruct (execV_run _ _ _ _ E3) as (_ & _ & X3). destruct (execV_run _ _ _ _ E4) as (_ & _ & X4).
  pose proof (ext_trans _ _ _ X3 X4) as X34. pose proof (ext_trans _ _ _ X2 X34) as X24.
  assert (Hm : match v_m checked with Some k => k <= n | None => True end).
  { destruct (v_m checked) as [k|] eqn:Ek; [|exact I]. destruct Sm2 as (_ & _ & A2 & _ & B2). destruct Sm3 as (_ & _ & A3 & _ & B3). destruct Sm4 as (_ & _ & A4 & _ & B4).
    assert (Mk : v_m v1 = Some k) by congruence. pose proof (updateView_needs _ _ _ _ _ _ _ _ Mk E2). rewrite <- En. congruence. }
  rewrite En in Ef, Er. destruct (final_log _ _ _ _ _ _ _ Fr1 X24 Ef Er Em Hm) as [[Ro Ts]|B]; [|auto].
  assert (Kv1 : keysKnown vrf l cl (vers (v_d v1))). { rewrite Q1. exact Kv. }
  assert (P1 : incl (r_proofs (d_handle (v_d v1))) (cp_proofs (ir_init resp))). { destruct Fr1 as (-> & _). apply incl_refl. }
  assert (K2 : keysKnown vrf l cl (vers (v_d v2))) by (rewrite (x_vers _ _ X2); exact Kv1).
  assert (K3 : keysKnown vrf l cl (vers (v_d v3))) by (rewrite (x_vers _ _ X3); exact K2).
  assert (P2 : incl (r_proofs (d_handle (v_d v2))) (cp_proofs (ir_init resp))) by (eapply incl_tran; [apply (x_proofs _ _ X2)|exact P1]).
  assert (P3 : incl (r_proofs (d_handle (v_d v3))) (cp_proofs (ir_init resp))) by (eapply incl_tran; [apply (x_proofs _ _ X3)|exact P2]).
  destruct (stage _ _ _ _ _ _ (v_d checked) (plain_newMonitor false _) E3 O2 (NoAl _) P2 K2 X4 Ro Ts) as [(ev3 & R3 & F3)|B]; [|auto].
  destruct (stage _ _ _ _ _ _ (v_d checked) (plain_init _ _ _ _) E4 O2 (fun _ => Al) P3 K3 (ext_refl _) Ro Ts) as [(ev4 & R4 & F4)|B]; [|auto].
  assert (N2 : v_n v2 = n). { destruct Sm3 as (_ & _ & A3 & _). destruct Sm4 as (_ & _ & A4 & _). congruence. }
  assert (Hcl : exists clb, forall w com, clb w com = true <-> cl w com). { exists (initClaimsb resp). rewrite Ecl. apply initClaimsb_iff. } destruct Hcl as (clb & Hcl).
  rewrite N2 in R3. destruct (newMonitor_proven vrf l es trees cl clb Hcl P Hord _ _ _ _ R3 F3) as (M1 & M2 & M3 & M4).
  destruct (ownerInit_proven vrf l es trees cl clb Hcl P Hord c mo0 (iq_start req) (ir_versions resp) (v_d v3) xs mo (v_d checked) ev4 M1 M2 R4 F4) as (A1 & A2 & A3 & A4 & A5 & A6).
  left. cbn zeta. split; [exact A1|]. split; [exact A2|]. split; [exact A3|]. split; [exact A5|exact A6].
Qed.
End Checks.
